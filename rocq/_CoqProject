-Q theories Verif
theories/Base.v
theories/BaseProofs.v
theories/PrimModel.v
theories/PrimProofs.v
theories/ReaderModel.v
theories/ReaderSpec.v
theories/ReaderScript.v
theories/ReaderProofs.v
theories/ReaderProofs2.v
theories/ReaderProofs3.v
theories/ReaderProofs4.v
theories/ReaderProofs5.v
theories/PropsPrimProofs.v
theories/PropsPrim.v
theories/PropsReaderProofs.v
theories/PropsReader.v
theories/ReadInv.v
theories/NameModel.v
theories/NameProofs.v
theories/OrderProofs.v
theories/PatternProofs.v
theories/PropsNameProofs.v
theories/PropsName.v
theories/TextModel.v
theories/TextProofs.v
theories/TextProofs2.v
theories/TextProofs3.v
theories/PropsText.v
theories/HeapModel.v
theories/HeapSpec.v
theories/HeapProofs.v
theories/HeapProofs2.v
theories/PropsHeap.v
theories/TrieModel.v
theories/TrieSpec.v
theories/TrieProofs.v
theories/PropsTrie.v
theories/EngineModel.v
theories/EngineSpec.v
theories/EngineProofs.v
theories/EngineProofs2.v
theories/EngineProofs3.v
theories/PropsEngine.v
theories/FibModel.v
theories/FibSpec.v
theories/FibProofs.v
theories/PropsFib.v
theories/StreamModel.v
theories/StreamProofs.v
theories/PropsStream.v
theories/DummyModel.v
theories/DummySpec.v
theories/DummyProofs.v
theories/PropsDummy.v
theories/CodecModel.v
theories/CodecSpec.v
theories/CodecProofs.v
theories/CodecEnc.v
theories/CodecEnc2.v
theories/CodecEnc3.v
theories/CodecEnc4.v
theories/CodecEnc5.v
theories/CodecLib.v
theories/PropsCodec.v
theories/CodecSpec2.v
theories/CodecPar.v
theories/CodecPar2.v
theories/CodecKeep.v
theories/CodecPar3.v
theories/CodecPar4.v
theories/PropsCodec2.v
theories/CodecSpec3.v
theories/CodecNoise.v
theories/CodecNoise2.v
theories/PropsCodec3.v
theories/CodecSpec4.v
theories/CodecTotal.v
theories/PropsCodec4.v
theories/SpecModel.v
theories/SpecSpec.v
theories/SpecProofs.v
theories/SpecData.v
theories/SpecInt.v
theories/SpecMore.v
theories/PropsSpec.v
theories/CodecOne.v
theories/RecvModel.v
theories/RecvSpec.v
theories/RecvProofs.v
theories/RecvProofs2.v
theories/PropsRecv.v
theories/CodecWire1.v
theories/SyncModel.v
theories/SyncSpec.v
theories/SyncProofs.v
theories/SyncProofs2.v
theories/SyncProofs3.v
theories/SyncWire.v
theories/PropsSync.v
theories/SchemaModel.v
theories/SchemaSpec.v
theories/SchemaProofs.v
theories/PropsSchema.v
theories/StoreModel.v
theories/StoreSpec.v
theories/StoreProofs.v
theories/PropsStore.v
theories/NeedModel.v
theories/NeedSpec.v
theories/NeedProofs.v
theories/PropsNeed.v
theories/SegModel.v
theories/SegSpec.v
theories/SegProofs.v
theories/SegProofs2.v
theories/PropsSeg.v
theories/RdrSpec.v
theories/RdrProofs.v
theories/PropsRdr.v
theories/EncryptModel.v
theories/EncryptSpec.v
theories/EncryptProofs.v
theories/PropsEncrypt.v
theories/SecModel.v
theories/SecSpec.v
theories/SecProofs.v
theories/PropsSec.v
theories/DemoModel.v
theories/DemoSpec.v
theories/DemoProofs.v
theories/PropsDemo.v
theories/CrdtModel.v
theories/CrdtSpec.v
theories/CrdtLinks.v
theories/CrdtRefine.v
theories/CrdtOps.v
theories/CrdtProofs.v
theories/CrdtMerge.v
theories/CrdtQueue.v
theories/PropsCrdt.v
theories/SnModel.v
theories/SnSpec.v
theories/SnProofs.v
theories/SnProofs2.v
theories/SnGroup.v
theories/SnWire.v
theories/PropsSn.v
theories/CodecExact.v
theories/MgmtModel.v
theories/MgmtSpec.v
theories/MgmtProofs.v
theories/PropsMgmt.v
theories/PibModel.v
theories/PibSpec.v
theories/PibProofs.v
theories/PropsPib.v
theories/DictModel.v
theories/DictSpec.v
theories/DictProofs.v
theories/PropsDict.v
theories/AttrModel.v
theories/AttrSpec.v
theories/AttrProofs.v
theories/AttrProofs2.v
theories/PropsAttr.v
theories/FaceModel.v
theories/FaceSpec.v
theories/FaceProofs.v
theories/FaceProofs2.v
theories/FaceProofs3.v
theories/WsModel.v
theories/WsSpec.v
theories/WsProofs.v
theories/PropsFace.v
theories/EvtModel.v
theories/EvtSpec.v
theories/EvtProofs.v
theories/PolModel.v
theories/PolSpec.v
theories/PolProofs.v
theories/AttachModel.v
theories/AttachSpec.v
theories/AttachProofs.v
theories/PropsEvt.v
theories/PropsPol.v
theories/PropsAttach.v
theories/GenModel.v
theories/GenSpec.v
theories/GenSrc.v
theories/GenProofs.v
theories/PropsGen.v
theories/LogModel.v
theories/LogSpec.v
theories/LogProofs.v
theories/PropsLog.v
theories/LockModel.v
theories/LockSpec.v
theories/LockProofs.v
theories/PropsLock.v
theories/AliasModel.v
theories/AliasSpec.v
theories/AliasProofs.v
theories/PropsAlias.v
theories/WasmModel.v
theories/WasmSpec.v
theories/WasmProofs.v
theories/PropsWasm.v
theories/ClockModel.v
theories/ClockSpec.v
theories/ClockProofs.v
theories/PropsClock.v
theories/FetchModel.v
theories/FetchSpec.v
theories/FetchProofs.v
theories/PropsFetch.v
theories/AuthProofs.v
theories/AuthInt.v
theories/AuthInt2.v
theories/PropsAuth.v
theories/EdgeProofs.v
theories/EdgePkt.v
theories/EdgeNum.v
theories/PropsEdge.v
theories/UriSpec.v
theories/UriProofs.v
theories/PropsUri.v
theories/LifeModel.v
theories/LifeSpec.v
theories/LifeProofs.v
theories/PropsLife.v
