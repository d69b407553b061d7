(** The TLV structures of the library, as models: one definition for each structure
    with TLV annotations, in the order of its fields.  A marker field has type 0. *)
From Verif Require Import Base CodecModel.

(** pkg/ndn/spec_2022/definitions.go, lines 10-15 *)
Definition spec_KeyLocator : model :=
  Model false false
  [ (7%N, KName) (* Name *)
  ; (29%N, KBin) (* KeyDigest *)
  ].

(** pkg/ndn/spec_2022/definitions.go, lines 17-20 *)
Definition spec_Links : model :=
  Model false false
  [ (7%N, KSeq (KName)) (* Names *)
  ].

(** pkg/ndn/spec_2022/definitions.go, lines 22-29 *)
Definition spec_MetaInfo : model :=
  Model false false
  [ (24%N, KNat true) (* ContentType *)
  ; (25%N, KTime true) (* FreshnessPeriod *)
  ; (26%N, KBin) (* FinalBlockID *)
  ].

(** pkg/ndn/spec_2022/definitions.go, lines 31-36 *)
Definition spec_ValidityPeriod : model :=
  Model false false
  [ (254%N, KStr false) (* NotBefore *)
  ; (255%N, KStr false) (* NotAfter *)
  ].

(** pkg/ndn/spec_2022/definitions.go, lines 38-43 *)
Definition spec_CertDescriptionEntry : model :=
  Model false false
  [ (513%N, KStr false) (* DescriptionKey *)
  ; (514%N, KStr false) (* DescriptionValue *)
  ].

(** pkg/ndn/spec_2022/definitions.go, lines 45-48 *)
Definition spec_CertAdditionalDescription : model :=
  Model false false
  [ (512%N, KSeq (KStruct spec_CertDescriptionEntry false)) (* DescriptionEntries *)
  ].

(** pkg/ndn/spec_2022/definitions.go, lines 50-65 *)
Definition spec_SignatureInfo : model :=
  Model false false
  [ (27%N, KNat false) (* SignatureType *)
  ; (28%N, KStruct spec_KeyLocator false) (* KeyLocator *)
  ; (38%N, KBin) (* SignatureNonce *)
  ; (40%N, KTime true) (* SignatureTime *)
  ; (42%N, KNat true) (* SignatureSeqNum *)
  ; (253%N, KStruct spec_ValidityPeriod false) (* ValidityPeriod *)
  ; (258%N, KStruct spec_CertAdditionalDescription false) (* AdditionalDescription *)
  ].

(** pkg/ndn/spec_2022/definitions.go, lines 74-77 *)
Definition spec_NetworkNack : model :=
  Model false false
  [ (801%N, KNat false) (* Reason *)
  ].

(** pkg/ndn/spec_2022/definitions.go, lines 79-82 *)
Definition spec_CachePolicy : model :=
  Model false false
  [ (821%N, KNat false) (* CachePolicyType *)
  ].

(** pkg/ndn/spec_2022/definitions.go, lines 85-115 *)
Definition spec_LpPacket : model :=
  Model true false
  [ (81%N, KFixed 8 true) (* Sequence *)
  ; (82%N, KNat true) (* FragIndex *)
  ; (83%N, KNat true) (* FragCount *)
  ; (98%N, KBin) (* PitToken *)
  ; (800%N, KStruct spec_NetworkNack false) (* Nack *)
  ; (812%N, KNat true) (* IncomingFaceId *)
  ; (816%N, KNat true) (* NextHopFaceId *)
  ; (820%N, KStruct spec_CachePolicy false) (* CachePolicy *)
  ; (832%N, KNat true) (* CongestionMark *)
  ; (836%N, KFixed 8 true) (* Ack *)
  ; (840%N, KFixed 8 true) (* TxSequence *)
  ; (844%N, KBool) (* NonDiscovery *)
  ; (848%N, KWire) (* PrefixAnnouncement *)
  ; (80%N, KWire) (* Fragment *)
  ].

(** pkg/ndn/spec_2022/definitions.go, lines 118-153 *)
Definition spec_Interest : model :=
  Model true true
  [ (0%N, KArg) (* sigCovered *)
  ; (0%N, KArg) (* digestCovered *)
  ; (7%N, KIName 0) (* NameV *)
  ; (33%N, KBool) (* CanBePrefixV *)
  ; (18%N, KBool) (* MustBeFreshV *)
  ; (30%N, KStruct spec_Links false) (* ForwardingHintV *)
  ; (10%N, KFixed 4 true) (* NonceV *)
  ; (12%N, KTime true) (* InterestLifetimeV *)
  ; (34%N, KFixed 1 true) (* HopLimitV *)
  ; (0%N, KOffset) (* sigCoverStart *)
  ; (0%N, KOffset) (* digestCoverStart *)
  ; (36%N, KWire) (* ApplicationParameters *)
  ; (44%N, KStruct spec_SignatureInfo false) (* SignatureInfo *)
  ; (46%N, KSig 9 0) (* SignatureValue *)
  ; (0%N, KRange 10 1) (* digestCoverEnd *)
  ].

(** pkg/ndn/spec_2022/definitions.go, lines 156-172 *)
Definition spec_Data : model :=
  Model true true
  [ (0%N, KArg) (* sigCovered *)
  ; (0%N, KOffset) (* sigCoverStart *)
  ; (7%N, KName) (* NameV *)
  ; (20%N, KStruct spec_MetaInfo false) (* MetaInfo *)
  ; (21%N, KWire) (* ContentV *)
  ; (22%N, KStruct spec_SignatureInfo false) (* SignatureInfo *)
  ; (23%N, KSig 1 0) (* SignatureValue *)
  ].

(** pkg/ndn/spec_2022/definitions.go, lines 175-182 *)
Definition spec_Packet : model :=
  Model true false
  [ (5%N, KStruct spec_Interest true) (* Interest *)
  ; (6%N, KStruct spec_Data true) (* Data *)
  ; (100%N, KStruct spec_LpPacket true) (* LpPacket *)
  ].

(** pkg/ndn/mgmt_2022/definitions.go, lines 52-55 *)
Definition mgmt_Strategy : model :=
  Model false false
  [ (7%N, KName) (* Name *)
  ].

(** pkg/ndn/mgmt_2022/definitions.go, lines 58-93 *)
Definition mgmt_ControlArgs : model :=
  Model false false
  [ (7%N, KName) (* Name *)
  ; (105%N, KNat true) (* FaceId *)
  ; (114%N, KStr true) (* Uri *)
  ; (129%N, KStr true) (* LocalUri *)
  ; (111%N, KNat true) (* Origin *)
  ; (106%N, KNat true) (* Cost *)
  ; (131%N, KNat true) (* Capacity *)
  ; (132%N, KNat true) (* Count *)
  ; (108%N, KNat true) (* Flags *)
  ; (112%N, KNat true) (* Mask *)
  ; (107%N, KStruct mgmt_Strategy false) (* Strategy *)
  ; (109%N, KNat true) (* ExpirationPeriod *)
  ; (133%N, KNat true) (* FacePersistency *)
  ; (135%N, KNat true) (* BaseCongestionMarkInterval *)
  ; (136%N, KNat true) (* DefaultCongestionThreshold *)
  ; (137%N, KNat true) (* Mtu *)
  ].

(** pkg/ndn/mgmt_2022/definitions.go, lines 96-103 *)
Definition mgmt_ControlResponseVal : model :=
  Model false false
  [ (102%N, KNat false) (* StatusCode *)
  ; (103%N, KStr false) (* StatusText *)
  ; (104%N, KStruct mgmt_ControlArgs false) (* Params *)
  ].

(** pkg/ndn/mgmt_2022/definitions.go, lines 105-108 *)
Definition mgmt_ControlParameters : model :=
  Model false false
  [ (104%N, KStruct mgmt_ControlArgs false) (* Val *)
  ].

(** pkg/ndn/mgmt_2022/definitions.go, lines 110-113 *)
Definition mgmt_ControlResponse : model :=
  Model false false
  [ (101%N, KStruct mgmt_ControlResponseVal false) (* Val *)
  ].

(** pkg/ndn/mgmt_2022/definitions.go, lines 115-132 *)
Definition mgmt_FaceEventNotificationValue : model :=
  Model false false
  [ (193%N, KNat false) (* FaceEventKind *)
  ; (105%N, KNat false) (* FaceId *)
  ; (114%N, KStr false) (* Uri *)
  ; (129%N, KStr false) (* LocalUri *)
  ; (132%N, KNat false) (* FaceScope *)
  ; (133%N, KNat false) (* FacePersistency *)
  ; (134%N, KNat false) (* LinkType *)
  ; (108%N, KNat false) (* Flags *)
  ].

(** pkg/ndn/mgmt_2022/definitions.go, lines 134-137 *)
Definition mgmt_FaceEventNotification : model :=
  Model false false
  [ (192%N, KStruct mgmt_FaceEventNotificationValue false) (* Val *)
  ].

(** pkg/ndn/mgmt_2022/definitions.go, lines 139-191 *)
Definition mgmt_GeneralStatus : model :=
  Model false false
  [ (128%N, KStr false) (* NfdVersion *)
  ; (129%N, KNat false) (* StartTimestamp *)
  ; (130%N, KNat false) (* CurrentTimestamp *)
  ; (131%N, KNat false) (* NNameTreeEntries *)
  ; (132%N, KNat false) (* NFibEntries *)
  ; (133%N, KNat false) (* NPitEntries *)
  ; (134%N, KNat false) (* NMeasurementsEntries *)
  ; (135%N, KNat false) (* NCsEntries *)
  ; (144%N, KNat false) (* NInInterests *)
  ; (145%N, KNat false) (* NInData *)
  ; (151%N, KNat false) (* NInNacks *)
  ; (146%N, KNat false) (* NOutInterests *)
  ; (147%N, KNat false) (* NOutData *)
  ; (152%N, KNat false) (* NOutNacks *)
  ; (153%N, KNat false) (* NSatisfiedInterests *)
  ; (154%N, KNat false) (* NUnsatisfiedInterests *)
  ; (200%N, KNat true) (* NFragmentationError *)
  ; (201%N, KNat true) (* NOutOverMtu *)
  ; (202%N, KNat true) (* NInLpInvalid *)
  ; (203%N, KNat true) (* NReassemblyTimeouts *)
  ; (204%N, KNat true) (* NInNetInvalid *)
  ; (205%N, KNat true) (* NAcknowledged *)
  ; (206%N, KNat true) (* NRetransmitted *)
  ; (207%N, KNat true) (* NRetxExhausted *)
  ; (208%N, KNat true) (* NConngestionMarked *)
  ].

(** pkg/ndn/mgmt_2022/definitions.go, lines 193-234 *)
Definition mgmt_FaceStatus : model :=
  Model false false
  [ (105%N, KNat false) (* FaceId *)
  ; (114%N, KStr false) (* Uri *)
  ; (129%N, KStr false) (* LocalUri *)
  ; (109%N, KNat true) (* ExpirationPeriod *)
  ; (132%N, KNat false) (* FaceScope *)
  ; (133%N, KNat false) (* FacePersistency *)
  ; (134%N, KNat false) (* LinkType *)
  ; (135%N, KNat true) (* BaseCongestionMarkInterval *)
  ; (136%N, KNat true) (* DefaultCongestionThreshold *)
  ; (137%N, KNat true) (* Mtu *)
  ; (144%N, KNat false) (* NInInterests *)
  ; (145%N, KNat false) (* NInData *)
  ; (151%N, KNat false) (* NInNacks *)
  ; (146%N, KNat false) (* NOutInterests *)
  ; (147%N, KNat false) (* NOutData *)
  ; (152%N, KNat false) (* NOutNacks *)
  ; (148%N, KNat false) (* NInBytes *)
  ; (149%N, KNat false) (* NOutBytes *)
  ; (108%N, KNat false) (* Flags *)
  ].

(** pkg/ndn/mgmt_2022/definitions.go, lines 236-239 *)
Definition mgmt_FaceStatusMsg : model :=
  Model false false
  [ (128%N, KSeq (KStruct mgmt_FaceStatus false)) (* Vals *)
  ].

(** pkg/ndn/mgmt_2022/definitions.go, lines 241-256 *)
Definition mgmt_FaceQueryFilterValue : model :=
  Model false false
  [ (105%N, KNat true) (* FaceId *)
  ; (131%N, KStr true) (* UriScheme *)
  ; (114%N, KStr true) (* Uri *)
  ; (129%N, KStr true) (* LocalUri *)
  ; (132%N, KNat true) (* FaceScope *)
  ; (133%N, KNat true) (* FacePersistency *)
  ; (134%N, KNat true) (* LinkType *)
  ].

(** pkg/ndn/mgmt_2022/definitions.go, lines 258-261 *)
Definition mgmt_FaceQueryFilter : model :=
  Model false false
  [ (150%N, KStruct mgmt_FaceQueryFilterValue false) (* Val *)
  ].

(** pkg/ndn/mgmt_2022/definitions.go, lines 263-274 *)
Definition mgmt_Route : model :=
  Model false false
  [ (105%N, KNat false) (* FaceId *)
  ; (111%N, KNat false) (* Origin *)
  ; (106%N, KNat false) (* Cost *)
  ; (108%N, KNat false) (* Flags *)
  ; (109%N, KNat true) (* ExpirationPeriod *)
  ].

(** pkg/ndn/mgmt_2022/definitions.go, lines 276-281 *)
Definition mgmt_RibEntry : model :=
  Model false false
  [ (7%N, KName) (* Name *)
  ; (129%N, KSeq (KStruct mgmt_Route false)) (* Routes *)
  ].

(** pkg/ndn/mgmt_2022/definitions.go, lines 283-286 *)
Definition mgmt_RibStatus : model :=
  Model false false
  [ (128%N, KSeq (KStruct mgmt_RibEntry false)) (* Entries *)
  ].

(** pkg/ndn/mgmt_2022/definitions.go, lines 288-293 *)
Definition mgmt_NextHopRecord : model :=
  Model false false
  [ (105%N, KNat false) (* FaceId *)
  ; (106%N, KNat false) (* Cost *)
  ].

(** pkg/ndn/mgmt_2022/definitions.go, lines 295-300 *)
Definition mgmt_FibEntry : model :=
  Model false false
  [ (7%N, KName) (* Name *)
  ; (129%N, KSeq (KStruct mgmt_NextHopRecord false)) (* NextHopRecords *)
  ].

(** pkg/ndn/mgmt_2022/definitions.go, lines 302-305 *)
Definition mgmt_FibStatus : model :=
  Model false false
  [ (128%N, KSeq (KStruct mgmt_FibEntry false)) (* Entries *)
  ].

(** pkg/ndn/mgmt_2022/definitions.go, lines 307-312 *)
Definition mgmt_StrategyChoice : model :=
  Model false false
  [ (7%N, KName) (* Name *)
  ; (107%N, KStruct mgmt_Strategy false) (* Strategy *)
  ].

(** pkg/ndn/mgmt_2022/definitions.go, lines 314-317 *)
Definition mgmt_StrategyChoiceMsg : model :=
  Model false false
  [ (128%N, KSeq (KStruct mgmt_StrategyChoice false)) (* StrategyChoices *)
  ].

(** pkg/ndn/mgmt_2022/definitions.go, lines 319-330 *)
Definition mgmt_CsInfo : model :=
  Model false false
  [ (131%N, KNat false) (* Capacity *)
  ; (108%N, KNat false) (* Flags *)
  ; (135%N, KNat false) (* NCsEntries *)
  ; (129%N, KNat false) (* NHits *)
  ; (130%N, KNat false) (* NMisses *)
  ].

(** pkg/ndn/mgmt_2022/definitions.go, lines 332-335 *)
Definition mgmt_CsInfoMsg : model :=
  Model false false
  [ (128%N, KStruct mgmt_CsInfo false) (* CsInfo *)
  ].

(** pkg/schema/demosec/tlv.go, lines 7-16 *)
Definition demosec_EncryptedContent : model :=
  Model true false
  [ (130%N, KBin) (* KeyId *)
  ; (132%N, KBin) (* Iv *)
  ; (134%N, KNat false) (* ContentLength *)
  ; (136%N, KWire) (* CipherText *)
  ].

(** pkg/schema/rdr/tlv.go, lines 6-11 *)
Definition rdr_ManifestDigest : model :=
  Model false false
  [ (204%N, KNat false) (* SegNo *)
  ; (206%N, KBin) (* Digest *)
  ].

(** pkg/schema/rdr/tlv.go, lines 13-16 *)
Definition rdr_ManifestData : model :=
  Model false false
  [ (202%N, KSeq (KStruct rdr_ManifestDigest false)) (* Entries *)
  ].

(** pkg/schema/rdr/tlv.go, lines 18-39 *)
Definition rdr_MetaData : model :=
  Model false false
  [ (7%N, KName) (* Name *)
  ; (26%N, KBin) (* FinalBlockID *)
  ; (62720%N, KNat true) (* SegmentSize *)
  ; (62722%N, KNat true) (* Size *)
  ; (62724%N, KNat true) (* Mode *)
  ; (62726%N, KNat true) (* Atime *)
  ; (62728%N, KNat true) (* Btime *)
  ; (62730%N, KNat true) (* Ctime *)
  ; (62732%N, KNat true) (* Mtime *)
  ; (62734%N, KStr true) (* ObjectType *)
  ].

(** pkg/schema/svs/tlv.go, lines 4-9 *)
Definition svs_StateVecEntry : model :=
  Model false false
  [ (7%N, KBin) (* NodeId *)
  ; (204%N, KNat false) (* SeqNo *)
  ].

(** pkg/schema/svs/tlv.go, lines 11-14 *)
Definition svs_StateVec : model :=
  Model false false
  [ (202%N, KSeq (KStruct svs_StateVecEntry false)) (* Entries *)
  ].

(** pkg/schema/svs/tlv.go, lines 16-19 *)
Definition svs_StateVecAppParam : model :=
  Model false false
  [ (201%N, KStruct svs_StateVec false) (* Entries *)
  ].

(** pkg/sync/tlv.go, lines 18-23 *)
Definition sync_StateVectorEntry : model :=
  Model false false
  [ (7%N, KName) (* NodeId *)
  ; (204%N, KNat false) (* SeqNo *)
  ].

(** pkg/sync/tlv.go, lines 13-16 *)
Definition sync_StateVector : model :=
  Model false false
  [ (202%N, KSeq (KStruct sync_StateVectorEntry false)) (* Entries *)
  ].

(** pkg/sync/tlv.go, lines 8-11 *)
Definition sync_StateVectorAppParam : model :=
  Model false false
  [ (201%N, KStruct sync_StateVector false) (* StateVector *)
  ].

(** pkg/security/ndncert_0_3/tlv.go, lines 8-19 *)
Definition ndncert_CaProfile : model :=
  Model false false
  [ (129%N, KName) (* CaPrefix *)
  ; (131%N, KStr false) (* CaInfo *)
  ; (133%N, KSeq (KStr false)) (* ParamKey *)
  ; (139%N, KNat false) (* MaxValidPeriod *)
  ; (137%N, KWire) (* CaCert *)
  ].

(** pkg/security/ndncert_0_3/tlv.go, lines 21-24 *)
Definition ndncert_ProbeIntAppParam : model :=
  Model false false
  [ (133%N, KMap (KStr false) 135 (KBin)) (* Params *)
  ].

(** pkg/security/ndncert_0_3/tlv.go, lines 26-31 *)
Definition ndncert_ProbeRes : model :=
  Model false false
  [ (7%N, KName) (* Response *)
  ; (0%N, KNat true) (* MaxSuffixLength *)
  ].

(** pkg/security/ndncert_0_3/tlv.go, lines 33-36 *)
Definition ndncert_ProbeResContent : model :=
  Model false false
  [ (141%N, KSeq (KStruct ndncert_ProbeRes false)) (* Vals *)
  ].

(** pkg/security/ndncert_0_3/tlv.go, lines 38-43 *)
Definition ndncert_CmdNewInt : model :=
  Model false false
  [ (145%N, KBin) (* EcdhPub *)
  ; (147%N, KBin) (* CertReq *)
  ].

(** pkg/security/ndncert_0_3/tlv.go, lines 45-54 *)
Definition ndncert_CmdNewData : model :=
  Model false false
  [ (145%N, KBin) (* EcdhPub *)
  ; (149%N, KBin) (* Salt *)
  ; (151%N, KBin) (* ReqId *)
  ; (153%N, KSeq (KStr false)) (* Challenge *)
  ].

(** pkg/security/ndncert_0_3/tlv.go, lines 56-63 *)
Definition ndncert_CipherMsg : model :=
  Model false false
  [ (157%N, KBin) (* InitVec *)
  ; (175%N, KBin) (* AuthNTag *)
  ; (159%N, KBin) (* Payload *)
  ].

(** pkg/security/ndncert_0_3/tlv.go, lines 65-70 *)
Definition ndncert_ChallengeIntPlain : model :=
  Model false false
  [ (161%N, KStr false) (* SelectedChal *)
  ; (133%N, KMap (KStr false) 135 (KBin)) (* Params *)
  ].

(** pkg/security/ndncert_0_3/tlv.go, lines 72-87 *)
Definition ndncert_ChallengeDataPlain : model :=
  Model false false
  [ (155%N, KNat false) (* Status *)
  ; (163%N, KStr true) (* ChalStatus *)
  ; (165%N, KNat true) (* RemainTries *)
  ; (167%N, KNat true) (* RemainTime *)
  ; (169%N, KName) (* CertName *)
  ; (30%N, KName) (* ForwardingHint *)
  ; (133%N, KMap (KStr false) 135 (KBin)) (* Params *)
  ].

(** pkg/security/ndncert_0_3/tlv.go, lines 89-94 *)
Definition ndncert_ErrorMsgData : model :=
  Model false false
  [ (171%N, KNat false) (* ErrCode *)
  ; (173%N, KStr false) (* ErrInfo *)
  ].

(** examples/schema-test/shared-doc/crdt/tlv.go, lines 4-9 *)
Definition crdt_IDType : model :=
  Model false false
  [ (161%N, KNat false) (* Producer *)
  ; (163%N, KNat false) (* Clock *)
  ].

(** examples/schema-test/shared-doc/crdt/tlv.go, lines 17-28 *)
Definition crdt_Record : model :=
  Model false false
  [ (165%N, KNat false) (* RecordType *)
  ; (167%N, KStruct crdt_IDType false) (* ID *)
  ; (169%N, KStruct crdt_IDType false) (* Origin *)
  ; (170%N, KStruct crdt_IDType false) (* RightOrigin *)
  ; (172%N, KStr false) (* Content *)
  ].

(** every structure of the library *)
Definition library : list model :=
  [ spec_KeyLocator
  ; spec_Links
  ; spec_MetaInfo
  ; spec_ValidityPeriod
  ; spec_CertDescriptionEntry
  ; spec_CertAdditionalDescription
  ; spec_SignatureInfo
  ; spec_NetworkNack
  ; spec_CachePolicy
  ; spec_LpPacket
  ; spec_Interest
  ; spec_Data
  ; spec_Packet
  ; mgmt_Strategy
  ; mgmt_ControlArgs
  ; mgmt_ControlResponseVal
  ; mgmt_ControlParameters
  ; mgmt_ControlResponse
  ; mgmt_FaceEventNotificationValue
  ; mgmt_FaceEventNotification
  ; mgmt_GeneralStatus
  ; mgmt_FaceStatus
  ; mgmt_FaceStatusMsg
  ; mgmt_FaceQueryFilterValue
  ; mgmt_FaceQueryFilter
  ; mgmt_Route
  ; mgmt_RibEntry
  ; mgmt_RibStatus
  ; mgmt_NextHopRecord
  ; mgmt_FibEntry
  ; mgmt_FibStatus
  ; mgmt_StrategyChoice
  ; mgmt_StrategyChoiceMsg
  ; mgmt_CsInfo
  ; mgmt_CsInfoMsg
  ; demosec_EncryptedContent
  ; rdr_ManifestDigest
  ; rdr_ManifestData
  ; rdr_MetaData
  ; svs_StateVecEntry
  ; svs_StateVec
  ; svs_StateVecAppParam
  ; sync_StateVectorEntry
  ; sync_StateVector
  ; sync_StateVectorAppParam
  ; ndncert_CaProfile
  ; ndncert_ProbeIntAppParam
  ; ndncert_ProbeRes
  ; ndncert_ProbeResContent
  ; ndncert_CmdNewInt
  ; ndncert_CmdNewData
  ; ndncert_CipherMsg
  ; ndncert_ChallengeIntPlain
  ; ndncert_ChallengeDataPlain
  ; ndncert_ErrorMsgData
  ; crdt_IDType
  ; crdt_Record ].
