(** The declarations with TLV annotations of the library, as the Go parser hands them to
    the generator: one list per package, the structures in the order of their files.  Texts are
    copied from the sources; a field's Go type is left out (the generator does not look at it). *)
From Coq Require Import String Ascii.
From Verif Require Import Base GenModel.
Local Open Scope string_scope.

(** pkg/ndn/spec_2022/definitions.go *)
Definition spec_src : list decl :=
  [ mkDecl [] (* lines 10-15 *)
      [ mkSpec "KeyLocator" (Some
          [ mkSF ["Name"] (Some "`tlv:""0x07""`") ["//+field:name"]
          ; mkSF ["KeyDigest"] (Some "`tlv:""0x1d""`") ["//+field:binary"]
          ]) ]
  ; mkDecl [] (* lines 17-20 *)
      [ mkSpec "Links" (Some
          [ mkSF ["Names"] (Some "`tlv:""0x07""`") ["//+field:sequence:enc.Name:name"]
          ]) ]
  ; mkDecl [] (* lines 22-29 *)
      [ mkSpec "MetaInfo" (Some
          [ mkSF ["ContentType"] (Some "`tlv:""0x18""`") ["//+field:natural:optional"]
          ; mkSF ["FreshnessPeriod"] (Some "`tlv:""0x19""`") ["//+field:time:optional"]
          ; mkSF ["FinalBlockID"] (Some "`tlv:""0x1a""`") ["//+field:binary"]
          ]) ]
  ; mkDecl [] (* lines 31-36 *)
      [ mkSpec "ValidityPeriod" (Some
          [ mkSF ["NotBefore"] (Some "`tlv:""0xfe""`") ["//+field:string"]
          ; mkSF ["NotAfter"] (Some "`tlv:""0xff""`") ["//+field:string"]
          ]) ]
  ; mkDecl [] (* lines 38-43 *)
      [ mkSpec "CertDescriptionEntry" (Some
          [ mkSF ["DescriptionKey"] (Some "`tlv:""0x0201""`") ["//+field:string"]
          ; mkSF ["DescriptionValue"] (Some "`tlv:""0x0202""`") ["//+field:string"]
          ]) ]
  ; mkDecl [] (* lines 45-48 *)
      [ mkSpec "CertAdditionalDescription" (Some
          [ mkSF ["DescriptionEntries"] (Some "`tlv:""0x0200""`") ["//+field:sequence:*CertDescriptionEntry:struct:CertDescriptionEntry"]
          ]) ]
  ; mkDecl [] (* lines 50-65 *)
      [ mkSpec "SignatureInfo" (Some
          [ mkSF ["SignatureType"] (Some "`tlv:""0x1b""`") ["//+field:natural"]
          ; mkSF ["KeyLocator"] (Some "`tlv:""0x1c""`") ["//+field:struct:KeyLocator"]
          ; mkSF ["SignatureNonce"] (Some "`tlv:""0x26""`") ["//+field:binary"]
          ; mkSF ["SignatureTime"] (Some "`tlv:""0x28""`") ["//+field:time:optional"]
          ; mkSF ["SignatureSeqNum"] (Some "`tlv:""0x2a""`") ["//+field:natural:optional"]
          ; mkSF ["ValidityPeriod"] (Some "`tlv:""0xfd""`") ["//+field:struct:ValidityPeriod"]
          ; mkSF ["AdditionalDescription"] (Some "`tlv:""0x0102""`") ["//+field:struct:CertAdditionalDescription"]
          ]) ]
  ; mkDecl [] (* lines 74-77 *)
      [ mkSpec "NetworkNack" (Some
          [ mkSF ["Reason"] (Some "`tlv:""0x0321""`") ["//+field:natural"]
          ]) ]
  ; mkDecl [] (* lines 79-82 *)
      [ mkSpec "CachePolicy" (Some
          [ mkSF ["CachePolicyType"] (Some "`tlv:""0x0335""`") ["//+field:natural"]
          ]) ]
  ; mkDecl ["// +tlv-model:nocopy,private"] (* lines 84-115 *)
      [ mkSpec "LpPacket" (Some
          [ mkSF ["Sequence"] (Some "`tlv:""0x51""`") ["//+field:fixedUint:uint64:optional"]
          ; mkSF ["FragIndex"] (Some "`tlv:""0x52""`") ["//+field:natural:optional"]
          ; mkSF ["FragCount"] (Some "`tlv:""0x53""`") ["//+field:natural:optional"]
          ; mkSF ["PitToken"] (Some "`tlv:""0x62""`") ["//+field:binary"]
          ; mkSF ["Nack"] (Some "`tlv:""0x0320""`") ["//+field:struct:NetworkNack"]
          ; mkSF ["IncomingFaceId"] (Some "`tlv:""0x032C""`") ["//+field:natural:optional"]
          ; mkSF ["NextHopFaceId"] (Some "`tlv:""0x0330""`") ["//+field:natural:optional"]
          ; mkSF ["CachePolicy"] (Some "`tlv:""0x0334""`") ["//+field:struct:CachePolicy"]
          ; mkSF ["CongestionMark"] (Some "`tlv:""0x0340""`") ["//+field:natural:optional"]
          ; mkSF ["Ack"] (Some "`tlv:""0x0344""`") ["//+field:fixedUint:uint64:optional"]
          ; mkSF ["TxSequence"] (Some "`tlv:""0x0348""`") ["//+field:fixedUint:uint64:optional"]
          ; mkSF ["NonDiscovery"] (Some "`tlv:""0x034C""`") ["//+field:bool"]
          ; mkSF ["PrefixAnnouncement"] (Some "`tlv:""0x0350""`") ["//+field:wire"]
          ; mkSF ["Fragment"] (Some "`tlv:""0x50""`") ["//+field:wire"]
          ]) ]
  ; mkDecl ["// +tlv-model:nocopy,private,ordered"] (* lines 117-153 *)
      [ mkSpec "Interest" (Some
          [ mkSF ["sigCovered"] None ["//+field:procedureArgument:enc.Wire"]
          ; mkSF ["digestCovered"] None ["//+field:procedureArgument:enc.Wire"]
          ; mkSF ["NameV"] (Some "`tlv:""0x07""`") ["//+field:interestName:sigCovered"]
          ; mkSF ["CanBePrefixV"] (Some "`tlv:""0x21""`") ["//+field:bool"]
          ; mkSF ["MustBeFreshV"] (Some "`tlv:""0x12""`") ["//+field:bool"]
          ; mkSF ["ForwardingHintV"] (Some "`tlv:""0x1e""`") ["//+field:struct:Links"]
          ; mkSF ["NonceV"] (Some "`tlv:""0x0a""`") ["//+field:fixedUint:uint32:optional"]
          ; mkSF ["InterestLifetimeV"] (Some "`tlv:""0x0c""`") ["//+field:time:optional"]
          ; mkSF ["HopLimitV"] (Some "`tlv:""0x22""`") ["//+field:fixedUint:byte:optional"]
          ; mkSF ["sigCoverStart"] None ["//+field:offsetMarker"]
          ; mkSF ["digestCoverStart"] None ["//+field:offsetMarker"]
          ; mkSF ["ApplicationParameters"] (Some "`tlv:""0x24""`") ["//+field:wire"]
          ; mkSF ["SignatureInfo"] (Some "`tlv:""0x2c""`") ["//+field:struct:SignatureInfo"]
          ; mkSF ["SignatureValue"] (Some "`tlv:""0x2e""`") ["//+field:signature:sigCoverStart:sigCovered"]
          ; mkSF ["digestCoverEnd"] None ["//+field:rangeMarker:digestCoverStart:digestCovered"]
          ]) ]
  ; mkDecl ["// +tlv-model:nocopy,private,ordered"] (* lines 155-172 *)
      [ mkSpec "Data" (Some
          [ mkSF ["sigCovered"] None ["//+field:procedureArgument:enc.Wire"]
          ; mkSF ["sigCoverStart"] None ["//+field:offsetMarker"]
          ; mkSF ["NameV"] (Some "`tlv:""0x07""`") ["//+field:name"]
          ; mkSF ["MetaInfo"] (Some "`tlv:""0x14""`") ["//+field:struct:MetaInfo"]
          ; mkSF ["ContentV"] (Some "`tlv:""0x15""`") ["//+field:wire"]
          ; mkSF ["SignatureInfo"] (Some "`tlv:""0x16""`") ["//+field:struct:SignatureInfo"]
          ; mkSF ["SignatureValue"] (Some "`tlv:""0x17""`") ["//+field:signature:sigCoverStart:sigCovered"]
          ]) ]
  ; mkDecl ["// +tlv-model:nocopy,private"] (* lines 174-182 *)
      [ mkSpec "Packet" (Some
          [ mkSF ["Interest"] (Some "`tlv:""0x05""`") ["//+field:struct:Interest:nocopy"]
          ; mkSF ["Data"] (Some "`tlv:""0x06""`") ["//+field:struct:Data:nocopy"]
          ; mkSF ["LpPacket"] (Some "`tlv:""0x64""`") ["//+field:struct:LpPacket:nocopy"]
          ]) ]
  ].

(** pkg/ndn/mgmt_2022/definitions.go *)
Definition mgmt_src : list decl :=
  [ mkDecl ["// +tlv-model:dict"] (* lines 51-55 *)
      [ mkSpec "Strategy" (Some
          [ mkSF ["Name"] (Some "`tlv:""0x07""`") ["//+field:name"]
          ]) ]
  ; mkDecl ["// +tlv-model:dict"] (* lines 57-93 *)
      [ mkSpec "ControlArgs" (Some
          [ mkSF ["Name"] (Some "`tlv:""0x07""`") ["//+field:name"]
          ; mkSF ["FaceId"] (Some "`tlv:""0x69""`") ["//+field:natural:optional"]
          ; mkSF ["Uri"] (Some "`tlv:""0x72""`") ["//+field:string:optional"]
          ; mkSF ["LocalUri"] (Some "`tlv:""0x81""`") ["//+field:string:optional"]
          ; mkSF ["Origin"] (Some "`tlv:""0x6f""`") ["//+field:natural:optional"]
          ; mkSF ["Cost"] (Some "`tlv:""0x6a""`") ["//+field:natural:optional"]
          ; mkSF ["Capacity"] (Some "`tlv:""0x83""`") ["//+field:natural:optional"]
          ; mkSF ["Count"] (Some "`tlv:""0x84""`") ["//+field:natural:optional"]
          ; mkSF ["Flags"] (Some "`tlv:""0x6c""`") ["//+field:natural:optional"]
          ; mkSF ["Mask"] (Some "`tlv:""0x70""`") ["//+field:natural:optional"]
          ; mkSF ["Strategy"] (Some "`tlv:""0x6b""`") ["//+field:struct:Strategy"]
          ; mkSF ["ExpirationPeriod"] (Some "`tlv:""0x6d""`") ["//+field:natural:optional"]
          ; mkSF ["FacePersistency"] (Some "`tlv:""0x85""`") ["//+field:natural:optional"]
          ; mkSF ["BaseCongestionMarkInterval"] (Some "`tlv:""0x87""`") ["//+field:natural:optional"]
          ; mkSF ["DefaultCongestionThreshold"] (Some "`tlv:""0x88""`") ["//+field:natural:optional"]
          ; mkSF ["Mtu"] (Some "`tlv:""0x89""`") ["//+field:natural:optional"]
          ]) ]
  ; mkDecl ["// +tlv-model:dict"] (* lines 95-103 *)
      [ mkSpec "ControlResponseVal" (Some
          [ mkSF ["StatusCode"] (Some "`tlv:""0x66""`") ["//+field:natural"]
          ; mkSF ["StatusText"] (Some "`tlv:""0x67""`") ["//+field:string"]
          ; mkSF ["Params"] (Some "`tlv:""0x68""`") ["//+field:struct:ControlArgs"]
          ]) ]
  ; mkDecl [] (* lines 105-108 *)
      [ mkSpec "ControlParameters" (Some
          [ mkSF ["Val"] (Some "`tlv:""0x68""`") ["//+field:struct:ControlArgs"]
          ]) ]
  ; mkDecl [] (* lines 110-113 *)
      [ mkSpec "ControlResponse" (Some
          [ mkSF ["Val"] (Some "`tlv:""0x65""`") ["//+field:struct:ControlResponseVal"]
          ]) ]
  ; mkDecl [] (* lines 115-132 *)
      [ mkSpec "FaceEventNotificationValue" (Some
          [ mkSF ["FaceEventKind"] (Some "`tlv:""0xc1""`") ["//+field:natural"]
          ; mkSF ["FaceId"] (Some "`tlv:""0x69""`") ["//+field:natural"]
          ; mkSF ["Uri"] (Some "`tlv:""0x72""`") ["//+field:string"]
          ; mkSF ["LocalUri"] (Some "`tlv:""0x81""`") ["//+field:string"]
          ; mkSF ["FaceScope"] (Some "`tlv:""0x84""`") ["//+field:natural"]
          ; mkSF ["FacePersistency"] (Some "`tlv:""0x85""`") ["//+field:natural"]
          ; mkSF ["LinkType"] (Some "`tlv:""0x86""`") ["//+field:natural"]
          ; mkSF ["Flags"] (Some "`tlv:""0x6c""`") ["//+field:natural"]
          ]) ]
  ; mkDecl [] (* lines 134-137 *)
      [ mkSpec "FaceEventNotification" (Some
          [ mkSF ["Val"] (Some "`tlv:""0xc0""`") ["//+field:struct:FaceEventNotificationValue"]
          ]) ]
  ; mkDecl [] (* lines 139-191 *)
      [ mkSpec "GeneralStatus" (Some
          [ mkSF ["NfdVersion"] (Some "`tlv:""0x80""`") ["//+field:string"]
          ; mkSF ["StartTimestamp"] (Some "`tlv:""0x81""`") ["//+field:natural"]
          ; mkSF ["CurrentTimestamp"] (Some "`tlv:""0x82""`") ["//+field:natural"]
          ; mkSF ["NNameTreeEntries"] (Some "`tlv:""0x83""`") ["//+field:natural"]
          ; mkSF ["NFibEntries"] (Some "`tlv:""0x84""`") ["//+field:natural"]
          ; mkSF ["NPitEntries"] (Some "`tlv:""0x85""`") ["//+field:natural"]
          ; mkSF ["NMeasurementsEntries"] (Some "`tlv:""0x86""`") ["//+field:natural"]
          ; mkSF ["NCsEntries"] (Some "`tlv:""0x87""`") ["//+field:natural"]
          ; mkSF ["NInInterests"] (Some "`tlv:""0x90""`") ["//+field:natural"]
          ; mkSF ["NInData"] (Some "`tlv:""0x91""`") ["//+field:natural"]
          ; mkSF ["NInNacks"] (Some "`tlv:""0x97""`") ["//+field:natural"]
          ; mkSF ["NOutInterests"] (Some "`tlv:""0x92""`") ["//+field:natural"]
          ; mkSF ["NOutData"] (Some "`tlv:""0x93""`") ["//+field:natural"]
          ; mkSF ["NOutNacks"] (Some "`tlv:""0x98""`") ["//+field:natural"]
          ; mkSF ["NSatisfiedInterests"] (Some "`tlv:""0x99""`") ["//+field:natural"]
          ; mkSF ["NUnsatisfiedInterests"] (Some "`tlv:""0x9a""`") ["//+field:natural"]
          ; mkSF ["NFragmentationError"] (Some "`tlv:""0xc8""`") ["//+field:natural:optional"]
          ; mkSF ["NOutOverMtu"] (Some "`tlv:""0xc9""`") ["//+field:natural:optional"]
          ; mkSF ["NInLpInvalid"] (Some "`tlv:""0xca""`") ["//+field:natural:optional"]
          ; mkSF ["NReassemblyTimeouts"] (Some "`tlv:""0xcb""`") ["//+field:natural:optional"]
          ; mkSF ["NInNetInvalid"] (Some "`tlv:""0xcc""`") ["//+field:natural:optional"]
          ; mkSF ["NAcknowledged"] (Some "`tlv:""0xcd""`") ["//+field:natural:optional"]
          ; mkSF ["NRetransmitted"] (Some "`tlv:""0xce""`") ["//+field:natural:optional"]
          ; mkSF ["NRetxExhausted"] (Some "`tlv:""0xcf""`") ["//+field:natural:optional"]
          ; mkSF ["NConngestionMarked"] (Some "`tlv:""0xd0""`") ["//+field:natural:optional"]
          ]) ]
  ; mkDecl [] (* lines 193-234 *)
      [ mkSpec "FaceStatus" (Some
          [ mkSF ["FaceId"] (Some "`tlv:""0x69""`") ["//+field:natural"]
          ; mkSF ["Uri"] (Some "`tlv:""0x72""`") ["//+field:string"]
          ; mkSF ["LocalUri"] (Some "`tlv:""0x81""`") ["//+field:string"]
          ; mkSF ["ExpirationPeriod"] (Some "`tlv:""0x6d""`") ["//+field:natural:optional"]
          ; mkSF ["FaceScope"] (Some "`tlv:""0x84""`") ["//+field:natural"]
          ; mkSF ["FacePersistency"] (Some "`tlv:""0x85""`") ["//+field:natural"]
          ; mkSF ["LinkType"] (Some "`tlv:""0x86""`") ["//+field:natural"]
          ; mkSF ["BaseCongestionMarkInterval"] (Some "`tlv:""0x87""`") ["//+field:natural:optional"]
          ; mkSF ["DefaultCongestionThreshold"] (Some "`tlv:""0x88""`") ["//+field:natural:optional"]
          ; mkSF ["Mtu"] (Some "`tlv:""0x89""`") ["//+field:natural:optional"]
          ; mkSF ["NInInterests"] (Some "`tlv:""0x90""`") ["//+field:natural"]
          ; mkSF ["NInData"] (Some "`tlv:""0x91""`") ["//+field:natural"]
          ; mkSF ["NInNacks"] (Some "`tlv:""0x97""`") ["//+field:natural"]
          ; mkSF ["NOutInterests"] (Some "`tlv:""0x92""`") ["//+field:natural"]
          ; mkSF ["NOutData"] (Some "`tlv:""0x93""`") ["//+field:natural"]
          ; mkSF ["NOutNacks"] (Some "`tlv:""0x98""`") ["//+field:natural"]
          ; mkSF ["NInBytes"] (Some "`tlv:""0x94""`") ["//+field:natural"]
          ; mkSF ["NOutBytes"] (Some "`tlv:""0x95""`") ["//+field:natural"]
          ; mkSF ["Flags"] (Some "`tlv:""0x6c""`") ["//+field:natural"]
          ]) ]
  ; mkDecl [] (* lines 236-239 *)
      [ mkSpec "FaceStatusMsg" (Some
          [ mkSF ["Vals"] (Some "`tlv:""0x80""`") ["//+field:sequence:*FaceStatus:struct:FaceStatus"]
          ]) ]
  ; mkDecl [] (* lines 241-256 *)
      [ mkSpec "FaceQueryFilterValue" (Some
          [ mkSF ["FaceId"] (Some "`tlv:""0x69""`") ["//+field:natural:optional"]
          ; mkSF ["UriScheme"] (Some "`tlv:""0x83""`") ["//+field:string:optional"]
          ; mkSF ["Uri"] (Some "`tlv:""0x72""`") ["//+field:string:optional"]
          ; mkSF ["LocalUri"] (Some "`tlv:""0x81""`") ["//+field:string:optional"]
          ; mkSF ["FaceScope"] (Some "`tlv:""0x84""`") ["//+field:natural:optional"]
          ; mkSF ["FacePersistency"] (Some "`tlv:""0x85""`") ["//+field:natural:optional"]
          ; mkSF ["LinkType"] (Some "`tlv:""0x86""`") ["//+field:natural:optional"]
          ]) ]
  ; mkDecl [] (* lines 258-261 *)
      [ mkSpec "FaceQueryFilter" (Some
          [ mkSF ["Val"] (Some "`tlv:""0x96""`") ["//+field:struct:FaceQueryFilterValue"]
          ]) ]
  ; mkDecl [] (* lines 263-274 *)
      [ mkSpec "Route" (Some
          [ mkSF ["FaceId"] (Some "`tlv:""0x69""`") ["//+field:natural"]
          ; mkSF ["Origin"] (Some "`tlv:""0x6f""`") ["//+field:natural"]
          ; mkSF ["Cost"] (Some "`tlv:""0x6a""`") ["//+field:natural"]
          ; mkSF ["Flags"] (Some "`tlv:""0x6c""`") ["//+field:natural"]
          ; mkSF ["ExpirationPeriod"] (Some "`tlv:""0x6d""`") ["//+field:natural:optional"]
          ]) ]
  ; mkDecl [] (* lines 276-281 *)
      [ mkSpec "RibEntry" (Some
          [ mkSF ["Name"] (Some "`tlv:""0x07""`") ["//+field:name"]
          ; mkSF ["Routes"] (Some "`tlv:""0x81""`") ["//+field:sequence:*Route:struct:Route"]
          ]) ]
  ; mkDecl [] (* lines 283-286 *)
      [ mkSpec "RibStatus" (Some
          [ mkSF ["Entries"] (Some "`tlv:""0x80""`") ["//+field:sequence:*RibEntry:struct:RibEntry"]
          ]) ]
  ; mkDecl [] (* lines 288-293 *)
      [ mkSpec "NextHopRecord" (Some
          [ mkSF ["FaceId"] (Some "`tlv:""0x69""`") ["//+field:natural"]
          ; mkSF ["Cost"] (Some "`tlv:""0x6a""`") ["//+field:natural"]
          ]) ]
  ; mkDecl [] (* lines 295-300 *)
      [ mkSpec "FibEntry" (Some
          [ mkSF ["Name"] (Some "`tlv:""0x07""`") ["//+field:name"]
          ; mkSF ["NextHopRecords"] (Some "`tlv:""0x81""`") ["//+field:sequence:*NextHopRecord:struct:NextHopRecord"]
          ]) ]
  ; mkDecl [] (* lines 302-305 *)
      [ mkSpec "FibStatus" (Some
          [ mkSF ["Entries"] (Some "`tlv:""0x80""`") ["//+field:sequence:*FibEntry:struct:FibEntry"]
          ]) ]
  ; mkDecl [] (* lines 307-312 *)
      [ mkSpec "StrategyChoice" (Some
          [ mkSF ["Name"] (Some "`tlv:""0x07""`") ["//+field:name"]
          ; mkSF ["Strategy"] (Some "`tlv:""0x6b""`") ["//+field:struct:Strategy"]
          ]) ]
  ; mkDecl [] (* lines 314-317 *)
      [ mkSpec "StrategyChoiceMsg" (Some
          [ mkSF ["StrategyChoices"] (Some "`tlv:""0x80""`") ["//+field:sequence:*StrategyChoice:struct:StrategyChoice"]
          ]) ]
  ; mkDecl [] (* lines 319-330 *)
      [ mkSpec "CsInfo" (Some
          [ mkSF ["Capacity"] (Some "`tlv:""0x83""`") ["//+field:natural"]
          ; mkSF ["Flags"] (Some "`tlv:""0x6c""`") ["//+field:natural"]
          ; mkSF ["NCsEntries"] (Some "`tlv:""0x87""`") ["//+field:natural"]
          ; mkSF ["NHits"] (Some "`tlv:""0x81""`") ["//+field:natural"]
          ; mkSF ["NMisses"] (Some "`tlv:""0x82""`") ["//+field:natural"]
          ]) ]
  ; mkDecl [] (* lines 332-335 *)
      [ mkSpec "CsInfoMsg" (Some
          [ mkSF ["CsInfo"] (Some "`tlv:""0x80""`") ["//+field:struct:CsInfo"]
          ]) ]
  ; mkDecl ["// No Tlv numbers assigned yet"] (* lines 337-342 *)
      [ mkSpec "CsQuery" (Some
          [ mkSF ["Name"] None []
          ; mkSF ["PacketSize"] None []
          ; mkSF ["FreshnessPeriod"] None []
          ]) ]
  ].

(** pkg/schema/demosec/tlv.go *)
Definition demosec_src : list decl :=
  [ mkDecl ["// +tlv-model:nocopy"] (* lines 6-16 *)
      [ mkSpec "EncryptedContent" (Some
          [ mkSF ["KeyId"] (Some "`tlv:""0x82""`") ["//+field:binary"]
          ; mkSF ["Iv"] (Some "`tlv:""0x84""`") ["//+field:binary"]
          ; mkSF ["ContentLength"] (Some "`tlv:""0x86""`") ["//+field:natural"]
          ; mkSF ["CipherText"] (Some "`tlv:""0x88""`") ["//+field:wire"]
          ]) ]
  ].

(** pkg/schema/rdr/tlv.go *)
Definition rdr_src : list decl :=
  [ mkDecl [] (* lines 6-11 *)
      [ mkSpec "ManifestDigest" (Some
          [ mkSF ["SegNo"] (Some "`tlv:""0xcc""`") ["//+field:natural"]
          ; mkSF ["Digest"] (Some "`tlv:""0xce""`") ["//+field:binary"]
          ]) ]
  ; mkDecl [] (* lines 13-16 *)
      [ mkSpec "ManifestData" (Some
          [ mkSF ["Entries"] (Some "`tlv:""0xca""`") ["//+field:sequence:*ManifestDigest:struct:ManifestDigest"]
          ]) ]
  ; mkDecl [] (* lines 18-39 *)
      [ mkSpec "MetaData" (Some
          [ mkSF ["Name"] (Some "`tlv:""0x07""`") ["//+field:name"]
          ; mkSF ["FinalBlockID"] (Some "`tlv:""0x1a""`") ["//+field:binary"]
          ; mkSF ["SegmentSize"] (Some "`tlv:""0xf500""`") ["//+field:natural:optional"]
          ; mkSF ["Size"] (Some "`tlv:""0xf502""`") ["//+field:natural:optional"]
          ; mkSF ["Mode"] (Some "`tlv:""0xf504""`") ["//+field:natural:optional"]
          ; mkSF ["Atime"] (Some "`tlv:""0xf506""`") ["//+field:natural:optional"]
          ; mkSF ["Btime"] (Some "`tlv:""0xf508""`") ["//+field:natural:optional"]
          ; mkSF ["Ctime"] (Some "`tlv:""0xf50a""`") ["//+field:natural:optional"]
          ; mkSF ["Mtime"] (Some "`tlv:""0xf50c""`") ["//+field:natural:optional"]
          ; mkSF ["ObjectType"] (Some "`tlv:""0xf50e""`") ["//+field:string:optional"]
          ]) ]
  ].

(** pkg/schema/svs/tlv.go *)
Definition svs_src : list decl :=
  [ mkDecl [] (* lines 4-9 *)
      [ mkSpec "StateVecEntry" (Some
          [ mkSF ["NodeId"] (Some "`tlv:""0x07""`") ["//+field:binary"]
          ; mkSF ["SeqNo"] (Some "`tlv:""0xcc""`") ["//+field:natural"]
          ]) ]
  ; mkDecl [] (* lines 11-14 *)
      [ mkSpec "StateVec" (Some
          [ mkSF ["Entries"] (Some "`tlv:""0xca""`") ["//+field:sequence:*StateVecEntry:struct:StateVecEntry"]
          ]) ]
  ; mkDecl [] (* lines 16-19 *)
      [ mkSpec "StateVecAppParam" (Some
          [ mkSF ["Entries"] (Some "`tlv:""0xc9""`") ["//+field:struct:StateVec"]
          ]) ]
  ].

(** pkg/sync/tlv.go *)
Definition sync_src : list decl :=
  [ mkDecl [] (* lines 8-11 *)
      [ mkSpec "StateVectorAppParam" (Some
          [ mkSF ["StateVector"] (Some "`tlv:""0xc9""`") ["//+field:struct:StateVector"]
          ]) ]
  ; mkDecl [] (* lines 13-16 *)
      [ mkSpec "StateVector" (Some
          [ mkSF ["Entries"] (Some "`tlv:""0xca""`") ["//+field:sequence:*StateVectorEntry:struct:StateVectorEntry"]
          ]) ]
  ; mkDecl [] (* lines 18-23 *)
      [ mkSpec "StateVectorEntry" (Some
          [ mkSF ["NodeId"] (Some "`tlv:""0x07""`") ["//+field:name"]
          ; mkSF ["SeqNo"] (Some "`tlv:""0xcc""`") ["//+field:natural"]
          ]) ]
  ].

(** pkg/security/ndncert_0_3/tlv.go *)
Definition ndncert_src : list decl :=
  [ mkDecl [] (* lines 8-19 *)
      [ mkSpec "CaProfile" (Some
          [ mkSF ["CaPrefix"] (Some "`tlv:""0x81""`") ["//+field:name"]
          ; mkSF ["CaInfo"] (Some "`tlv:""0x83""`") ["//+field:string"]
          ; mkSF ["ParamKey"] (Some "`tlv:""0x85""`") ["//+field:sequence:string:string"]
          ; mkSF ["MaxValidPeriod"] (Some "`tlv:""0x8B""`") ["//+field:natural"]
          ; mkSF ["CaCert"] (Some "`tlv:""0x89""`") ["//+field:wire"]
          ]) ]
  ; mkDecl [] (* lines 21-24 *)
      [ mkSpec "ProbeIntAppParam" (Some
          [ mkSF ["Params"] (Some "`tlv:""0x85""`") ["//+field:map:string:string:0x87:[]byte:binary"]
          ]) ]
  ; mkDecl [] (* lines 26-31 *)
      [ mkSpec "ProbeRes" (Some
          [ mkSF ["Response"] (Some "`tlv:""0x07""`") ["//+field:name"]
          ; mkSF ["MaxSuffixLength"] None ["//+field:natural:optional"]
          ]) ]
  ; mkDecl [] (* lines 33-36 *)
      [ mkSpec "ProbeResContent" (Some
          [ mkSF ["Vals"] (Some "`tlv:""0x8D""`") ["//+field:sequence:*ProbeRes:struct:ProbeRes"]
          ]) ]
  ; mkDecl [] (* lines 38-43 *)
      [ mkSpec "CmdNewInt" (Some
          [ mkSF ["EcdhPub"] (Some "`tlv:""0x91""`") ["//+field:binary"]
          ; mkSF ["CertReq"] (Some "`tlv:""0x93""`") ["//+field:binary"]
          ]) ]
  ; mkDecl [] (* lines 45-54 *)
      [ mkSpec "CmdNewData" (Some
          [ mkSF ["EcdhPub"] (Some "`tlv:""0x91""`") ["//+field:binary"]
          ; mkSF ["Salt"] (Some "`tlv:""0x95""`") ["//+field:binary"]
          ; mkSF ["ReqId"] (Some "`tlv:""0x97""`") ["//+field:binary"]
          ; mkSF ["Challenge"] (Some "`tlv:""0x99""`") ["//+field:sequence:string:string"]
          ]) ]
  ; mkDecl [] (* lines 56-63 *)
      [ mkSpec "CipherMsg" (Some
          [ mkSF ["InitVec"] (Some "`tlv:""0x9D""`") ["//+field:binary"]
          ; mkSF ["AuthNTag"] (Some "`tlv:""0xAF""`") ["//+field:binary"]
          ; mkSF ["Payload"] (Some "`tlv:""0x9F""`") ["//+field:binary"]
          ]) ]
  ; mkDecl [] (* lines 65-70 *)
      [ mkSpec "ChallengeIntPlain" (Some
          [ mkSF ["SelectedChal"] (Some "`tlv:""0xA1""`") ["//+field:string"]
          ; mkSF ["Params"] (Some "`tlv:""0x85""`") ["//+field:map:string:string:0x87:[]byte:binary"]
          ]) ]
  ; mkDecl [] (* lines 72-87 *)
      [ mkSpec "ChallengeDataPlain" (Some
          [ mkSF ["Status"] (Some "`tlv:""0x9B""`") ["//+field:natural"]
          ; mkSF ["ChalStatus"] (Some "`tlv:""0xA3""`") ["//+field:string:optional"]
          ; mkSF ["RemainTries"] (Some "`tlv:""0xA5""`") ["//+field:natural:optional"]
          ; mkSF ["RemainTime"] (Some "`tlv:""0xA7""`") ["//+field:natural:optional"]
          ; mkSF ["CertName"] (Some "`tlv:""0xA9""`") ["//+field:name"]
          ; mkSF ["ForwardingHint"] (Some "`tlv:""0x1e""`") ["//+field:name"]
          ; mkSF ["Params"] (Some "`tlv:""0x85""`") ["//+field:map:string:string:0x87:[]byte:binary"]
          ]) ]
  ; mkDecl [] (* lines 89-94 *)
      [ mkSpec "ErrorMsgData" (Some
          [ mkSF ["ErrCode"] (Some "`tlv:""0xAB""`") ["//+field:natural"]
          ; mkSF ["ErrInfo"] (Some "`tlv:""0xAD""`") ["//+field:string"]
          ]) ]
  ].

(** examples/schema-test/shared-doc/crdt/tlv.go *)
Definition crdt_src : list decl :=
  [ mkDecl [] (* lines 4-9 *)
      [ mkSpec "IDType" (Some
          [ mkSF ["Producer"] (Some "`tlv:""0xa1""`") ["//+field:natural"]
          ; mkSF ["Clock"] (Some "`tlv:""0xa3""`") ["//+field:natural"]
          ]) ]
  ; mkDecl [] (* lines 17-28 *)
      [ mkSpec "Record" (Some
          [ mkSF ["RecordType"] (Some "`tlv:""0xa5""`") ["//+field:natural"]
          ; mkSF ["ID"] (Some "`tlv:""0xa7""`") ["//+field:struct:IDType"]
          ; mkSF ["Origin"] (Some "`tlv:""0xa9""`") ["//+field:struct:IDType"]
          ; mkSF ["RightOrigin"] (Some "`tlv:""0xaa""`") ["//+field:struct:IDType"]
          ; mkSF ["Content"] (Some "`tlv:""0xac""`") ["//+field:string"]
          ]) ]
  ].

(** the packages; structures refer to structures of their own package only *)
Definition sources : list (list decl) :=
  [ spec_src; mgmt_src; demosec_src; rdr_src; svs_src; sync_src; ndncert_src; crdt_src ].
