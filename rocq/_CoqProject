-Q theories Verif
theories/Base.v
theories/BaseFacts.v
theories/BitsFacts.v
theories/Bech32.v
theories/Bech32Proofs.v
theories/Bech32Detect.v
theories/Bech32Spec.v
theories/Bech32Lemmas2.v
theories/Bech32Props.v
theories/Hex.v
theories/HexSpec.v
theories/HexProofs.v
theories/HexProps.v
theories/Nip21.v
theories/Nip21Spec.v
theories/Nip21Proofs.v
theories/Nip21Props.v
theories/Bip173Spec.v
theories/Bip173Props.v
theories/Nip49TextSpec.v
theories/Nip49TextProps.v
theories/Base64.v
theories/Heap.v
theories/Nip44.v
theories/Nip44Spec.v
theories/Nip44Proofs.v
theories/Nip44Props.v
theories/Dec.v
theories/Json.v
theories/Event.v
theories/EventSpec.v
theories/EventProofs.v
theories/EventProps.v
theories/Arena.v
theories/ArenaSpec.v
theories/ArenaProofs.v
theories/ArenaProps.v
theories/ArenaShare.v
theories/ArenaShareProps.v
theories/Nip49.v
theories/Nip49Spec.v
theories/Nip49Proofs.v
theories/Nip49Props.v
theories/Strto.v
theories/Nip13.v
theories/Nip13Spec.v
theories/Nip13Proofs.v
theories/Nip13Threads.v
theories/Nip13Arena.v
theories/Nip13Props.v
theories/Bip39Words.v
theories/HdKey.v
theories/HdKeySpec.v
theories/HdKeyProofs.v
theories/HdKeyProps.v
theories/HdWalkProps.v
theories/Config.v
theories/ConfigSpec.v
theories/ConfigProps.v
theories/ConfigEnvSpec.v
theories/ConfigEnvProps.v
theories/ConfigThreadsProps.v
theories/ConfigHold.v
theories/ConfigHoldProps.v
theories/Session.v
theories/SessionSpec.v
theories/SessionProofs.v
theories/SessionProps.v
theories/SessionThreadsProps.v
theories/BudgetThreads.v
theories/BudgetThreadsProps.v
theories/Nip26.v
theories/Nip26Spec.v
theories/Nip26Proofs.v
theories/Nip26Props.v
theories/Nip47.v
theories/Nip47Spec.v
theories/Nip47Proofs.v
theories/Nip47Props.v
theories/Nip47Mem.v
theories/Nip47MemSpec.v
theories/Nip47MemProps.v
theories/Nip05.v
theories/Nip05Spec.v
theories/Nip05Proofs.v
theories/Nip05Props.v
theories/Nip10.v
theories/Nip10Spec.v
theories/Nip10Props.v
theories/GiftWrap.v
theories/GiftWrapSpec.v
theories/GiftWrapProps.v
theories/Nip18.v
theories/Nip18Spec.v
theories/Nip18Props.v
theories/Nip51.v
theories/Nip51Spec.v
theories/Nip51Props.v
theories/Nip65.v
theories/Nip65Spec.v
theories/Nip65Props.v
theories/RelayProto.v
theories/RelayProtoSpec.v
theories/RelayProtoProps.v
theories/RelayFilter.v
theories/RelayFilterSpec.v
theories/RelayFilterProps.v
theories/RelayMem.v
theories/RelayMemSpec.v
theories/RelayMemProps.v
theories/RelayRecv.v
theories/RelayRecvSpec.v
theories/RelayRecvProps.v
theories/RelaySubProps.v
theories/RelayLife.v
theories/RelayLifeSpec.v
theories/RelayLifeProps.v
theories/RelayRace.v
theories/RelayRaceProps.v
theories/Zap.v
theories/ZapSpec.v
theories/ZapProps.v
theories/RelayMsg.v
theories/RelayMsgSpec.v
theories/RelayMsgProps.v
theories/Nip46.v
theories/Nip46Spec.v
theories/Nip46Props.v
theories/EventMem.v
theories/EventMemSpec.v
theories/EventMemProps.v
theories/CjsonMem.v
theories/EventOom.v
theories/EventOomSpec.v
theories/CjsonMemProofs.v
theories/EventOomProps.v
theories/Nip11.v
theories/Nip11Mem.v
theories/Nip11Spec.v
theories/Nip11Proofs.v
theories/Nip11Props.v
theories/Nip47Result.v
theories/Nip47ResultSpec.v
theories/Nip47ResultProps.v
theories/Init.v
theories/InitProps.v
theories/KeyPair.v
theories/KeyPairProps.v
theories/Wipe.v
theories/WipeProps.v
theories/Features.v
theories/FeaturesProps.v
theories/ListMem.v
theories/ListMemSpec.v
theories/ListMemProps.v
theories/RelayListMem.v
theories/RelayListMemSpec.v
theories/RelayListMemProps.v
theories/JsonSpec.v
theories/JsonLib.v
theories/JsonLibProofs.v
theories/RelaySend.v
theories/RelaySendSpec.v
theories/RelaySendProps.v
theories/EventIdSpec.v
theories/EventIdProps.v
theories/Nip51JsonSpec.v
theories/Nip51JsonProps.v
theories/Nip47Cjson.v
theories/Nip47CjsonSpec.v
theories/Nip47CjsonProofs.v
theories/Nip47CjsonProps.v
theories/Ecdh.v
theories/EcdhSpec.v
theories/EcdhProps.v
theories/Nip44TextSpec.v
theories/Nip44TextProps.v
theories/ForeignDmSpec.v
theories/ForeignDmProps.v
theories/SentDmProps.v
theories/Nip04.v
theories/Nip04Spec.v
theories/Nip04Props.v
theories/Nip46Mem.v
theories/Nip46MemProps.v
theories/GiftWrapMem.v
theories/GiftWrapMemSpec.v
theories/GiftWrapMemProps.v
theories/DeliverySpec.v
theories/DeliveryProps.v
theories/PrivateTripProps.v
theories/SignTripProps.v
theories/WalletTripProps.v
theories/PublicTripProps.v
theories/FollowTripProps.v
theories/PrivacySpec.v
theories/PrivacyProps.v
theories/Build.v
theories/BuildSpec.v
theories/BuildProps.v
theories/ZapTripProps.v
theories/StoreSpec.v
theories/StoreProps.v
theories/EventImportProps.v
theories/WorkTripProps.v
theories/EventReadSpec.v
theories/EventReadProps.v
theories/ReplaceSpec.v
theories/ReplaceProps.v
theories/SignedSpec.v
theories/SignedProps.v
theories/WalletAnswerProps.v
theories/Cbc.v
theories/CbcSpec.v
theories/CbcProps.v
theories/WrittenSpec.v
theories/WrittenProps.v
theories/Nip26Mem.v
theories/Nip26MemSpec.v
theories/Nip26MemProps.v
theories/RelayAccess.v
theories/RelayAccessProps.v
theories/RelayLimitsSpec.v
theories/RelayLimitsProps.v
theories/Nip21Mem.v
theories/Nip21MemSpec.v
theories/Nip21MemProps.v
theories/Nip18Mem.v
theories/Nip18MemSpec.v
theories/Nip18MemProps.v
theories/Nip05Mem.v
theories/Nip05MemSpec.v
theories/Nip05MemProps.v
theories/ZapMem.v
theories/ZapMemProps.v
theories/Nip10Mem.v
theories/Nip10MemProps.v
theories/HdMem.v
theories/HdMemSpec.v
theories/HdMemProps.v
theories/EventCut.v
theories/EventCutProps.v
theories/ThreadSpec.v
theories/ThreadProps.v
theories/BackupSpec.v
theories/BackupProps.v
