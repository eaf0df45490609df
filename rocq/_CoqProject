-Q theories Verif
theories/Lists.v
theories/Bytes.v
theories/BufQueueModel.v
theories/BufQueueSpec.v
theories/BufQueueProofs.v
theories/BufQueueProperties.v
theories/BufQueueStreamModel.v
theories/BufQueueStreamSpec.v
theories/BufQueueStreamProofs.v
theories/BufQueueStreamProperties.v
theories/BufChainModel.v
theories/BufChainSpec.v
theories/BufChainProofs.v
theories/BufChainProperties.v
theories/PersistModel.v
theories/PersistSpec.v
theories/PersistProofs.v
theories/PersistProperties.v
theories/BlockPoolModel.v
theories/BlockPoolSpec.v
theories/BlockPoolProofs.v
theories/BlockPoolProperties.v
theories/LbaModel.v
theories/LbaSpec.v
theories/LbaProofs.v
theories/LbaQueue.v
theories/LbaReach.v
theories/LbaProperties.v
theories/AckModel.v
theories/AckSpec.v
theories/AckProofs.v
theories/AckProperties.v
theories/TuModel.v
theories/TuSpec.v
theories/TuProofs.v
theories/TuProperties.v
theories/JsonModel.v
theories/JsonSpec.v
theories/JsonProofs.v
theories/JsonParse.v
theories/JsonPrettyModel.v
theories/JsonPrettySpec.v
theories/JsonPrettyProofs.v
theories/JsonDecode.v
theories/JsonProperties.v
theories/BitStreamModel.v
theories/BitStreamSpec.v
theories/BitStreamProofs.v
theories/BitStreamProperties.v
theories/SyncerModel.v
theories/SyncerSpec.v
theories/SyncerProofs.v
theories/SyncerProperties.v
theories/SegListModel.v
theories/SegListSpec.v
theories/SegListProofs.v
theories/SegListProofs2.v
theories/SegListProofs3.v
theories/SegListProperties.v
theories/KmpInModel.v
theories/KmpInSpec.v
theories/KmpInProofs.v
theories/KmpInProofs2.v
theories/KmpInProofs3.v
theories/KmpInProperties.v
theories/KmpOutModel.v
theories/KmpOutSpec.v
theories/KmpOutProofs.v
theories/KmpOutProofs2.v
theories/KmpOutProofs3.v
theories/KmpOutProofs4.v
theories/KmpOutProofs5.v
theories/KmpOutProperties.v
theories/InputBufsModel.v
theories/InputBufsSpec.v
theories/InputBufsProofs.v
theories/InputBufsProofs2.v
theories/InputBufsProofs3.v
theories/InputBufsProofs4.v
theories/InputBufsProperties.v
theories/AmfModel.v
theories/AmfSpec.v
theories/AmfProofs.v
theories/AmfProofs2.v
theories/AmfProofs3.v
theories/AmfProofs4.v
theories/AmfProperties.v
theories/TimelineModel.v
theories/TimelineSpec.v
theories/TimelineProofs.v
theories/TimelineProofs2.v
theories/TimelineProofs3.v
theories/TimelineProofs4.v
theories/TimelineProofs5.v
theories/TimelineProofs6.v
theories/TimelineProofs7.v
theories/TimelineProofs8.v
theories/TimelineProofs9.v
theories/TimelineProofs10.v
theories/TimelineProofs11.v
theories/TimelineProofs12.v
theories/TimelineProofs13.v
theories/TimelineProofs14.v
theories/TimelineProperties.v
theories/TimelineProperties2.v
theories/ServeModel.v
theories/ServeSpec.v
theories/ServeProofs.v
theories/ServeProofs2.v
theories/ServeProofs3.v
theories/ServeProperties.v
theories/RtmpModel.v
theories/RtmpSpec.v
theories/RtmpProofs.v
theories/RtmpProofs2.v
theories/RtmpProofs3.v
theories/RtmpProofs4.v
theories/RtmpProperties.v
theories/EncModel.v
theories/EncSpec.v
theories/EncProofs.v
theories/EncProofs2.v
theories/EncProofs3.v
theories/EncProofs4.v
theories/EncProperties.v
theories/UpModel.v
theories/UpSpec.v
theories/UpProofs.v
theories/UpProofs2.v
theories/UpProofs3.v
theories/UpProofs4.v
theories/UpProperties.v
theories/TrkModel.v
theories/TrkSpec.v
theories/TrkProofs.v
theories/TrkProofs2.v
theories/TrkProofs3.v
theories/TrkProofs4.v
theories/TrkProofs5.v
theories/TrkProperties.v
theories/IdxModel.v
theories/IdxSpec.v
theories/IdxProofs.v
theories/IdxProofs2.v
theories/IdxProofs3.v
theories/IdxProofs4.v
theories/IdxProofs5.v
theories/IdxProofs6.v
theories/IdxProofs7.v
theories/IdxProofs8.v
theories/IdxProofs9.v
theories/IdxProofs10.v
theories/IdxProofs11.v
theories/IdxProofs12.v
theories/IdxProofs13.v
theories/IdxProofs14.v
theories/IdxProperties.v
theories/TsModel.v
theories/TsSpec.v
theories/TsProofs.v
theories/TsProofs2.v
theories/TsProofs3.v
theories/TsProofs4.v
theories/TsProofs5.v
theories/TsProofs6.v
theories/TsProofs7.v
theories/TsProofs8.v
theories/TsProofs9.v
theories/TsProofs10.v
theories/TsProofs11.v
theories/TsProofs12.v
theories/TsProperties.v
theories/MuxModel.v
theories/MuxSpec.v
theories/MuxProofs.v
theories/MuxProofs2.v
theories/MuxProofs3.v
theories/MuxProofs4.v
theories/MuxProofs5.v
theories/MuxProofs6.v
theories/MuxProofs7.v
theories/MuxProofs8.v
theories/MuxProofs9.v
theories/MuxProperties.v
theories/Fmp4Model.v
theories/Fmp4Spec.v
theories/Fmp4Proofs.v
theories/Fmp4Proofs2.v
theories/Fmp4Proofs3.v
theories/Fmp4Proofs4.v
theories/Fmp4Proofs5.v
theories/Fmp4Proofs6.v
theories/Fmp4Properties.v
theories/CencModel.v
theories/CencSpec.v
theories/CencProofs.v
theories/CencProofs2.v
theories/CencProofs3.v
theories/CencProofs4.v
theories/CencProofs5.v
theories/CencProofs6.v
theories/CencProofs7.v
theories/CencProperties.v
theories/M3u8Model.v
theories/M3u8Spec.v
theories/M3u8Proofs.v
theories/M3u8Proofs2.v
theories/M3u8Proofs3.v
theories/M3u8Proofs4.v
theories/M3u8Proofs5.v
theories/M3u8Proofs6.v
theories/M3u8Proofs7.v
theories/M3u8Proofs8.v
theories/M3u8Proofs9.v
theories/M3u8Proofs10.v
theories/M3u8Proofs11.v
theories/M3u8Properties.v
theories/UriModel.v
theories/UriSpec.v
theories/UriProofs.v
theories/UriProofs2.v
theories/UriProofs3.v
theories/UriProofs4.v
theories/UriProofs5.v
theories/UriProofs6.v
theories/UriProofs7.v
theories/UriProofs8.v
theories/UriProofs9.v
theories/UriProperties.v
theories/HlsModel.v
theories/HlsSpec.v
theories/HlsProofs.v
theories/HlsProofs2.v
theories/HlsProofs3.v
theories/HlsProofs4.v
theories/HlsProofs5.v
theories/HlsProperties.v
theories/CbcsModel.v
theories/CbcsSpec.v
theories/CbcsProofs.v
theories/CbcsProofs2.v
theories/CbcsProperties.v
theories/GapModel.v
theories/GapSpec.v
theories/GapProofs.v
theories/GapProofs2.v
theories/GapProofs3.v
theories/GapProofs4.v
theories/GapProperties.v
theories/CcModel.v
theories/CcSpec.v
theories/CcProofs.v
theories/CcProofs2.v
theories/CcProofs3.v
theories/CcProperties.v
theories/CfgModel.v
theories/CfgSpec.v
theories/CfgProofs.v
theories/CfgProperties.v
theories/NameModel.v
theories/NameSpec.v
theories/NameProofs.v
theories/NameProofs2.v
theories/NameProperties.v
theories/AscModel.v
theories/AscSpec.v
theories/AscProofs.v
theories/AscProperties.v
theories/AscProperties2.v
theories/RbspModel.v
theories/RbspSpec.v
theories/RbspProofs.v
theories/RbspProperties.v
theories/RbspSkipModel.v
theories/RbspSkipProofs.v
theories/RbspSkipProperties.v
