-Q theories Verif
theories/Base.v
theories/Lists.v
theories/Ipld.v
theories/IpldProofs.v
theories/Sha256.v
theories/MstModel.v
theories/MstCheck.v
theories/MstTree.v
theories/MstTreeProofs.v
theories/MstRep.v
theories/MstOps.v
theories/MstTrav.v
theories/MstClient.v
theories/MstSpec.v
theories/MstShape.v
theories/MstHist.v
theories/MstFacts.v
theories/MstProps.v
theories/TidModel.v
theories/TidProofs.v
theories/TidProps.v
theories/BlockModel.v
theories/BlockSpec.v
theories/BlockProofs.v
theories/DecodeProofs.v
theories/BlockProps.v
theories/SeqModel.v
theories/SeqSpec.v
theories/SeqProofs.v
theories/SeqProps.v
theories/LeaseModel.v
theories/LeaseSpec.v
theories/LeaseProofs.v
theories/LeaseProps.v
theories/CarModel.v
theories/CarProofs.v
theories/StorageModel.v
theories/StorageSpec.v
theories/CommitProofs.v
theories/StoreProofs.v
theories/ExecProofs.v
theories/RepoSpec.v
theories/RepoProofs.v
theories/RepoHist.v
theories/LiveStore.v
theories/LiveProofs.v
theories/RepoSteps.v
theories/RepoFacts.v
theories/RepoExamples.v
theories/RepoProps.v
theories/EventsModel.v
theories/EventsSpec.v
theories/EventsProofs.v
theories/EventsHist.v
theories/EventsFacts.v
theories/EventsProps.v
theories/DiffModel.v
theories/DiffSpec.v
theories/DiffProofs.v
theories/DiffFacts.v
theories/DiffProps.v
theories/CoverModel.v
theories/CoverSpec.v
theories/CoverProofs.v
theories/CoverFacts.v
theories/CoverProps.v
theories/UriModel.v
theories/UriSpec.v
theories/UriProofs.v
theories/UriProps.v
theories/MessageModel.v
theories/MessageSpec.v
theories/MessageProofs.v
theories/MessageExamples.v
theories/MessageProps.v
theories/ServerModel.v
theories/ServerSpec.v
theories/CrashModel.v
theories/CrashSpec.v
theories/CrashProofs.v
theories/LiveCrash.v
theories/LiveSpec.v
theories/ServerProofs.v
theories/LiveServe.v
theories/ServerFacts.v
theories/ServerList.v
theories/ServerSync.v
theories/ServerRecords.v
theories/ServerExamples.v
theories/ServerProps.v
theories/ExportSpec.v
theories/ExportProofs.v
theories/ExportFacts.v
theories/ExportExamples.v
theories/ExportProps.v
theories/ImportProofs.v
theories/ImportFacts.v
theories/LiveMove.v
theories/LiveFacts.v
theories/ImportProps.v
theories/FireModel.v
theories/FireSpec.v
theories/FireProofs.v
theories/FireWait.v
theories/FireHonest.v
theories/FireServe.v
theories/FireFacts.v
theories/FireCheck.v
theories/FireExamples.v
theories/FireProps.v
theories/SignModel.v
theories/SignSpec.v
theories/SignProofs.v
theories/SignProps.v
theories/CodecModel.v
theories/CodecProofs.v
theories/DidModel.v
theories/DidSpec.v
theories/DidProofs.v
theories/DidFacts.v
theories/HandleModel.v
theories/HandleSpec.v
theories/HandleProofs.v
theories/DidExamples.v
theories/DidProps.v
theories/BlobModel.v
theories/BlobSpec.v
theories/BlobProofs.v
theories/BlobFacts.v
theories/BlobExamples.v
theories/BlobProps.v
theories/TxModel.v
theories/TxSpec.v
theories/TxProofs.v
theories/TxFacts.v
theories/TxExamples.v
theories/TxProps.v
theories/JwtModel.v
theories/JwtSpec.v
theories/JwtProofs.v
theories/JwtProps.v
theories/SessionModel.v
theories/SessionProofs.v
theories/SessionProps.v
theories/ReplicaSpec.v
theories/ReplicaProofs.v
theories/ReplicaProps.v
theories/RowModel.v
theories/RowSpec.v
theories/RowProofs.v
theories/RowProps.v
theories/CallbackSpec.v
theories/CallbackProofs.v
theories/CallbackProps.v
theories/IsolateSpec.v
theories/IsolateProofs.v
theories/IsolateProps.v
theories/ChainSpec.v
theories/ChainProofs.v
theories/ChainProps.v
theories/TellProofs.v
theories/TellProps.v
theories/MstSane.v
theories/LogSpec.v
theories/LogProofs.v
theories/LogProps.v
theories/FeedSpec.v
theories/FeedProofs.v
theories/FeedProps.v
theories/StopFeed.v
theories/ResumeProofs.v
theories/StopFeedProps.v
theories/PreloadModel.v
theories/WholeSpec.v
theories/WholeProofs.v
theories/WholeFacts.v
theories/WholeCheck.v
theories/WholeProps.v
theories/CacheModel.v
theories/CacheSpec.v
theories/CacheProofs.v
theories/CacheProps.v
theories/StreamSpec.v
theories/StreamProofs.v
theories/RelaySpec.v
theories/RelayProofs.v
theories/RelayExamples.v
theories/RelayProps.v
theories/WarySpec.v
theories/WaryProofs.v
theories/WaryProps.v
theories/AnySpec.v
theories/AnyProofs.v
theories/AnyExamples.v
theories/AnyProps.v
theories/LiveExamples.v
theories/LiveProps.v
theories/HeadFacts.v
theories/HeadExamples.v
theories/HeadProps.v
theories/SteadySpec.v
theories/SteadyProofs.v
theories/SteadyProps.v
theories/BirthSpec.v
theories/BirthProofs.v
theories/BirthProps.v
theories/EqualModel.v
theories/EqualFacts.v
theories/EqualProps.v
theories/FullSpec.v
theories/FullProofs.v
theories/FullFacts.v
theories/FullCheck.v
theories/FullProps.v
theories/ScanSpec.v
theories/ScanFacts.v
theories/ScanProps.v
theories/StopModel.v
theories/StopProofs.v
theories/StopFacts.v
theories/StopProps.v
theories/RawModel.v
theories/RawSpec.v
theories/RawProofs.v
theories/RawFacts.v
theories/RawCheck.v
theories/RawProps.v
theories/FaultModel.v
theories/FaultProofs.v
theories/FaultFacts.v
theories/FaultProps.v
theories/CrashFacts.v
theories/CrashLog.v
theories/CrashCheck.v
theories/DeathFacts.v
theories/DeathExamples.v
theories/DeathProps.v
theories/CrashFire.v
theories/CrashFireProps.v
theories/CrashProps.v
theories/TextSpec.v
theories/TextProofs.v
theories/TextProps.v
theories/RequestSpec.v
theories/RequestProofs.v
theories/RequestFacts.v
theories/RequestOps.v
theories/RequestMessages.v
theories/RequestKept.v
theories/RequestExamples.v
theories/RequestProps.v
theories/GrowSpec.v
theories/GrowProofs.v
theories/GrowExamples.v
theories/GrowProps.v
theories/ClosedProofs.v
theories/ClosedExamples.v
theories/ClosedProps.v
theories/OnwardSpec.v
theories/OnwardProofs.v
theories/OnwardExamples.v
theories/OnwardProps.v
theories/StatusSpec.v
theories/StatusProofs.v
theories/StatusExamples.v
theories/StatusProps.v
theories/GrowCrash.v
theories/GrowCrashProps.v
theories/ChangedModel.v
theories/ChangedProofs.v
theories/ChangedProps.v
theories/StatusCrashSpec.v
theories/StatusCrash.v
theories/StatusCrashProps.v
theories/NsidModel.v
theories/NsidSpec.v
theories/NsidProofs.v
theories/NsidProps.v
theories/NsidMemModel.v
theories/NsidMemSpec.v
theories/NsidMemProofs.v
theories/NsidMemProps.v
