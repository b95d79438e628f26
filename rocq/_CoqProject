-Q theories Verif
theories/Bytes.v
theories/RidModel.v
theories/RidProofs.v
theories/RidProps.v
theories/WatermarkModel.v
theories/WatermarkSpec.v
theories/WatermarkProofs.v
theories/WatermarkProps.v
theories/CacheSpec.v
theories/FifoModel.v
theories/FifoProofs.v
theories/FifoProps.v
theories/LruModel.v
theories/LruProofs.v
theories/LruProps.v
theories/LfuSpec.v
theories/LfuModel.v
theories/LfuProofs.v
theories/HeapLfuProofs.v
theories/LfuProps.v
theories/LrukSpec.v
theories/LrukModel.v
theories/LrukProofs.v
theories/ReplacerProofs.v
theories/LrukProps.v
theories/ExprModel.v
theories/ExprSpec.v
theories/ExprProofs.v
theories/ExprProps.v
theories/ExecModel.v
theories/ExecSpec.v
theories/ExecProofs.v
theories/ExecProps.v
theories/TopnModel.v
theories/HeapProofs.v
theories/TopnProofs.v
theories/TopnProps.v
theories/JoinModel.v
theories/JoinSpec.v
theories/JoinProofs.v
theories/JoinProps.v
theories/HashJoinModel.v
theories/HashJoinProofs.v
theories/HashJoinProps.v
theories/LockModel.v
theories/LockSpec.v
theories/LockGraphProofs.v
theories/LockProofs.v
theories/LockStateProofs.v
theories/LockProps.v
theories/LockDecide.v
theories/MvccModel.v
theories/MvccSpec.v
theories/MvccRowProofs.v
theories/MvccProofs.v
theories/MvccDirtyProofs.v
theories/MvccReadProofs.v
theories/MvccDecide.v
theories/MvccProps.v
theories/PageModel.v
theories/PageSpec.v
theories/PageProofs.v
theories/PageSerialProofs.v
theories/PageProps.v
theories/TheapModel.v
theories/TheapSpec.v
theories/TheapProofs.v
theories/TheapRunProofs.v
theories/TheapProps.v
theories/LikeModel.v
theories/LikeSpec.v
theories/LikeProps.v
theories/AggModel.v
theories/AggSpec.v
theories/AggProofs.v
theories/AggProps.v
theories/OptModel.v
theories/OptSpec.v
theories/OptProps.v
theories/BtreeModel.v
theories/BtreeSpec.v
theories/BtreeProofs.v
theories/BtreeRunProofs.v
theories/BtreeProps.v
theories/BtreeDelProofs.v
theories/BtreeDelProps.v
theories/IdxModel.v
theories/IdxSpec.v
theories/IdxProofs.v
theories/IdxProps.v
theories/BpmSpec.v
theories/BpmModel.v
theories/BpmProofs.v
theories/BpmStepProofs.v
theories/BpmRunProofs.v
theories/BpmProps.v
theories/WbufSpec.v
theories/WbufModel.v
theories/WbufProofs.v
theories/WbufProps.v
theories/DiskSpec.v
theories/DiskModel.v
theories/DiskProofs.v
theories/DiskProps.v
theories/IoqSpec.v
theories/IoqModel.v
theories/IoqProofs.v
theories/IoqProps.v
theories/WalSpec.v
theories/WalModel.v
theories/WalProofs.v
theories/WalProps.v
theories/WrecSpec.v
theories/WrecModel.v
theories/WrecProofs.v
theories/WrecProps.v
theories/RecSpec.v
theories/RecModel.v
theories/RecProofs.v
theories/RecProps.v
theories/HtabSpec.v
theories/HtabModel.v
theories/HtabProofs.v
theories/HtabProps.v
theories/SessSpec.v
theories/SessModel.v
theories/SessProofs.v
theories/SessProps.v
theories/InsSpec.v
theories/InsModel.v
theories/InsProofs.v
theories/InsProps.v
theories/CompSpec.v
theories/CompModel.v
theories/CompProofs.v
theories/CompProps.v
theories/FioSpec.v
theories/FioModel.v
theories/FioProofs.v
theories/FioProps.v
theories/UpdSpec.v
theories/UpdModel.v
theories/UpdProofs.v
theories/UpdProps.v
theories/CastSpec.v
theories/CastModel.v
theories/CastProofs.v
theories/CastProps.v
theories/PtreeSpec.v
theories/PtreeModel.v
theories/PtreePages.v
theories/PtreeProofs.v
theories/PtreeInv.v
theories/PtreeProps.v
theories/CatModel.v
theories/CatSpec.v
theories/CatProofs.v
theories/CatProps.v
theories/SubqModel.v
theories/SubqSpec.v
theories/SubqProofs.v
theories/SubqProps.v
theories/StrModel.v
theories/StrSpec.v
theories/StrProofs.v
theories/StrProps.v
theories/NetModel.v
theories/NetSpec.v
theories/NetProofs.v
theories/NetProps.v
theories/CalSpec.v
theories/CalModel.v
theories/CalProofs.v
theories/CalProps.v
theories/NameSpec.v
theories/NameModel.v
theories/NameProofs.v
theories/NameProps.v
theories/SelSpec.v
theories/SelModel.v
theories/SelProofs.v
theories/SelProps.v
theories/HavingProps.v
theories/NumSpec.v
theories/NumModel.v
theories/NumProps.v
theories/RemSpec.v
theories/RemModel.v
theories/RemProps.v
theories/QrySpec.v
theories/QryModel.v
theories/QryProofs.v
theories/QryProps.v
theories/FltSpec.v
theories/FltModel.v
theories/FltProofs.v
theories/FltProps.v
theories/ArrSpec.v
theories/ArrModel.v
theories/ArrProps.v
theories/TopgSpec.v
theories/TopgModel.v
theories/TopgProofs.v
theories/TopgProps.v
theories/DdlSpec.v
theories/DdlModel.v
theories/DdlProofs.v
theories/DdlProps.v
theories/ClauseSpec.v
theories/ClauseModel.v
theories/ClauseProps.v
theories/CvalSpec.v
theories/CvalModel.v
theories/CvalProps.v
theories/VordSpec.v
theories/VordModel.v
theories/VordProofs.v
theories/VordProps.v
theories/NijModel.v
theories/NijProps.v
theories/SimSpec.v
theories/SimModel.v
theories/SimProps.v
theories/CaseSpec.v
theories/CaseModel.v
theories/CaseProps.v
theories/IpSpec.v
theories/IpModel.v
theories/IpProofs.v
theories/IpProps.v
theories/ShSpec.v
theories/ShModel.v
theories/ShProofs.v
theories/ShProps.v
theories/DspSpec.v
theories/DspModel.v
theories/DspProofs.v
theories/DspProps.v
theories/HblkSpec.v
theories/HblkModel.v
theories/HblkProofs.v
theories/HblkProps.v
theories/EjSpec.v
theories/EjModel.v
theories/EjProofs.v
theories/EjProps.v
theories/JfSpec.v
theories/JfModel.v
theories/JfProofs.v
theories/JfProps.v
theories/DlSpec.v
theories/DlModel.v
theories/DlProofs.v
theories/DlProps.v
theories/StSpec.v
theories/StProofs.v
theories/StProps.v
theories/BwSpec.v
theories/BwModel.v
theories/BwProofs.v
theories/BwProps.v
theories/PchkModel.v
theories/PchkSpec.v
theories/PchkProofs.v
theories/PchkProps.v
theories/QclSpec.v
theories/QclModel.v
theories/QclProofs.v
theories/QclProps.v
theories/VqSpec.v
theories/VqModel.v
theories/VqProps.v
theories/CmdSpec.v
theories/CmdModel.v
theories/CmdProofs.v
theories/CmdProps.v
theories/HngSpec.v
theories/HngModel.v
theories/HngProps.v
theories/MetSpec.v
theories/MetModel.v
theories/MetProps.v
theories/OrdSpec.v
theories/OrdModel.v
theories/OrdProps.v
theories/DirhSpec.v
theories/DirhModel.v
theories/DirhProps.v
theories/CixSpec.v
theories/CixModel.v
theories/CixProps.v
theories/StxSpec.v
theories/StxModel.v
theories/StxProps.v
theories/MthSpec.v
theories/MthModel.v
theories/MthProps.v
theories/ConvSpec.v
theories/ConvModel.v
theories/ConvProps.v
theories/PmonSpec.v
theories/PmonModel.v
theories/PmonProps.v
