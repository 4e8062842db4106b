-Q theories Verif
theories/Base.v
theories/ArrayModel.v
theories/ArrayProofs.v
theories/ArrayProps.v
theories/StrModel.v
theories/StrProofs.v
theories/StrProofs2.v
theories/StrProps.v
theories/SortModel.v
theories/SortProofs.v
theories/SortProps.v
theories/ItoaModel.v
theories/ItoaProofs.v
theories/ItoaProps.v
theories/Base64Model.v
theories/Base64Proofs.v
theories/Base64Props.v
theories/DequeModel.v
theories/DequeProofs.v
theories/DequeProps.v
theories/DequeConcModel.v
theories/DequeConcProofs.v
theories/DequeConcProofs2.v
theories/DequeConcProofs3.v
theories/DequeConcProps.v
theories/DllModel.v
theories/DllProofs.v
theories/SchedModel.v
theories/SchedProofs.v
theories/SchedProps.v
theories/TimersModel.v
theories/TimersProofs.v
theories/TimersProps.v
theories/SleepModel.v
theories/SleepProofs.v
theories/SleepProps.v
theories/WheelModel.v
theories/WheelProofs.v
theories/WheelProps.v
theories/EpollModel.v
theories/EpollProofs.v
theories/EpollProps.v
theories/CoreModel.v
theories/CoreProofs.v
theories/CoreProps.v
theories/IoModel.v
theories/IoProofs.v
theories/IoProps.v
theories/GetoptModel.v
theories/GetoptProofs.v
theories/GetoptProps.v
theories/AddrModel.v
theories/AddrProofs.v
theories/AddrProps.v
theories/SignalModel.v
theories/SignalProofs.v
theories/SignalProps.v
theories/FdModel.v
theories/FdProofs.v
theories/FdProps.v
theories/NotifyModel.v
theories/NotifyProofs.v
theories/NotifyProps.v
theories/UriModel.v
theories/UriProofs.v
theories/UriProps.v
theories/UriProofs2.v
theories/UriFormsProps.v
theories/ResultModel.v
theories/ResultProofs.v
theories/ResultProps.v
theories/PoolModel.v
theories/PoolProofs.v
theories/WaitModel.v
theories/WaitProofs.v
theories/PoolProps.v
theories/PromiseModel.v
theories/PromiseProofs.v
theories/PromiseProps.v
theories/GeneratorModel.v
theories/GeneratorProofs.v
theories/GeneratorProps.v
theories/ExceptModel.v
theories/ExceptProofs.v
theories/ExceptProps.v
theories/DeferModel.v
theories/DeferProofs.v
theories/DeferProps.v
theories/RangeModel.v
theories/RangeProofs.v
theories/RangeProps.v
theories/TextModel.v
theories/TextProofs.v
theories/TextProofs2.v
theories/TextProofs3.v
theories/TextProps.v
theories/KqModel.v
theories/KqProofs.v
theories/KqProps.v
theories/RpModel.v
theories/RpProofs.v
theories/RpProps.v
theories/ProcModel.v
theories/ProcProofs.v
theories/ProcProps.v
theories/SockModel.v
theories/SockProofs.v
theories/SockProps.v
theories/AwaitModel.v
theories/AwaitProofs.v
theories/AwaitProps.v
theories/TlsModel.v
theories/TlsProofs.v
theories/TlsProps.v
theories/SpinModel.v
theories/SpinProofs.v
theories/SpinProps.v
theories/RpConcModel.v
theories/RpConcProofs.v
theories/RpConcProps.v
theories/RbModel.v
theories/RbProofs.v
theories/RbProps.v
theories/WeModel.v
theories/WeProofs.v
theories/WeProofs2.v
theories/WeProofs3.v
theories/WeProofs4.v
theories/WeProps.v
theories/WrModel.v
theories/WrProofs.v
theories/WrProofs2.v
theories/WrProofs3.v
theories/WrProofs4.v
theories/WrProps.v
theories/RunModel.v
theories/RunProofs.v
theories/RunProofs2.v
theories/RunProofs3.v
theories/RunProofs4.v
theories/RunProofs5.v
theories/RunProofs6.v
theories/RunProofs7.v
theories/RunProofs8.v
theories/RunProps.v
theories/WxModel.v
theories/WxProofs.v
theories/WxProps.v
theories/WnModel.v
theories/WnProofs.v
theories/WnProofs2.v
theories/WnProofs3.v
theories/WnProps.v
theories/WpModel.v
theories/WpProofs.v
theories/WpProps.v
theories/WtModel.v
theories/WtProofs.v
theories/WtProofs2.v
theories/WtProofs3.v
theories/WtProps.v
theories/WmModel.v
theories/WmProofs.v
theories/WmProps.v
theories/FsModel.v
theories/FsProofs.v
theories/FsProps.v
theories/EsModel.v
theories/EsProofs.v
theories/EsProps.v
theories/WqModel.v
theories/WqProofs.v
theories/WqProps.v
theories/FuModel.v
theories/FuProofs.v
theories/FuProps.v
theories/FwModel.v
theories/FwProofs.v
theories/FwProps.v
theories/WcModel.v
theories/WcProofs.v
theories/WcProps.v
theories/SmModel.v
theories/SmProofs.v
theories/SmProofs2.v
theories/SmProofs3.v
theories/SmProofs4.v
theories/SmProofs5.v
theories/SmProofs6.v
theories/SmProofs7.v
theories/SmProofs8.v
theories/SmProps.v
theories/BwModel.v
theories/BwProofs.v
theories/BwProofs2.v
theories/BwProofs3.v
theories/BwProps.v
theories/AxModel.v
theories/AxProofs.v
theories/AxProofs2.v
theories/AxProofs3.v
theories/AxProofs4.v
theories/AxProps.v
theories/SkModel.v
theories/SkProofs.v
theories/SkProps.v
theories/ThModel.v
theories/ThProofs.v
theories/ThProofs2.v
theories/ThProps.v
theories/HpModel.v
theories/HpProofs.v
theories/HpProofs2.v
theories/HpProofs3.v
theories/HpProofs4.v
theories/HpProps.v
theories/LpModel.v
theories/LpProofs.v
theories/LpProofs2.v
theories/LpProps.v
theories/UfModel.v
theories/UfProofs.v
theories/UfProps.v
theories/TlModel.v
theories/TlProofs.v
theories/TlProps.v
theories/PsModel.v
theories/PsProofs.v
theories/PsProofs2.v
theories/PsProofs3.v
theories/PsProofs4.v
theories/PsProps.v
theories/CnModel.v
theories/CnProofs.v
theories/CnProofs2.v
theories/CnProofs3.v
theories/CnProofs4.v
theories/CnProofs5.v
theories/CnProps.v
theories/NwModel.v
theories/NwProofs.v
theories/NwProps.v
theories/GdModel.v
theories/GdProofs.v
theories/GdProofs2.v
theories/GdProps.v
theories/TxModel.v
theories/TxProofs.v
theories/TxProps.v
theories/DmModel.v
theories/DmProofs.v
theories/DmProofs2.v
theories/DmProofs3.v
theories/DmProps.v
theories/HnModel.v
theories/HnProofs.v
theories/HnProps.v
theories/ErModel.v
theories/ErProofs.v
theories/ErProps.v
theories/FcModel.v
theories/FcProofs.v
theories/FcProps.v
theories/EnModel.v
theories/EnProofs.v
theories/EnProofs2.v
theories/EnProps.v
theories/CyModel.v
theories/CyProofs.v
theories/CyProps.v
theories/TdModel.v
theories/TdProofs.v
theories/TdProofs2.v
theories/TdProps.v
theories/PkModel.v
theories/PkProofs.v
theories/PkProofs2.v
theories/PkProofs3.v
theories/PkProofs4.v
theories/PkProofs5.v
theories/PkProps.v
theories/JnModel.v
theories/JnProofs.v
theories/JnProps.v
theories/FtModel.v
theories/FtProofs.v
theories/FtProps.v
theories/AfModel.v
theories/AfProofs.v
theories/AfProps.v
theories/BlModel.v
theories/BlProofs.v
theories/BlProps.v
theories/NpModel.v
theories/NpProofs.v
theories/NpProps.v
theories/DtModel.v
theories/DtProofs.v
theories/DtProps.v
