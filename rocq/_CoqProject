-Q theories Verif
theories/ApiModel.v
theories/ApiProofs.v
theories/ApiProofs2.v
theories/ApiProps.v
theories/ApiSpec.v
theories/ArgModel.v
theories/ArgProofs.v
theories/ArgProps.v
theories/ArgSpec.v
theories/AttachModel.v
theories/AttachProofs.v
theories/AttachProofs2.v
theories/AttachProofs3.v
theories/AttachProofs4.v
theories/AttachProps.v
theories/AttachSpec.v
theories/AttrModel.v
theories/AttrProofs.v
theories/AttrProofs2.v
theories/AttrProofs3.v
theories/AttrProps.v
theories/AttrSpec.v
theories/Base.v
theories/BitModel.v
theories/BitProofs.v
theories/BitProofs2.v
theories/BitProps.v
theories/BitSpec.v
theories/BtfExt.v
theories/BtfExtProofs.v
theories/BtfExtProps.v
theories/BtfExtSpec.v
theories/BtfKsymsProofs.v
theories/BtfModel.v
theories/BtfProofs.v
theories/BtfProofs2.v
theories/BtfProps.v
theories/BtfSanitize.v
theories/BtfSanitizeProofs.v
theories/BtfSanitizeProofs2.v
theories/BtfSanitizeProofs3.v
theories/BtfSanitizeProps.v
theories/BtfSanitizeSpec.v
theories/BtfTypes.v
theories/BtfTypesProofs.v
theories/BuildModel.v
theories/BuildProofs.v
theories/BuildProofs2.v
theories/BuildProofs3.v
theories/BuildProofs4.v
theories/BuildProps.v
theories/BuildSpec.v
theories/CoreModel.v
theories/CoreProofs.v
theories/CoreProofs2.v
theories/CoreProofs3.v
theories/CoreProofs4.v
theories/CoreProofs5.v
theories/CoreProofs6.v
theories/CoreProps.v
theories/CoreSpec.v
theories/CoreSpec2.v
theories/CoreTypesProps.v
theories/CpioModel.v
theories/CpioProofs.v
theories/CpioProofs2.v
theories/CpioProofs3.v
theories/CpioProofs4.v
theories/CpioProofs5.v
theories/CpioProps.v
theories/CpioSpec.v
theories/CtxModel.v
theories/CtxProofs.v
theories/CtxSpec.v
theories/CtyModel.v
theories/CtyProofs.v
theories/CtyProps.v
theories/CtySpec.v
theories/DebModel.v
theories/DebProofs.v
theories/DebProofs2.v
theories/DebProofs3.v
theories/DebProps.v
theories/DebSpec.v
theories/DeclModel.v
theories/DeclProofs.v
theories/DeclProps.v
theories/DeclSpec.v
theories/EmitModel.v
theories/EmitProofs.v
theories/EmitProofs2.v
theories/EmitProofs3.v
theories/EmitProps.v
theories/EmitSpec.v
theories/EventModel.v
theories/EventProofs.v
theories/EventProofs2.v
theories/EventProps.v
theories/EventSpec.v
theories/ExternModel.v
theories/ExternProofs.v
theories/ExternProofs2.v
theories/ExternProps.v
theories/ExternSpec.v
theories/FeatAttachProps.v
theories/FeatAttachSpec.v
theories/FeatCacheModel.v
theories/FeatCacheSpec.v
theories/FeatModel.v
theories/FeatProofs.v
theories/FeatProofs2.v
theories/FeatProofs3.v
theories/FeatProofs4.v
theories/FeatProofs5.v
theories/FeatProofs6.v
theories/FeatProofs7.v
theories/FeatProps.v
theories/FeatSpec.v
theories/FetchModel.v
theories/FetchProofs.v
theories/FetchProps.v
theories/FetchSpec.v
theories/HandleModel.v
theories/HandleProofs.v
theories/HandleProps.v
theories/HandleSpec.v
theories/HelpModel.v
theories/HelpProofs.v
theories/HelpProps.v
theories/HelpSpec.v
theories/InfoModel.v
theories/InfoProofs.v
theories/InfoProps.v
theories/InfoSpec.v
theories/Insn.v
theories/KmodModel.v
theories/KmodProofs.v
theories/KmodProofs2.v
theories/KmodProps.v
theories/KmodSpec.v
theories/LayoutDecls.v
theories/LayoutModel.v
theories/LayoutProofs.v
theories/LayoutProps.v
theories/LayoutSpec.v
theories/LinkModel.v
theories/LinkProofs.v
theories/LinkProofs2.v
theories/LinkProofs3.v
theories/LinkProps.v
theories/LinkSpec.v
theories/LoaderModel.v
theories/LoaderProofs.v
theories/LoaderProofs2.v
theories/LoaderProofs3.v
theories/LoaderProofs4.v
theories/LoaderProps.v
theories/LoaderSpec.v
theories/LogFmtModel.v
theories/LogFmtProofs.v
theories/LogModel.v
theories/LogProofs.v
theories/LogProps.v
theories/LogRunModel.v
theories/LogRunProofs.v
theories/LogRunProofs2.v
theories/LogRunProps.v
theories/LogRunSpec.v
theories/LogShowProofs.v
theories/LogSpec.v
theories/MacroModel.v
theories/MapModel.v
theories/MapProofs.v
theories/MapProps.v
theories/MapSpec.v
theories/MemModel.v
theories/MemProofs.v
theories/MemProps.v
theories/MemSpec.v
theories/NestModel.v
theories/NestProofs.v
theories/NestProofs2.v
theories/NestProofs3.v
theories/NestProofs4.v
theories/NestProofs5.v
theories/NestProps.v
theories/NestSpec.v
theories/NetlinkModel.v
theories/NetlinkProofs.v
theories/NetlinkProofs2.v
theories/NetlinkProofs3.v
theories/NetlinkProofs4.v
theories/NetlinkProps.v
theories/NetlinkSpec.v
theories/ObjModel.v
theories/ObjProofs.v
theories/ObjProofs2.v
theories/ObjProofs3.v
theories/ObjProofs4.v
theories/ObjProofs5.v
theories/ObjProofs6.v
theories/ObjProps.v
theories/ObjSpec.v
theories/ParseModel.v
theories/ParseProofs.v
theories/ParseProofs2.v
theories/ParseProofs3.v
theories/ParseProofs4.v
theories/ParseProofs5.v
theories/ParseProofs6.v
theories/ParseProofs7.v
theories/ParseProps.v
theories/ParseSpec.v
theories/PatchModel.v
theories/PatchProofs.v
theories/PatchProofs2.v
theories/PatchProps.v
theories/PatchSpec.v
theories/PerfModel.v
theories/PerfProofs.v
theories/PerfProofs2.v
theories/PerfProps.v
theories/PerfSpec.v
theories/PinModel.v
theories/PinProofs.v
theories/PinProofs2.v
theories/PinProofs3.v
theories/PinProofs4.v
theories/PinProps.v
theories/PinSpec.v
theories/ProbeCmdProofs.v
theories/ProbeCmdProps.v
theories/ProbeCmdSpec.v
theories/ProbeModel.v
theories/ProbeProofs.v
theories/ProbeProofs2.v
theories/ProbeProps.v
theories/ProbeSpec.v
theories/ProgModel.v
theories/ProgProofs.v
theories/ProgProofs2.v
theories/ProgProps.v
theories/ProgSpec.v
theories/QueryModel.v
theories/QueryProofs.v
theories/QueryProps.v
theories/QuerySpec.v
theories/RingBufModel.v
theories/RingBufProofs.v
theories/RingBufProps.v
theories/RingBufSpec.v
theories/RingBufTso.v
theories/RingBufTsoProofs.v
theories/RingBufTsoProps.v
theories/RunProofs.v
theories/RunProofs2.v
theories/RunProofs3.v
theories/RunProofs4.v
theories/RunProps.v
theories/RunSpec.v
theories/RunSpec2.v
theories/SockModel.v
theories/SockProofs.v
theories/SockProofs2.v
theories/SockProofs3.v
theories/SockProofs4.v
theories/SockProofs5.v
theories/SockProofs6.v
theories/SockProps.v
theories/SockSpec.v
theories/SysModel.v
theories/SysProofs.v
theories/SysProps.v
theories/SysSpec.v
theories/TargetModel.v
theories/TargetProofs.v
theories/TargetProps.v
theories/TargetSpec.v
theories/TaskModel.v
theories/TaskProofs.v
theories/TaskProps.v
theories/TaskSpec.v
theories/TestRunModel.v
theories/TestRunProofs.v
theories/TestRunProofs2.v
theories/TestRunProps.v
theories/TestRunSpec.v
theories/Text.v
theories/TextParse.v
theories/TextSplit.v
theories/ToolModel.v
theories/ToolProofs.v
theories/ToolProps.v
theories/ToolSpec.v
theories/TraceModel.v
theories/TraceProofs.v
theories/TraceProofs2.v
theories/TraceProofs3.v
theories/TraceProofs4.v
theories/TraceProps.v
theories/TraceSpec.v
theories/TypedModel.v
theories/TypedProofs.v
theories/TypedProofs2.v
theories/TypedProofs3.v
theories/TypedProps.v
theories/TypedSpec.v
theories/UProbeModel.v
theories/UProbeProofs.v
theories/UProbeProofs2.v
theories/UProbeProps.v
theories/UProbeSpec.v
theories/UbuntuModel.v
theories/UbuntuProofs.v
theories/UbuntuProofs2.v
theories/UbuntuProofs3.v
theories/UbuntuProps.v
theories/UbuntuSpec.v
theories/UseModel.v
theories/UseProofs.v
theories/UseProofs2.v
theories/UseProofs3.v
theories/UseProps.v
theories/UseSpec.v
theories/UtilModel.v
theories/UtilProofs.v
theories/UtilProps.v
theories/UtilSpec.v
theories/VmModel.v
theories/VmProofs.v
theories/VmProofs2.v
theories/VmProofs3.v
theories/VmProofs4.v
theories/VmProps.v
theories/VmSpec.v
theories/WholeModel.v
theories/WholeProofs.v
theories/WholeProofs2.v
theories/WholeProofs3.v
theories/WholeProofs4.v
theories/WholeProofs5.v
theories/WholeProps.v
theories/WholeSpec.v
theories/WrapIds.v
theories/WrapModel.v
theories/WrapProofs.v
theories/WrapProofs2.v
theories/WrapProps.v
theories/WrapSpec.v
theories/WrapTable.v
