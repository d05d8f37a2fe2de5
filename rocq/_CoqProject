-Q theories Verif
theories/Base.v
theories/BaseFacts.v
theories/StreamSpec.v
theories/StreamFacts.v
theories/FifoModel.v
theories/FifoSpec.v
theories/FifoProofs.v
theories/HsFifoProofs.v
theories/FifoPropsAux.v
theories/FifoProps.v
theories/HsRegModel.v
theories/HsRegSpec.v
theories/HsRegProofs.v
theories/HsRegPropsAux.v
theories/HsRegProps.v
theories/StreamNodeModel.v
theories/StreamNodeSpec.v
theories/StreamNodeProofs.v
theories/StreamNodeProps.v
theories/JoinSplitModel.v
theories/JoinSplitSpec.v
theories/JoinSplitProofs.v
theories/JoinSplitPropsAux.v
theories/JoinSplitProps.v
theories/ResizerModel.v
theories/ResizerSpec.v
theories/ResizerProofs.v
theories/ResizerPropsAux.v
theories/ResizerProps.v
theories/FifoDropModel.v
theories/FifoDropSpec.v
theories/FifoDropProofs.v
theories/FifoDropPropsAux.v
theories/FifoDropProps.v
theories/GrayModel.v
theories/GraySpec.v
theories/GrayProofs.v
theories/GrayProps.v
theories/FifoAsyncModel.v
theories/FifoAsyncSpec.v
theories/FifoAsyncProofs.v
theories/FifoAsyncProps.v
theories/OneHotModel.v
theories/OneHotProofs.v
theories/OneHotProps.v
theories/CountLeadingModel.v
theories/CountLeadingProofs.v
theories/CountLeadingProps.v
theories/BitonicModel.v
theories/BitonicProofs.v
theories/BitonicProps.v
theories/CrcModel.v
theories/CrcSpec.v
theories/CrcCatalogue.v
theories/CrcProofs.v
theories/CrcProps.v
theories/BcdModel.v
theories/BcdSpec.v
theories/BcdProofs.v
theories/BcdProps.v
theories/LfsrModel.v
theories/LfsrSpec.v
theories/LfsrProofs.v
theories/LfsrProps.v
theories/RamModel.v
theories/RamSpec.v
theories/RamProofs.v
theories/RamProps.v
theories/CdcModel.v
theories/CdcSpec.v
theories/CdcProofs.v
theories/CdcProps.v
theories/CamModel.v
theories/CamSpec.v
theories/CamProofs.v
theories/CamProps.v
theories/RamXorModel.v
theories/RamXorSpec.v
theories/RamXorProofs.v
theories/RamXorProps.v
theories/InterconnectModel.v
theories/InterconnectSpec.v
theories/InterconnectProofs.v
theories/InterconnectProps.v
theories/AddrModel.v
theories/AddrSpec.v
theories/AddrProofs.v
theories/AddrProps.v
theories/SimRamModel.v
theories/SimRamSpec.v
theories/SimRamProofs.v
theories/SimRamProps.v
theories/TimerModel.v
theories/TimerSpec.v
theories/TimerProofs.v
theories/TimerProps.v
theories/ToAxisModel.v
theories/ToAxisSpec.v
theories/ToAxisProofs.v
theories/ToAxisProps.v
theories/AlignModel.v
theories/AlignSpec.v
theories/AlignProofs.v
theories/AlignProps.v
theories/FifoCopyModel.v
theories/FifoCopySpec.v
theories/FifoCopyProofs.v
theories/FifoCopyProps.v
theories/FifoArrayModel.v
theories/FifoArraySpec.v
theories/FifoArrayProofs.v
theories/FifoArrayProps.v
theories/AxisResizerModel.v
theories/AxisResizerSpec.v
theories/AxisResizerProofs.v
theories/AxisResizerProps.v
theories/AxisMiscModel.v
theories/AxisMiscSpec.v
theories/AxisMiscProofs.v
theories/AxisMiscProps.v
theories/UartModel.v
theories/UartSpec.v
theories/UartProofs.v
theories/UartProps.v
theories/ReorderModel.v
theories/ReorderSpec.v
theories/ReorderProofs.v
theories/ReorderProps.v
theories/BoothModel.v
theories/BoothSpec.v
theories/BoothProofs.v
theories/BoothProps.v
theories/ArithModel.v
theories/ArithSpec.v
theories/ArithProofs.v
theories/ArithProps.v
theories/PlruModel.v
theories/PlruSpec.v
theories/PlruProofs.v
theories/PlruProps.v
theories/FifoOooModel.v
theories/FifoOooSpec.v
theories/FifoOooProofs.v
theories/FifoOooProps.v
theories/VldCdcModel.v
theories/VldCdcSpec.v
theories/VldCdcProofs.v
theories/VldCdcProps.v
theories/TimeoutModel.v
theories/TimeoutSpec.v
theories/TimeoutProofs.v
theories/TimeoutProps.v
theories/ToLiteModel.v
theories/ToLiteSpec.v
theories/ToLiteProofs.v
theories/ToLiteProps.v
theories/Mi32Model.v
theories/Mi32Spec.v
theories/Mi32Proofs.v
theories/Mi32Props.v
theories/Mi32IcModel.v
theories/Mi32IcSpec.v
theories/Mi32IcProofs.v
theories/Mi32IcProps.v
theories/StrictModel.v
theories/StrictSpec.v
theories/StrictProofs.v
theories/StrictProps.v
theories/DpModel.v
theories/DpSpec.v
theories/DpRModel.v
theories/DpWModel.v
theories/DpProofs.v
theories/DpRSpec.v
theories/DpRProofs.v
theories/DpWSpec.v
theories/DpWProofs.v
theories/DpCases.v
theories/DpProps.v
theories/DpWCases.v
theories/DpWProps.v
theories/FlipModel.v
theories/FlipSpec.v
theories/FlipProofs.v
theories/FlipProps.v
theories/CumMaskModel.v
theories/CumMaskSpec.v
theories/CumMaskProofs.v
theories/CumMaskProps.v
theories/HashModel.v
theories/HashSpec.v
theories/HashProofs.v
theories/HashProps.v
theories/CuckooModel.v
theories/CuckooSpec.v
theories/CuckooProofs.v
theories/CuckooLive.v
theories/CuckooCases.v
theories/CuckooProps.v
theories/EpModel.v
theories/EpSpec.v
theories/EpProofs.v
theories/EpAxi.v
theories/EpInit.v
theories/EpCases.v
theories/EpProps.v
theories/MeasModel.v
theories/MeasSpec.v
theories/MeasProofs.v
theories/MeasProps.v
theories/MmuModel.v
theories/MmuSpec.v
theories/MmuProofs.v
theories/MmuRun.v
theories/MmuLive.v
theories/MmuFinal.v
theories/MmuCases.v
theories/MmuProps.v
theories/XbarModel.v
theories/XbarSpec.v
theories/XbarLog.v
theories/XbarChan.v
theories/XbarProofs.v
theories/XbarExcl.v
theories/XbarKeep.v
theories/XbarCases.v
theories/XbarProps.v
theories/MatrixModel.v
theories/MatrixSpec.v
theories/MatrixProofs.v
theories/MatrixCases.v
theories/MatrixProps.v
theories/ArrwModel.v
theories/ArrwSpec.v
theories/ArrwProofs.v
theories/ArrwCases.v
theories/ArrwProps.v
theories/LlrModel.v
theories/LlrSpec.v
theories/LlrProofs.v
theories/LlrCases.v
theories/LlrProps.v
theories/LlwModel.v
theories/LlwSpec.v
theories/LlwProofs.v
theories/LlwCases.v
theories/LlwProps.v
theories/FpModel.v
theories/FpSpec.v
theories/FpProofs.v
theories/FpCases.v
theories/FpProps.v
theories/FdModel.v
theories/FdSpec.v
theories/FdProofs.v
theories/FdCases.v
theories/FdProps.v
theories/FgModel.v
theories/FgSpec.v
theories/FgProofs.v
theories/FgProps.v
theories/MdioModel.v
theories/MdioSpec.v
theories/MdioCases.v
theories/MdioProofs.v
theories/MdioProps.v
theories/SpiModel.v
theories/SpiSpec.v
theories/SpiTimers.v
theories/SpiProofs.v
theories/SpiCases.v
theories/SpiProps.v
theories/FsModel.v
theories/FsSpec.v
theories/FsCases.v
theories/FsProofs.v
theories/FsProps.v
theories/TagModel.v
theories/TagSpec.v
theories/TagProofs.v
theories/TagCases.v
theories/TagProps.v
theories/S2mModel.v
theories/S2mSpec.v
theories/S2mProofs.v
theories/S2mProps.v
theories/I2cModel.v
theories/I2cSpec.v
theories/I2cProofs.v
theories/I2cCases.v
theories/I2cProps.v
theories/LlinkModel.v
theories/LlinkSpec.v
theories/LlinkProofs.v
theories/LlinkProps.v
theories/RszModel.v
theories/RszSpec.v
theories/RszCases.v
theories/RszProofs.v
theories/RszProps.v
theories/SlrModel.v
theories/SlrSpec.v
theories/SlrProofs.v
theories/SlrProps.v
theories/IpifModel.v
theories/IpifSpec.v
theories/IpifCases.v
theories/IpifProofs.v
theories/IpifProps.v
theories/IpbModel.v
theories/IpbSpec.v
theories/IpbProofs.v
theories/IpbProps.v
theories/AvmModel.v
theories/AvmSpec.v
theories/AvmCases.v
theories/AvmProofs.v
theories/AvmReads.v
theories/AvmWrites.v
theories/AvmMain.v
theories/AvmProps.v
theories/AmbModel.v
theories/AmbSpec.v
theories/AmbCases.v
theories/AmbProofs.v
theories/AmbProps.v
theories/AvxModel.v
theories/AvxSpec.v
theories/AvxCases.v
theories/AvxProofs.v
theories/AvxProps.v
theories/BufModel.v
theories/BufSpec.v
theories/BufProofs.v
theories/BufProps.v
theories/UlpModel.v
theories/UlpSpec.v
theories/UlpProofs.v
theories/UlpCases.v
theories/UlpProps.v
theories/WdModel.v
theories/WdSpec.v
theories/WdProofs.v
theories/WdCases.v
theories/WdProps.v
theories/AsrModel.v
theories/AsrSpec.v
theories/AsrProofs.v
theories/AsrCases.v
theories/AsrProps.v
theories/RtrModel.v
theories/RtrSpec.v
theories/RtrProofs.v
theories/RtrCases.v
theories/RtrProps.v
theories/AseqModel.v
theories/AseqSpec.v
theories/AseqProofs.v
theories/AseqProps.v
theories/LruaModel.v
theories/LruaSpec.v
theories/LruaProofs.v
theories/LruaCases.v
theories/LruaProps.v
theories/UsieModel.v
theories/UsieSpec.v
theories/UsieProofs.v
theories/UsieProps.v
theories/SfModel.v
theories/SfSpec.v
theories/SfProofs.v
theories/SfCases.v
theories/SfProps.v
theories/SfpModel.v
theories/SfpSpec.v
theories/SfpProofs.v
theories/SfpProps.v
theories/HexModel.v
theories/HexSpec.v
theories/HexProofs.v
theories/HexProps.v
theories/HdModel.v
theories/HdSpec.v
theories/HdProofs.v
theories/HdCases.v
theories/HdProps.v
theories/IpimModel.v
theories/IpimSpec.v
theories/IpimProofs.v
theories/IpimProps.v
theories/EpbModel.v
theories/EpbSpec.v
theories/EpbCases.v
theories/EpbProofs.v
theories/EpbProps.v
theories/UdbModel.v
theories/UdbSpec.v
theories/UdbCases.v
theories/UdbProofs.v
theories/UdbProps.v
theories/UefModel.v
theories/UefSpec.v
theories/UefCases.v
theories/UefProofs.v
theories/UefProps.v
theories/SapModel.v
theories/SapSpec.v
theories/SapProofs.v
theories/SapProps.v
theories/PpsModel.v
theories/PpsSpec.v
theories/PpsProofs.v
theories/PpsProps.v
theories/UngModel.v
theories/UngSpec.v
theories/UngProofs.v
theories/UngProps.v
theories/DbmModel.v
theories/DbmSpec.v
theories/DbmProofs.v
theories/DbmProps.v
theories/RmrModel.v
theories/RmrSpec.v
theories/RmrProofs.v
theories/RmrProps.v
theories/SksModel.v
theories/SksSpec.v
theories/SksProofs.v
theories/SksProps.v
theories/StwModel.v
theories/StwSpec.v
theories/StwProofs.v
theories/StwProps.v
theories/StrModel.v
theories/StrSpec.v
theories/StrProofs.v
theories/StrProps.v
theories/CutModel.v
theories/CutSpec.v
theories/CutProofs.v
theories/CutProps.v
theories/AssModel.v
theories/AssSpec.v
theories/AssProofs.v
theories/AssProps.v
theories/AfdModel.v
theories/AfdSpec.v
theories/AfdProofs.v
theories/AfdProps.v
