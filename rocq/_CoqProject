-Q theories Verif
theories/AnalysisModel.v
theories/AnalysisProps.v
theories/BypassProps.v
theories/CaptureLiveProofs.v
theories/CaptureLiveProps.v
theories/CaptureModel.v
theories/CaptureProofs.v
theories/CaptureProps.v
theories/CaptureRateProofs.v
theories/CdcModel.v
theories/CdcProofs.v
theories/CdcProps.v
theories/CdcWerProps.v
theories/ChanSyncModel.v
theories/ChanSyncProofs.v
theories/ChanSyncProps.v
theories/CharSyncModel.v
theories/CharSyncProofs.v
theories/CharSyncProps.v
theories/CharSyncSpec.v
theories/ChromaProofs.v
theories/ClockModel.v
theories/ClockProps.v
theories/CscModel.v
theories/CscProofs.v
theories/CscProps.v
theories/CscSpec.v
theories/CscWCoef.v
theories/CscWModel.v
theories/CscWProofs.v
theories/CscWProps.v
theories/CscWSpec.v
theories/DeepProps.v
theories/DelayModel.v
theories/DelayProps.v
theories/DownProps.v
theories/DriverProps.v
theories/EagerProps.v
theories/EdidInv.v
theories/EdidLink.v
theories/EdidModel.v
theories/EdidPadsModel.v
theories/EdidPadsProps.v
theories/EdidPinProofs.v
theories/EdidPinProps.v
theories/EdidPinSpec.v
theories/EdidProofs.v
theories/EdidProps.v
theories/EdidRecover.v
theories/EdidSettle.v
theories/EdidSpec.v
theories/EveryPictureProps.v
theories/ExactProps.v
theories/FairProofs.v
theories/FairProps.v
theories/FifoModel.v
theories/FifoProofs.v
theories/FifoProps.v
theories/FloatExactProps.v
theories/FloatModel.v
theories/FloatProofs.v
theories/FloatProps.v
theories/FloatSpec.v
theories/FrameLiveProofs.v
theories/FrameProofs.v
theories/FrameProps.v
theories/FrameSizeProps.v
theories/GearModel.v
theories/GearProps.v
theories/GenlockModel.v
theories/GenlockProofs.v
theories/GenlockProps.v
theories/GenlockRangeProps.v
theories/Hdl.v
theories/HdmiIslandProps.v
theories/HdmiModel.v
theories/HdmiProofs.v
theories/HdmiProps.v
theories/HdmiRxModel.v
theories/HdmiRxProps.v
theories/HdmiSlotProps.v
theories/HdmiSlotYccProps.v
theories/HdmiSrcProofs.v
theories/HdmiSrcProps.v
theories/HdmiSrcSpec.v
theories/HdmiVideoProps.v
theories/HdmiVideoYccProps.v
theories/InDmaModel.v
theories/InDmaProofs.v
theories/InDmaProps.v
theories/IrqModel.v
theories/IrqProps.v
theories/JoinProps.v
theories/LinkModel.v
theories/LinkProofs.v
theories/LinkProps.v
theories/LockProps.v
theories/ModeLinkProofs.v
theories/ModeLinkProps.v
theories/ModeProofs.v
theories/ModeProps.v
theories/ModeRunProps.v
theories/OutLiveProps.v
theories/OutRestartProps.v
theories/OutSwapProps.v
theories/OutTopModel.v
theories/OutTopProofs.v
theories/OutTopProps.v
theories/PatternModel.v
theories/PatternProps.v
theories/PermitProps.v
theories/PhyModel.v
theories/PhyProps.v
theories/PictureFlowProps.v
theories/PictureOrderProps.v
theories/PictureSkipProps.v
theories/PipeModel.v
theories/PipeProofs.v
theories/PromptProps.v
theories/RawGenlockModel.v
theories/RawGenlockProps.v
theories/RawModel.v
theories/RawProps.v
theories/RawTopModel.v
theories/RawTopProofs.v
theories/RawTopProps.v
theories/RefModel.v
theories/RefProps.v
theories/ResampleModel.v
theories/ResampleProps.v
theories/S6CtlModel.v
theories/S6CtlProps.v
theories/S6PhaseProps.v
theories/S7CtlModel.v
theories/S7CtlProofs.v
theories/S7CtlProps.v
theories/SerialLinkProps.v
theories/SerialModel.v
theories/SerialProps.v
theories/SerialTop422Props.v
theories/SerialTopProps.v
theories/ServedProps.v
theories/SizeMoveProofs.v
theories/SizeMoveProps.v
theories/SizingProofs.v
theories/SizingProps.v
theories/SlotRegProps.v
theories/StartupProofs.v
theories/StartupProps.v
theories/StatusModel.v
theories/StatusProps.v
theories/StreamLinkProofs.v
theories/StreamLinkProps.v
theories/SyncStatusProps.v
theories/TapModel.v
theories/TapProofs.v
theories/TapProps.v
theories/TearProps.v
theories/Terc4Model.v
theories/Terc4Proofs.v
theories/Terc4Props.v
theories/Terc4Spec.v
theories/TermFiles.v
theories/TermTopModel.v
theories/TermTopProofs.v
theories/TermTopProps.v
theories/TerminalModel.v
theories/TerminalProofs.v
theories/TerminalProps.v
theories/TimingModel.v
theories/TimingProofs.v
theories/TimingProps.v
theories/TimingSpec.v
theories/TmdsModel.v
theories/TmdsProofs.v
theories/TmdsProps.v
theories/TmdsSpec.v
theories/Trace.v
theories/VideoOutModel.v
theories/VideoOutProofs.v
theories/VideoOutProps.v
theories/WerModel.v
theories/WerProofs.v
theories/WerProps.v
theories/WerSpec.v
theories/WithdrawProps.v
theories/YccLinkModel.v
theories/YccLinkProps.v
theories/YccLoopProps.v
theories/YccOutProps.v
theories/YccPathModel.v
theories/YccPathProofs.v
theories/YccPathProps.v
theories/YccTopModel.v
theories/YccTopProofs.v
theories/YccTopProps.v
