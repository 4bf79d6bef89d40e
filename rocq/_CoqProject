-Q theories Verif
theories/Base/Prelude.v
theories/Base/Omap.v
theories/Base/Bytes.v
theories/Align/Model.v
theories/Align/Proofs.v
theories/Align/Main.v
theories/Align/Props.v
theories/Depex/Model.v
theories/Depex/Spec.v
theories/Depex/Proofs.v
theories/Depex/Props.v
theories/Gcd/Blocks.v
theories/Gcd/Model.v
theories/Gcd/Spec.v
theories/Gcd/BlockProofs.v
theories/Gcd/Proofs.v
theories/Gcd/AllocProofs.v
theories/Gcd/Main.v
theories/Gcd/Hist.v
theories/Gcd/Complete.v
theories/Gcd/Props.v
theories/Gcd/Spin.v
theories/Gcd/SpinSpec.v
theories/Gcd/SpinProofs.v
theories/Gcd/SpinProps.v
theories/Io/Model.v
theories/Io/Spec.v
theories/Io/Proofs.v
theories/Io/Main.v
theories/Io/Props.v
theories/Sslice/Model.v
theories/Sslice/Spec.v
theories/Sslice/Proofs.v
theories/Sslice/Props.v
theories/Event/Model.v
theories/Event/Spec.v
theories/Event/Proofs.v
theories/Event/Main.v
theories/Event/Props.v
theories/Tpl/Model.v
theories/Tpl/Spec.v
theories/Tpl/Proofs.v
theories/Tpl/Silent.v
theories/Tpl/Props.v
theories/Protocol/Model.v
theories/Protocol/Spec.v
theories/Protocol/Proofs.v
theories/Protocol/Order.v
theories/Protocol/Usage.v
theories/Protocol/Notify.v
theories/Protocol/Services.v
theories/Protocol/SvcProofs.v
theories/Protocol/Props.v
theories/Guid/Model.v
theories/Guid/Spec.v
theories/Guid/Proofs.v
theories/Guid/Props.v
theories/Config/Model.v
theories/Config/Spec.v
theories/Config/Props.v
theories/Misc/Model.v
theories/Misc/Spec.v
theories/Misc/Props.v
theories/Runtime/Model.v
theories/Runtime/Spec.v
theories/Runtime/Props.v
theories/DevPath/Spec.v
theories/DevPath/Model.v
theories/DevPath/Sdk.v
theories/DevPath/Proofs.v
theories/DevPath/Props.v
theories/DevPath/SdkProps.v
theories/Log/Spec.v
theories/Log/Model.v
theories/Log/Proofs.v
theories/Log/Conc.v
theories/Log/ConcProofs.v
theories/Log/Props.v
theories/Log/ConcProps.v
theories/Log/StreamProps.v
theories/Hob/Spec.v
theories/Hob/Model.v
theories/Hob/Proofs.v
theories/Hob/Props.v
theories/Rbt/Model.v
theories/Rbt/Tree.v
theories/Rbt/Heap.v
theories/Rbt/Rot.v
theories/Rbt/FixAdd.v
theories/Rbt/FixDel.v
theories/Rbt/Remove.v
theories/Rbt/SwapBase.v
theories/Rbt/Swap1.v
theories/Rbt/Swap2.v
theories/Rbt/Swap3.v
theories/Rbt/RemTree.v
theories/Rbt/Spec.v
theories/Rbt/Api.v
theories/Rbt/Lookup.v
theories/Rbt/Store.v
theories/Rbt/Main.v
theories/Rbt/Balance.v
theories/Rbt/Props.v
theories/Boot/Model.v
theories/Boot/Spec.v
theories/Boot/Proofs.v
theories/Boot/Complete.v
theories/Boot/Props.v
theories/Ffs/Model.v
theories/Ffs/Spec.v
theories/Ffs/SectionProofs.v
theories/Ffs/SectionRead.v
theories/Ffs/FileProofs.v
theories/Ffs/VolumeProofs.v
theories/Ffs/VolumeMain.v
theories/Ffs/Safety.v
theories/Ffs/Props.v
theories/Dispatch/Model.v
theories/Dispatch/Spec.v
theories/Dispatch/Proofs.v
theories/Dispatch/Main.v
theories/Dispatch/Live.v
theories/Dispatch/Props.v
theories/Connect/Model.v
theories/Connect/Spec.v
theories/Connect/Proofs.v
theories/Connect/Sources.v
theories/Connect/Main.v
theories/Connect/Stop.v
theories/Connect/Props.v
theories/Pe/Model.v
theories/Pe/Spec.v
theories/Pe/Proofs.v
theories/Pe/Props.v
theories/Alloc/Model.v
theories/Alloc/Spec.v
theories/Alloc/Pool.v
theories/Alloc/Pages.v
theories/Alloc/Calls.v
theories/Alloc/System.v
theories/Alloc/History.v
theories/Alloc/Props.v
theories/Alloc/PageProps.v
theories/Alloc/Demo.v
theories/MemMap/Model.v
theories/MemMap/Spec.v
theories/MemMap/Crc.v
theories/MemMap/Proofs.v
theories/MemMap/Props.v
theories/MemMap/Key.v
theories/Image/Model.v
theories/Image/Spec.v
theories/Image/Close.v
theories/Image/Proofs.v
theories/Image/Load.v
theories/Image/Effect.v
theories/Image/Props.v
theories/Comp/Model.v
theories/Comp/Spec.v
theories/Comp/Proofs.v
theories/Comp/Params.v
theories/Comp/Dispatch.v
theories/Comp/Main.v
theories/Comp/Replay.v
theories/Comp/Props.v
theories/Attr/Model.v
theories/Attr/Spec.v
theories/Attr/Proofs.v
theories/Attr/Main.v
theories/Attr/Props.v
theories/Attr/ImageProps.v
theories/Attr/TableProps.v
theories/Mm/Model.v
theories/Mm/Spec.v
theories/Mm/Props.v
theories/Perf/Model.v
theories/Perf/Spec.v
theories/Perf/Proofs.v
theories/Perf/Main.v
theories/Perf/Props.v
theories/Perf/Measure.v
theories/Perf/MeasureProps.v
theories/Trace/Model.v
theories/Trace/Spec.v
theories/Trace/Proofs.v
theories/Trace/Props.v
theories/Trace/ArmModel.v
theories/Trace/ArmSpec.v
theories/Trace/ArmProps.v
theories/PreDxe/Model.v
theories/PreDxe/Spec.v
theories/PreDxe/Proofs.v
theories/PreDxe/ListProofs.v
theories/PreDxe/Props.v
theories/PiFs/Model.v
theories/PiFs/Spec.v
theories/PiFs/Proofs.v
theories/PiFs/SectionProofs.v
theories/PiFs/Props.v
theories/FwVol/Model.v
theories/FwVol/Spec.v
theories/FwVol/Proofs.v
theories/FwVol/Props.v
theories/Var/Model.v
theories/Var/Spec.v
theories/Var/Proofs.v
theories/Var/Props.v
theories/DbgImg/Model.v
theories/DbgImg/Spec.v
theories/DbgImg/Proofs.v
theories/DbgImg/Props.v
theories/Debugger/Model.v
theories/Debugger/Spec.v
theories/Debugger/Proofs.v
theories/Debugger/Props.v
theories/Debugger/ArchModel.v
theories/Debugger/ArchSpec.v
theories/Debugger/ArchProofs.v
theories/Debugger/ArchProps.v
theories/Debugger/ArmModel.v
theories/Debugger/ArmSpec.v
theories/Debugger/ArmProps.v
theories/Debugger/TextModel.v
theories/Debugger/TextSpec.v
theories/Debugger/TextProps.v
theories/Exc/EntryModel.v
theories/Exc/EntrySpec.v
theories/Exc/EntryProps.v
theories/Exc/Model.v
theories/Exc/Spec.v
theories/Exc/Props.v
theories/Exc/GicModel.v
theories/Exc/GicSpec.v
theories/Exc/GicProps.v
theories/Bs/Model.v
theories/Bs/Spec.v
theories/Bs/Props.v
theories/Bs/GallocModel.v
theories/Bs/GallocSpec.v
theories/Bs/GallocProps.v
theories/Cpu/Model.v
theories/Cpu/Spec.v
theories/Cpu/Props.v
theories/File/Model.v
theories/File/Spec.v
theories/File/Props.v
theories/Ser/Model.v
theories/Ser/Spec.v
theories/Ser/Props.v
theories/Serial/Spec.v
theories/Serial/Model.v
theories/Serial/Props.v
theories/Logger/Spec.v
theories/Logger/Model.v
theories/Logger/Props.v
theories/Bind/Spec.v
theories/Bind/Model.v
theories/Bind/Props.v
theories/Extract/Model.v
theories/Extract/Spec.v
theories/Extract/Props.v
theories/Probe/Model.v
theories/Probe/Spec.v
theories/Probe/Props.v
theories/Runner/Model.v
theories/Runner/Spec.v
theories/Runner/Props.v
theories/CPtr/Model.v
theories/CPtr/Spec.v
theories/CPtr/Props.v
