-Q theories Verif
theories/AbbrevModel.v
theories/AbbrevProof.v
theories/AbbrevProps.v
theories/AbbrevSpec.v
theories/Ar2Proof.v
theories/Ar3Proof.v
theories/Ar4Proof.v
theories/ArModel.v
theories/ArProof.v
theories/ArProps.v
theories/ArSpec.v
theories/ArangeModel.v
theories/ArangeProps.v
theories/ArenaModel.v
theories/ArenaProof.v
theories/ArenaProps.v
theories/ArenaSpec.v
theories/AsmModel.v
theories/AsmProof.v
theories/AsmProps.v
theories/AsmSpec.v
theories/Base.v
theories/BeginModel.v
theories/BeginProof.v
theories/BeginProps.v
theories/BeginSpec.v
theories/BkptModel.v
theories/BkptProof.v
theories/BkptProps.v
theories/BkptSpec.v
theories/CfiModel.v
theories/CfiProof.v
theories/CfiProps.v
theories/CfiSafe.v
theories/CfiSpec.v
theories/CntlModel.v
theories/CntlProps.v
theories/CoreModel.v
theories/CoreProof.v
theories/CoreProps.v
theories/CoreSpec.v
theories/CrcModel.v
theories/CrcProof.v
theories/CrcProps.v
theories/CrcSpec.v
theories/DataModel.v
theories/DataProof.v
theories/DataProps.v
theories/DataSpec.v
theories/DataZProof.v
theories/DereModel.v
theories/DereProof.v
theories/DereProps.v
theories/DereSpec.v
theories/DieProps.v
theories/DieSpec.v
theories/DwModel.v
theories/ElfErr.v
theories/Eval2Proof.v
theories/Eval3Proof.v
theories/Eval4Proof.v
theories/Eval5Proof.v
theories/EvalModel.v
theories/EvalProof.v
theories/EvalProps.v
theories/EvalSpec.v
theories/FdeModel.v
theories/FdeProof.v
theories/FdeProps.v
theories/FdeSpec.v
theories/FdeTable.v
theories/FindModel.v
theories/FindProof.v
theories/FindProps.v
theories/FindSpec.v
theories/FlagModel.v
theories/FlagProps.v
theories/FormModel.v
theories/FormProps.v
theories/FormSpec.v
theories/FrameModel.v
theories/FrameProps.v
theories/FuncModel.v
theories/FuncProof.v
theories/FuncProps.v
theories/FuncSpec.v
theories/GelfModel.v
theories/GelfProof.v
theories/GelfProps.v
theories/GelfSpec.v
theories/HashModel.v
theories/HashProof.v
theories/HashProps.v
theories/HashSpec.v
theories/HtabFsProof.v
theories/HtabModel.v
theories/HtabProof.v
theories/HtabProps.v
theories/HtabSpec.v
theories/IdModel.v
theories/IdProof.v
theories/IdProps.v
theories/IdSpec.v
theories/LayModel.v
theories/LayProof.v
theories/LayProps.v
theories/LaySpec.v
theories/LazyModel.v
theories/LazyProof.v
theories/LazyProps.v
theories/LazySpec.v
theories/LebModel.v
theories/LebProof.v
theories/LebProps.v
theories/LebSpec.v
theories/Line5Proof.v
theories/Line5Spec.v
theories/LineModel.v
theories/LineProof.v
theories/LineProps.v
theories/LineSafe.v
theories/LineSpec.v
theories/ListModel.v
theories/ListProps.v
theories/LocModel.v
theories/LocProps.v
theories/LocSpec.v
theories/Mac2Proof.v
theories/Mac3Proof.v
theories/MacModel.v
theories/MacProof.v
theories/MacProps.v
theories/MacSpec.v
theories/NcfiModel.v
theories/NcfiProof.v
theories/NcfiProps.v
theories/NcfiSafe.v
theories/NcfiSpec.v
theories/NlModel.v
theories/NlProof.v
theories/NlProps.v
theories/NlSpec.v
theories/NoteModel.v
theories/NoteProps.v
theories/OffModel.v
theories/OffProof.v
theories/OffProps.v
theories/OffSpec.v
theories/OpenModel.v
theories/OpenProof.v
theories/OpenProps.v
theories/OsModel.v
theories/OsProps.v
theories/PhdrModel.v
theories/PhdrProof.v
theories/PhdrProps.v
theories/PhdrSpec.v
theories/PidModel.v
theories/PidProof.v
theories/PidProps.v
theories/PidSpec.v
theories/PrimeModel.v
theories/PrimeProof.v
theories/PrimeProps.v
theories/ProcModel.v
theories/ProcProof.v
theories/ProcProps.v
theories/ProcSpec.v
theories/Pub2Proof.v
theories/PubModel.v
theories/PubProof.v
theories/PubProps.v
theories/PubSpec.v
theories/RanModel.v
theories/RanProof.v
theories/RanProps.v
theories/RanSpec.v
theories/ReadProps.v
theories/RefModel.v
theories/RefProps.v
theories/RelocModel.v
theories/RelocProof.v
theories/RelocProps.v
theories/RelocSpec.v
theories/RemModel.v
theories/RemProof.v
theories/RemProps.v
theories/RemSpec.v
theories/ReportModel.v
theories/ReportProof.v
theories/ReportProps.v
theories/ReportSpec.v
theories/RngModel.v
theories/RngProof.v
theories/RngProps.v
theories/RngSpec.v
theories/RsymModel.v
theories/RsymProps.v
theories/ScnModel.v
theories/ScnProof.v
theories/ScnProps.v
theories/Scope2Proof.v
theories/Scope3Proof.v
theories/ScopeModel.v
theories/ScopeProof.v
theories/ScopeProps.v
theories/ScopeSpec.v
theories/SegModel.v
theories/SegProof.v
theories/SegProps.v
theories/SizeModel.v
theories/SizeProof.v
theories/SizeProps.v
theories/SizeSpec.v
theories/Slice.v
theories/SrcModel.v
theories/SrcProof.v
theories/SrcProps.v
theories/SrcSpec.v
theories/StringsModel.v
theories/StringsProof.v
theories/StringsProps.v
theories/StringsSpec.v
theories/StrtabModel.v
theories/StrtabProof.v
theories/StrtabProps.v
theories/StrtabSpec.v
theories/SymModel.v
theories/SymProof.v
theories/SymProps.v
theories/SymSpec.v
theories/SzModel.v
theories/SzProps.v
theories/ThrModel.v
theories/ThrProof.v
theories/ThrProps.v
theories/ThrSpec.v
theories/UnitModel.v
theories/UnitProps.v
theories/Unwind2Proof.v
theories/Unwind3Proof.v
theories/UnwindModel.v
theories/UnwindProof.v
theories/UnwindProps.v
theories/UnwindSpec.v
theories/Walk2Proof.v
theories/WalkModel.v
theories/WalkProof.v
theories/WalkProps.v
theories/WalkSpec.v
theories/Wr2Proof.v
theories/Wr3Proof.v
theories/WrModel.v
theories/WrProof.v
theories/WrProps.v
theories/WrSpec.v
theories/XlateApiProof.v
theories/XlateGhProof.v
theories/XlateModel.v
theories/XlateNoteProof.v
theories/XlateProof.v
theories/XlateProps.v
theories/XlateSpec.v
theories/XlateVerProof.v
theories/ZipModel.v
theories/ZipProof.v
theories/ZipProps.v
theories/ZipSpec.v
