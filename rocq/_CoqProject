-Q theories Verif
theories/Base.v
theories/CSyntax.v
theories/Dbl.v
theories/CSem.v
theories/CRun.v
theories/Types.v
theories/Formatter.v
theories/SigPrinter.v
theories/Writer.v
theories/Settings.v
theories/StaticText.v
theories/MainGen.v
theories/UtilGen.v
theories/LineParser.v
theories/Scanner.v
theories/Options.v
theories/FsModel.v
theories/App.v
theories/Golden.v
theories/CodecSpec.v
theories/LexLemmas.v
theories/Chunks.v
theories/BitLemmas.v
theories/CSemLemmas.v
theories/UnpackProof.v
theories/PPProof.v
theories/MsgSpec.v
theories/BodyLemmas.v
theories/UnpackBody.v
theories/UnpackFun.v
theories/PackProof.v
theories/PackBody.v
theories/PackFun.v
theories/SourceFun.v
theories/DriverSpec.v
theories/DriverProof.v
theories/PackRun.v
theories/HeaderSpec.v
theories/HeaderProof.v
theories/HeaderRun.v
theories/CodecEnv.v
theories/CodecThms.v
theories/CodecFacts.v
theories/Concrete.v
theories/Samples.v
theories/Props_codec.v
theories/CliSpec.v
theories/CliProof.v
theories/Props_cli.v
theories/HeaderTables.v
theories/HeaderCycle.v
theories/ScanSpec.v
theories/ScanLemmas.v
theories/ScanLines.v
theories/ScanPass1.v
theories/ScanPass2.v
theories/ScanFile.v
theories/ScanThms.v
theories/ScanMarks.v
theories/Props_scan.v
theories/MonSpec.v
theories/MonThms.v
theories/MonSamples.v
theories/Props_monitor.v
theories/LayoutSpec.v
theories/BadLayout.v
theories/Props_layout.v
theories/ConvSpec.v
theories/SigTypes.v
theories/DblPrint.v
theories/ConvEnv.v
theories/ConvMacros.v
theories/ConvThms.v
theories/Props_conv.v
theories/StructSpec.v
theories/StructProof.v
theories/SwitchNames.v
theories/SpliceProof.v
theories/HeadTotal.v
theories/StructThms.v
theories/GenTotal.v
theories/Props_struct.v
theories/UtilSpec.v
theories/UtilTree.v
theories/UtilProof.v
theories/UtilThms.v
theories/Props_util.v
theories/FsSpec.v
theories/FsNames.v
theories/FsProof.v
theories/FsThms.v
theories/Props_fs.v
theories/GuardSpec.v
theories/GuardProof.v
theories/GuardUtil.v
theories/Props_guard.v
theories/LineSpec.v
theories/LineThms.v
theories/LineDefs.v
theories/Props_line.v
theories/SigSpec.v
theories/SigLine.v
theories/SigFile.v
theories/Props_sigline.v
theories/NamesSpec.v
theories/HeaderNames.v
theories/NamesThms.v
theories/HeaderFirst.v
theories/HeaderVer.v
theories/OutlineSpec.v
theories/HeaderToks.v
theories/OutlineThms.v
theories/Props_outline.v
theories/Props_names.v
theories/DblSize.v
theories/DeclSpec.v
theories/DeclThms.v
theories/DeclTotal.v
theories/DblRound.v
theories/PhysSpec.v
theories/PhysType.v
theories/PhysBound.v
theories/PhysThms.v
theories/PhysDecl.v
theories/Props_decl.v
theories/Props_frameid.v
theories/Props_phys.v
theories/RecvSpec.v
theories/RecvDecl.v
theories/Props_recv.v
theories/RunSpec.v
theories/RunThms.v
theories/Props_run.v
theories/FilesSpec.v
theories/FilesProof.v
theories/FilesThms.v
theories/ConfigProof.v
theories/Props_files.v
theories/CmpSpec.v
theories/CmpProof.v
theories/Props_cmp.v
theories/IdentProof.v
theories/Props_ident.v
theories/CmpPhys.v
theories/Props_cmpphys.v
theories/RecvCmp.v
theories/Props_recvcmp.v
