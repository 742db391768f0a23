-Q theories Verif
theories/TMModel.v
theories/TMBase.v
theories/TMSpec.v
theories/TMSafe.v
theories/TMSafe2.v
theories/TMStatic.v
theories/TMStatic2.v
theories/TMStatic3.v
theories/TMFinal.v
theories/TMCycle.v
theories/TMEnd.v
theories/TMProps.v
theories/TMSide.v
theories/TMTerm.v
theories/TMProps2.v
theories/JobModel.v
theories/JobSpec.v
theories/JobProofs.v
theories/JobProps.v
theories/DecModel.v
theories/DecSpec.v
theories/DecProofs.v
theories/DecProps.v
theories/IncrModel.v
theories/IncrSpec.v
theories/IncrProofs.v
theories/IncrProps.v
theories/DbModel.v
theories/DbSpec.v
theories/DbProofs.v
theories/DbProps.v
theories/CacheModel.v
theories/CacheProps.v
theories/SubstModel.v
theories/SubstProofs.v
theories/SubstProps.v
theories/SubstTerm.v
theories/SubstLines.v
theories/EnvModel.v
theories/EnvProps.v
theories/PathsModel.v
theories/PathsProps.v
theories/FsModel.v
theories/FsProps.v
theories/StatusModel.v
theories/StatusProps.v
theories/ExitModel.v
theories/ExitProps.v
theories/LockModel.v
theories/LockProps.v
theories/PathListModel.v
theories/PathListProps.v
theories/ScanModel.v
theories/ScanProps.v
theories/CppModel.v
theories/CppSpec.v
theories/CppProps.v
theories/CondModel.v
theories/CondProps.v
theories/RepoModel.v
theories/RepoProps.v
theories/TMSide2.v
theories/TMLast.v
theories/TMProps3.v
theories/DecProps2.v
theories/ActionModel.v
theories/ActionSpec.v
theories/ActionProps.v
theories/ExecProps.v
theories/CleanModel.v
theories/CleanProps.v
theories/QuoteModel.v
theories/QuoteSpec.v
theories/QuoteProps.v
theories/CloneModel.v
theories/CloneProps.v
theories/JobInt.v
theories/LegacyModel.v
theories/LegacySpec.v
theories/LegacyProps.v
theories/TMMeasure.v
theories/JobTerm.v
theories/JobOut.v
theories/VarModel.v
theories/VarSpec.v
theories/VarProps.v
theories/VarProps2.v
theories/BldModel.v
theories/BldProps.v
theories/BldProps2.v
theories/BldProps3.v
theories/NameModel.v
theories/NameProps.v
theories/NameProps2.v
theories/NameProps3.v
theories/SrcModel.v
theories/SrcProps.v
theories/SrcProps2.v
theories/SrcProps3.v
theories/VdirModel.v
theories/VdirProps.v
theories/VdirProps2.v
theories/VdirProps3.v
theories/FlagModel.v
theories/FlagSpec.v
theories/FlagProps.v
theories/FlagProps2.v
theories/FlagProps3.v
theories/FlagProps4.v
theories/FlagCases.v
theories/DefnProps.v
theories/DefnProps2.v
theories/DefnProps3.v
theories/SconModel.v
theories/SconSpec.v
theories/SconProps.v
theories/SconProps2.v
theories/SconProps3.v
theories/SconProps4.v
theories/OptModel.v
theories/OptSpec.v
theories/OptProps.v
theories/OptProps2.v
theories/OptProps3.v
theories/OptProps4.v
theories/OptProps5.v
theories/OptProps6.v
theories/OptProps7.v
theories/TgtModel.v
theories/TgtSpec.v
theories/TgtProps.v
theories/TgtProps2.v
theories/TgtProps3.v
theories/TgtProps4.v
theories/GlobModel.v
theories/GlobSpec.v
theories/GlobProps.v
theories/GlobProps2.v
theories/GlobProps3.v
theories/GlobProps4.v
theories/GlobProps5.v
theories/CfgModel.v
theories/CfgSpec.v
theories/CfgProps.v
theories/CfgProps2.v
theories/CfgProps3.v
theories/OptProps8.v
theories/IntModel.v
theories/IntSpec.v
theories/IntProps.v
theories/IntProps2.v
theories/IntProps3.v
theories/IntProps4.v
theories/IntProps5.v
theories/IntProps6.v
theories/NxModel.v
theories/NxSpec.v
theories/NxProps.v
theories/NxProps2.v
theories/NxProps3.v
theories/OptProps9.v
theories/ImcModel.v
theories/ImcSpec.v
theories/ImcProps.v
theories/ImcProps2.v
theories/ImcProps3.v
theories/ImcProps4.v
theories/ImcProps5.v
theories/CscModel.v
theories/CscSpec.v
theories/CscProps.v
theories/CscProps2.v
theories/CscProps3.v
theories/LibModel.v
theories/LibSpec.v
theories/LibProps.v
theories/LibProps2.v
theories/LibProps3.v
theories/LibProps4.v
theories/WhyModel.v
theories/WhySpec.v
theories/WhyProps.v
theories/WhyProps2.v
theories/CopModel.v
theories/CopSpec.v
theories/CopProps.v
theories/CopProps2.v
theories/CopProps3.v
theories/CopProps4.v
theories/CopProps5.v
theories/CopProps6.v
theories/ChmModel.v
theories/ChmSpec.v
theories/ChmProps.v
theories/ChmProps2.v
theories/InsModel.v
theories/InsSpec.v
theories/InsProps.v
theories/InsProps2.v
theories/InsProps3.v
theories/InsProps4.v
theories/InsProps5.v
theories/InsProps6.v
theories/InsProps7.v
theories/InsProps8.v
theories/TxtModel.v
theories/TxtSpec.v
theories/TxtProps.v
theories/TxtProps2.v
theories/TxtProps3.v
theories/PrepModel.v
theories/PrepSpec.v
theories/PrepProps.v
theories/PrepProps2.v
theories/PrepProps3.v
theories/PdModel.v
theories/PdSpec.v
theories/PdProps.v
theories/PdProps2.v
theories/TmpModel.v
theories/TmpSpec.v
theories/TmpProps.v
theories/TmpProps2.v
theories/WhModel.v
theories/WhSpec.v
theories/WhProps.v
theories/WhProps2.v
theories/FtnModel.v
theories/FtnSpec.v
theories/FtnProps.v
theories/FtnProps2.v
theories/FtnProps3.v
theories/FtnProps4.v
theories/FtnProps5.v
theories/FtnProps6.v
theories/DrsModel.v
theories/DrsSpec.v
theories/DrsProps.v
theories/DrsProps2.v
theories/VslModel.v
theories/VslSpec.v
theories/VslProps.v
theories/VslProps2.v
theories/VslProps3.v
theories/AliModel.v
theories/AliSpec.v
theories/AliProps.v
theories/AliProps2.v
theories/ValModel.v
theories/ValSpec.v
theories/ValProps.v
theories/ValProps2.v
theories/TreModel.v
theories/TreSpec.v
theories/TreProps.v
theories/TreProps2.v
theories/TreProps3.v
theories/TreProps4.v
theories/WrnModel.v
theories/WrnSpec.v
theories/WrnProps.v
theories/WrnProps2.v
theories/WrnProps3.v
theories/AttModel.v
theories/AttSpec.v
theories/AttProps.v
theories/AttProps2.v
theories/AttProps3.v
theories/FnsModel.v
theories/FnsSpec.v
theories/FnsProps.v
theories/FnsProps2.v
theories/PrgModel.v
theories/PrgSpec.v
theories/PrgProps.v
theories/PrgProps2.v
theories/DstModel.v
theories/DstSpec.v
theories/DstProps.v
theories/DstProps2.v
theories/PkvModel.v
theories/PkvSpec.v
theories/PkvProps.v
theories/PkvProps2.v
theories/SplModel.v
theories/SplSpec.v
theories/SplProps.v
theories/SplProps2.v
