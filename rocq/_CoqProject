-Q theories Verif
theories/Ints.v
theories/IntsLemmas.v
theories/BitFields.v
theories/Res.v
theories/ArmModel.v
theories/ArmSpec.v
theories/ArmIface.v
theories/ArmImmProofs.v
theories/ArmProofs.v
theories/ArmBranchProofs.v
theories/ArmShiftProofs.v
theories/ArmCopProofs.v
theories/ArmProps.v
theories/ExprModel.v
theories/ExprFuncModel.v
theories/ExprSpec.v
theories/ExprProofs.v
theories/ExprCmpProofs.v
theories/ExprFoldProofs.v
theories/ExprProps.v
theories/ParseModel.v
theories/ParseSpec.v
theories/ParseProofs.v
theories/LexModel.v
theories/LexSpec.v
theories/LexProofs.v
theories/TextSpec.v
theories/TextProofs.v
theories/ParseProps.v
theories/SymModel.v
theories/SymSpec.v
theories/SymIface.v
theories/SymProofs.v
theories/SymNameProofs.v
theories/SymProps.v
theories/ExpandModel.v
theories/ExpandSpec.v
theories/ExpandProofs.v
theories/ExpandIface.v
theories/ExpandHistProofs.v
theories/ExpandProps.v
theories/CrcModel.v
theories/CrcSpec.v
theories/CrcProofs.v
theories/CrcProps.v
theories/BytesModel.v
theories/BytesSpec.v
theories/BytesIface.v
theories/BytesProofs.v
theories/BytesProps.v
theories/ReaderModel.v
theories/ReaderSpec.v
theories/ReaderProofs.v
theories/ReaderTokenProofs.v
theories/ReaderProps.v
theories/TableModel.v
theories/TableSpec.v
theories/TableIface.v
theories/TableProofs.v
theories/TableProps.v
theories/LogModel.v
theories/LogSpec.v
theories/LogProofs.v
theories/LogProps.v
theories/SymfileModel.v
theories/SymfileSpec.v
theories/SymfileProofs.v
theories/SymfileProps.v
theories/FileModel.v
theories/FileSpec.v
theories/FileProofs.v
theories/FileProps.v
theories/AllocModel.v
theories/AllocSpec.v
theories/AllocProofs.v
theories/AllocProps.v
theories/FloatModel.v
theories/FloatSpec.v
theories/FloatProofs.v
theories/DataModel.v
theories/DataSpec.v
theories/DataProofs.v
theories/DataProps.v
theories/ThumbModel.v
theories/ThumbSpec.v
theories/ThumbProofs.v
theories/ThumbBranchProofs.v
theories/ThumbProps.v
theories/TokModel.v
theories/TokSpec.v
theories/TokProofs.v
theories/TokProps.v
theories/MipsTable.v
theories/MipsModel.v
theories/MipsSpec.v
theories/MipsProofs.v
theories/MipsWordProofs.v
theories/MipsCpu.v
theories/MipsDecodeProofs.v
theories/MipsProps.v
theories/MipsMacroModel.v
theories/MipsExecProofs.v
theories/MipsMacroSpec.v
theories/MipsMacroProofs.v
theories/MipsAccessProofs.v
theories/MipsUnalignedProofs.v
theories/MipsCompareProofs.v
theories/MipsRotateProofs.v
theories/MipsHiLoProofs.v
theories/MipsMacroProps.v
theories/MipsDelayModel.v
theories/MipsDelaySpec.v
theories/MipsDelayProofs.v
theories/MipsDelayProps.v
theories/ShTable.v
theories/ShModel.v
theories/ShSpec.v
theories/ShProofs.v
theories/ShWords.v
theories/ShUsualProofs.v
theories/ShMeaningProofs.v
theories/ShProps.v
theories/ElfModel.v
theories/ElfSpec.v
theories/ElfProofs.v
theories/ElfRelocProofs.v
theories/ElfWordProofs.v
theories/ElfArmProofs.v
theories/ElfTotalProofs.v
theories/ElfCases.v
theories/ElfProps.v
theories/AsmModel.v
theories/AsmSpec.v
theories/AsmProofs.v
theories/AsmSimProofs.v
theories/AsmRunProofs.v
theories/AsmTotalProofs.v
theories/AsmCmdProofs.v
theories/AsmCases.v
theories/AsmProps.v
theories/AsmObjModel.v
theories/AsmObjProofs.v
theories/AsmObjCases.v
theories/AsmObjProps.v
theories/CondModel.v
theories/CondSpec.v
theories/CondProofs.v
theories/CondProps.v
theories/ArmLineModel.v
theories/ArmWordSpec.v
theories/ArmRowProofs.v
theories/ArmWordIface.v
theories/ArmWordProofs.v
theories/ArmWordProofs2.v
theories/ArmWordProofs3.v
theories/ArmWordProofs4.v
theories/ArmWordProofs5.v
theories/ArmWordProofs6.v
theories/ArmLineSpec.v
theories/ArmNameProofs.v
theories/ArmOperandProofs.v
theories/ArmLayoutProofs.v
theories/ArmUsesProofs.v
theories/ArmLineProofs.v
theories/ArmRowLineProofs.v
theories/ArmTryProofs.v
theories/ArmLineCases.v
theories/ArmLineEnd.v
theories/ArmLineProps.v
theories/PsxModel.v
theories/PsxSpec.v
theories/PsxReadProofs.v
theories/PsxLinkSpec.v
theories/PsxLinkProofs.v
theories/PsxWordProofs.v
theories/PsxImportProofs.v
theories/PsxAcceptProofs.v
theories/PsxCases.v
theories/PsxProps.v
theories/ElfReadModel.v
theories/ElfReadSpec.v
theories/ElfReadProofs.v
theories/ArchiveProofs.v
theories/ElfReadCases.v
theories/ElfReadProps.v
theories/ElfSaveModel.v
theories/ElfSaveSpec.v
theories/ElfSaveProofs.v
theories/ElfSaveEnd.v
theories/ElfSaveLoad.v
theories/ElfSaveWrite.v
theories/ElfSaveMain.v
theories/ElfSaveCases.v
theories/ElfSaveProps.v
theories/CtorModel.v
theories/CtorSpec.v
theories/CtorProofs.v
theories/CtorRunProofs.v
theories/CtorShapeProofs.v
theories/CtorCallProofs.v
theories/CtorCases.v
theories/CtorProps.v
theories/CliModel.v
theories/CliSpec.v
theories/CliProofs.v
theories/CliStartProofs.v
theories/CliProps.v
theories/HalfModel.v
theories/HalfSpec.v
theories/HalfProofs.v
theories/HalfProps.v
theories/VfpuModel.v
theories/VfpuSpec.v
theories/VfpuProofs.v
theories/VfpuRotProofs.v
theories/VfpuProps.v
theories/UfuncModel.v
theories/UfuncSpec.v
theories/UfuncProofs.v
theories/UfuncProps.v
theories/MacroModel.v
theories/MacroSpec.v
theories/MacroProofs.v
theories/MacroLabelProofs.v
theories/MacroProps.v
theories/ThumbLineModel.v
theories/ThumbLineSpec.v
theories/ThumbLineProofs.v
theories/ThumbLineEnd.v
theories/ThumbLineCases.v
theories/ThumbLineProps.v
theories/DirModel.v
theories/DirSpec.v
theories/DirProofs.v
theories/DirProps.v
theories/TplModel.v
theories/TplSpec.v
theories/TplProofs.v
theories/TplProps.v
theories/ArchDirModel.v
theories/ArchDirSpec.v
theories/ArchDirProofs.v
theories/ArchDirProps.v
theories/ExpModel.v
theories/ExpSpec.v
theories/ExpProofs.v
theories/ExpProps.v
