-Q theories Verif
theories/Base.v
theories/Par.v
theories/ParLib.v
theories/SortSpec.v
theories/Sort.v
theories/SortProof.v
theories/Words.v
theories/WordsProof.v
theories/Spec.v
theories/Performs.v
theories/Utils.v
theories/Count.v
theories/UtilsProof.v
theories/Kernels.v
theories/KernelsProof.v
theories/Csr.v
theories/CsrProof.v
theories/Simple.v
theories/SimpleProof.v
theories/DenseProof.v
theories/Gsb.v
theories/GsbProof.v
theories/Groups.v
theories/Csbr.v
theories/BlocksProof.v
theories/CsbrProof.v
theories/Csbr2Proof.v
theories/Csbr3Proof.v
theories/Csbr3Chunk.v
theories/Cgbr.v
theories/CgbrProof.v
theories/Cgbr2Proof.v
theories/Cgbr3Proof.v
theories/Bcsr.v
theories/ParCells.v
theories/Permute.v
theories/PermuteProof.v
theories/Expand.v
theories/Io.v
theories/IoProof.v
theories/Properties_Utils.v
theories/Properties_Simple.v
theories/Properties_Blocked.v
theories/Properties_Reuse.v
theories/Properties_Cgbr.v
theories/Properties_Bcsr.v
theories/Properties_Permute.v
theories/Properties_Expand.v
theories/Properties_Io.v
theories/BlockIo.v
theories/BlockIoProof.v
theories/BlockIo2Proof.v
theories/Properties_BlockIo.v
theories/Text.v
theories/Mm.v
theories/TextProof.v
theories/MmProof.v
theories/Mm2Proof.v
theories/Properties_Mm.v
theories/Properties_Mm2.v
theories/Tools.v
theories/ToolsProof.v
theories/Properties_Tools.v
theories/Properties_Tools2.v
theories/Properties_Tools3.v
theories/Properties_Tools4.v
theories/Ledger.v
theories/LedgerProof.v
theories/Properties_Ledger.v
theories/Properties_Structure.v
theories/Properties_Bcsr2.v
theories/Properties_Compressed.v
theories/DupProof.v
theories/Choice.v
theories/ChoiceProof.v
theories/ParSeq.v
theories/Drivers.v
theories/DriversProof.v
theories/Properties_Drivers.v
theories/Properties_Choice.v
theories/Rounding.v
theories/RoundingProof.v
theories/Ieee.v
theories/Properties_Rounding.v
theories/Properties_Ieee.v
theories/WideProof.v
theories/Properties_Wide.v
theories/RangeProof.v
theories/Properties_Range.v
theories/Pprint.v
theories/PprintProof.v
theories/Properties_Pprint.v
theories/ConcProof.v
theories/Properties_Conc.v
theories/Result.v
theories/ResultProof.v
theories/Properties_Result.v
theories/OutsideProof.v
theories/Properties_Outside.v
theories/BlockTest.v
theories/Properties_BlockTest.v
theories/NumberProof.v
theories/Properties_Number.v
theories/RefuseProof.v
theories/Properties_Refuse.v
theories/BlockCoo2.v
theories/Properties_BlockCoo2.v
theories/Show.v
theories/Properties_Show.v
theories/Mm3Proof.v
theories/Properties_Mm3.v
theories/Properties_Csrfile.v
theories/Assumptions.v
