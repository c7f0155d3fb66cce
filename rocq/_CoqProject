-Q theories Verif
theories/Prelude.v
theories/BitFacts.v
theories/SelectTable.v
theories/M_Word.v
theories/Spec.v
theories/P_Word.v
theories/M_Bits.v
theories/P_Bits.v
theories/P_Builder.v
theories/P_Cursor.v
theories/M_CompactVector.v
theories/P_CompactVector.v
theories/P_BitProg.v
theories/Props_Bits.v
theories/M_DArray.v
theories/P_DArray.v
theories/M_EF.v
theories/P_EF.v
theories/P_EF2.v
theories/Props_Seq.v
theories/M_HashVec.v
theories/P_HashVec.v
theories/P_HashVec2.v
theories/Props_Tables.v
theories/M_Mph.v
theories/P_Mph.v
theories/P_MphTables.v
theories/P_MphPast.v
theories/Props_Mph.v
theories/M_FastEF.v
theories/P_FastEF.v
theories/P_FastEF2.v
theories/P_FastEF3.v
theories/P_FastEF4.v
theories/P_FastEF5.v
theories/Props_FastEF.v
theories/M_Text.v
theories/P_Text.v
theories/P_Text2.v
theories/M_Header.v
theories/Props_Text.v
theories/M_SeqColl.v
theories/P_SeqColl.v
theories/Props_SeqColl.v
theories/M_Pool.v
theories/P_Pool.v
theories/Props_Pool.v
theories/M_Trie.v
theories/Spec_Trie.v
theories/P_Trie1.v
theories/P_Trie2.v
theories/P_Trie3.v
theories/P_Trie4.v
theories/P_Trie5.v
theories/P_Trie6.v
theories/P_Trie7.v
theories/P_TrieAny.v
theories/Props_Trie.v
theories/M_MphCount.v
theories/Props_MphCount.v
theories/M_Score.v
theories/Spec_Katz.v
theories/Spec_Supported.v
theories/P_Score1.v
theories/P_Score2.v
theories/P_Supported.v
theories/M_Quant.v
theories/P_Quant.v
theories/P_Score3.v
theories/M_MphProb.v
theories/Spec_Arpa.v
theories/P_Sentence.v
theories/P_Values.v
theories/P_MphProb.v
theories/Props_Score.v
theories/Props_MphProb.v
theories/Props_Supported.v
theories/P_Float.v
theories/P_Quant2.v
theories/Props_Quant.v
theories/M_Sort.v
theories/Spec_Sort.v
theories/P_Sort.v
theories/P_Sort2.v
theories/Props_Sort.v
theories/M_Codes.v
theories/Spec_Codes.v
theories/P_Codes.v
theories/Props_Codes.v
theories/M_Save.v
theories/Spec_Save.v
theories/P_Save.v
theories/P_Typed.v
theories/P_Typed2.v
theories/P_Typed3.v
theories/Props_Save.v
theories/M_TrieProb.v
theories/P_TrieProb1.v
theories/P_TrieProb2.v
theories/P_TrieProb3.v
theories/P_TrieProb4.v
theories/Props_TrieProb.v
theories/M_Save2.v
theories/Spec_Save2.v
theories/P_Save2.v
theories/Props_Save2.v
theories/M_Pef.v
theories/Spec_Pef.v
theories/P_Pef1.v
theories/P_Pef2.v
theories/P_Pef3.v
theories/P_Pef4.v
theories/P_Pef5.v
theories/Props_Pef.v
theories/M_ArpaFile.v
theories/Spec_ArpaFile.v
theories/P_ArpaFile.v
theories/Props_ArpaFile.v
theories/M_ScoreCorpus.v
theories/Spec_Corpus.v
theories/P_ScoreCorpus.v
theories/Props_ScoreCorpus.v
theories/P_Pef6.v
theories/M_TriePef.v
theories/P_TriePef1.v
theories/P_TriePef2.v
theories/P_TriePef3.v
theories/P_TriePef4.v
theories/Spec_TriePef.v
theories/P_TriePef5.v
theories/P_TriePef6.v
theories/Props_TriePef.v
theories/M_SortArpa.v
theories/Spec_SortArpa.v
theories/P_SortArpa.v
theories/Props_SortArpa.v
theories/M_SavePef.v
theories/Spec_SavePef.v
theories/P_SavePef1.v
theories/P_SavePef2.v
theories/P_SavePef3.v
theories/P_SavePef4.v
theories/P_SavePef5.v
theories/Props_SavePef.v
theories/M_GramFile.v
theories/Spec_GramFile.v
theories/P_GramFile.v
theories/Props_GramFile.v
theories/M_Programs.v
theories/Spec_Programs.v
theories/P_Programs.v
theories/Props_Programs.v
theories/P_TrieBridge.v
theories/M_TrieProbPef.v
theories/P_TrieProbBridge.v
theories/M_ProbPrograms.v
theories/Spec_ProbPrograms.v
theories/Props_ProbPrograms.v
theories/Props_ProbProgramsPef.v
theories/P_TrieProbPef1.v
theories/P_TrieProbPef2.v
theories/Spec_TrieProbPef.v
theories/P_TrieProbPef3.v
theories/P_TrieProbPef4.v
theories/P_TrieProbPef5.v
theories/Props_TrieProbPef.v
theories/M_Python.v
theories/Spec_Python.v
theories/P_Python.v
theories/Props_Python.v
theories/M_Stats.v
theories/Spec_Stats.v
theories/Spec_Report.v
theories/P_Stats1.v
theories/P_Stats2.v
theories/P_Stats3.v
theories/P_Stats4.v
theories/P_Stats5.v
theories/P_Stats6.v
theories/P_Stats7.v
theories/P_Stats8.v
theories/P_Stats9.v
theories/Props_Stats.v
theories/M_Perf.v
theories/Spec_Perf.v
theories/P_Perf.v
theories/Props_Perf.v
theories/M_CEF.v
theories/Spec_CEF.v
theories/P_CEF1.v
theories/P_CEF2.v
theories/P_CEF3.v
theories/Props_CEF.v
theories/M_Pipeline.v
theories/Spec_Pipeline.v
theories/P_Pipeline.v
theories/Props_Pipeline.v
theories/Spec_PipelineArpa.v
theories/P_PipelineArpa.v
theories/Props_PipelineArpa.v
theories/M_SelfTests.v
theories/P_SelfTests1.v
theories/P_SelfTests2.v
theories/P_SelfTests3.v
theories/Props_SelfTests.v
theories/M_StatsPef.v
theories/P_StatsPef1.v
theories/P_StatsPef2.v
theories/P_StatsPef3.v
theories/P_StatsPef4.v
theories/P_StatsPef5.v
theories/Spec_StatsProgram.v
theories/Props_StatsPef.v
theories/Props_PefScan.v
theories/Props_Sort2.v
theories/Props_Text2.v
theories/Spec_Agree.v
theories/Props_Agree.v
theories/Props_Edges.v
theories/Spec_Complete.v
theories/P_Complete.v
theories/Props_Complete.v
theories/P_Accept.v
theories/P_Accept2.v
theories/P_Accept3.v
theories/Props_Accepted.v
theories/P_AcceptProb.v
theories/Props_AcceptedProb.v
theories/Props_AcceptedProg.v
theories/Props_AcceptedProbProg.v
theories/Props_QuantBig.v
theories/P_Quant3.v
theories/Props_QuantBig2.v
theories/Props_AcceptedPef.v
