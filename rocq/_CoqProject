-Q theories Verif

theories/Base.v
theories/Split_Model.v
theories/Split_Spec.v
theories/Split_Proofs.v
theories/Split_Proofs2.v
theories/Split_Proofs3.v
theories/Split_Props.v
theories/Edit_Model.v
theories/Edit_Spec.v
theories/Edit_Proofs.v
theories/Edit_Proofs2.v
theories/Edit_Props.v
theories/Codec_Tables.v
theories/Codec_Model.v
theories/Codec_Spec.v
theories/Codec_Proofs.v
theories/Codec_Proofs2.v
theories/Codec_Props.v
theories/Match_Model.v
theories/Match_Spec.v
theories/Match_Proofs.v
theories/Match_Props.v
theories/Bits_Model.v
theories/Bits_Spec.v
theories/Bits_Proofs.v
theories/Bits_Props.v
theories/Binary_Model.v
theories/Binary_Spec.v
theories/Endian_Proofs.v
theories/Binary_Proofs.v
theories/Binary_Proofs2.v
theories/Binary_Proofs3.v
theories/Binary_Props.v
theories/Num_Tables.v
theories/Num_Model.v
theories/Num_Spec.v
theories/Num_Proofs.v
theories/Num_Proofs2.v
theories/Num_Proofs3.v
theories/Num_Props.v
theories/Bloom_Model.v
theories/Bloom_Spec.v
theories/Bloom_Proofs.v
theories/Bloom_Props.v
theories/Trie_Model.v
theories/Trie_Spec.v
theories/Trie_Proofs.v
theories/Trie_Props.v
theories/Hash_Model.v
theories/Hash_Spec.v
theories/Hash_Proofs.v
theories/Hash_Props.v
theories/Comb_Spec.v
theories/Comb_Model.v
theories/Comb_Proofs.v
theories/Comb_Proofs2.v
theories/Comb_Proofs3.v
theories/Comb_Proofs4.v
theories/Comb_Proofs5.v
theories/Comb_Proofs6.v
theories/Comb_Props.v
theories/Parse_Spec.v
theories/Parse_Model.v
theories/Parse_Proofs.v
theories/Parse_Proofs2.v
theories/Parse_Proofs3.v
theories/Parse_Props.v
theories/KV_Spec.v
theories/KV_Model.v
theories/KV_Proofs.v
theories/KV_Proofs2.v
theories/KV_Props.v
theories/IO_Spec.v
theories/IO_Model.v
theories/IO_Proofs.v
theories/IO_Props.v
theories/Grid_Spec.v
theories/Grid_Model.v
theories/Grid_Rep.v
theories/Grid_Proofs.v
theories/Grid_Proofs2.v
theories/Grid_Proofs3.v
theories/Grid_Proofs4.v
theories/Grid_Proofs5.v
theories/Grid_Props.v
theories/Text_Model.v
theories/Text_Spec.v
theories/Text_Proofs.v
theories/Text_Props.v
theories/Scan_Model.v
theories/Scan_Spec.v
theories/Scan_Proofs.v
theories/Scan_Props.v
theories/Binary_Proofs4.v
theories/Binary_Props2.v
theories/Sink_Model.v
theories/Sink_Spec.v
theories/Sink_Proofs.v
theories/Sink_Props.v
theories/Real_Model.v
theories/Real_Spec.v
theories/Real_Proofs.v
theories/Real_Proofs2.v
theories/Real_Proofs3.v
theories/Real_Float.v
theories/Real_Proofs4.v
theories/Real_Props.v
theories/Enum_Model.v
theories/Enum_Spec.v
theories/Enum_Proofs.v
theories/Enum_Proofs2.v
theories/Enum_Proofs3.v
theories/Enum_Props.v
theories/Cont_Model.v
theories/Cont_Spec.v
theories/Cont_Proofs.v
theories/Cont_Props.v
theories/Bloom_Props2.v
theories/Filter_Model.v
theories/Filter_Spec.v
theories/Filter_Proofs.v
theories/Filter_Props.v
theories/Pod_Model.v
theories/Pod_Spec.v
theories/Pod_Proofs.v
theories/Pod_Props.v
theories/Attr_Model.v
theories/Attr_Spec.v
theories/Attr_Proofs.v
theories/Attr_Props.v
theories/BFile_Model.v
theories/BFile_Spec.v
theories/BFile_Proofs.v
theories/BFile_Proofs2.v
theories/BFile_Props.v
theories/Mem_Model.v
theories/Mem_Spec.v
theories/Mem_Proofs.v
theories/Mem_Props.v
theories/Gen_Model.v
theories/Gen_Spec.v
theories/Gen_Proofs.v
theories/Gen_Props.v
theories/Ext_Model.v
theories/Ext_Spec.v
theories/Ext_Proofs.v
theories/Ext_Props.v
theories/Life_Model.v
theories/Life_Spec.v
theories/Life_Proofs.v
theories/Life_Props.v
theories/Tkz_Model.v
theories/Tkz_Spec.v
theories/Tkz_Proofs.v
theories/Tkz_Props.v
theories/Stl_Model.v
theories/Stl_Spec.v
theories/Stl_Proofs.v
theories/Stl_Props.v
theories/Delim_Model.v
theories/Delim_Spec.v
theories/Delim_Proofs.v
theories/Delim_Props.v
theories/Regex_Model.v
theories/Regex_Spec.v
theories/Regex_Proofs.v
theories/Regex_Props.v
theories/GridJoin_Model.v
theories/GridJoin_Spec.v
theories/GridJoin_Proofs.v
theories/GridJoin_Props.v
theories/Csel_Model.v
theories/Csel_Spec.v
theories/Csel_Proofs.v
theories/Csel_Props.v
theories/Ipv4_Model.v
theories/Ipv4_Spec.v
theories/Ipv4_Proofs.v
theories/Ipv4_Props.v
theories/Hexview_Model.v
theories/Hexview_Spec.v
theories/Hexview_Proofs.v
theories/Hexview_Props.v
theories/Wordfreq_Model.v
theories/Wordfreq_Spec.v
theories/Wordfreq_Proofs.v
theories/Wordfreq_Props.v
theories/Rline_Model.v
theories/Rline_Spec.v
theories/Rline_Proofs.v
theories/Rline_Props.v
theories/Period_Model.v
theories/Period_Spec.v
theories/Period_Proofs.v
theories/Period_Props.v
theories/Glober_Model.v
theories/Glober_Spec.v
theories/Glober_Proofs.v
theories/Glober_Props.v
theories/Choose_Model.v
theories/Choose_Spec.v
theories/Choose_Props.v
theories/Numstats_Model.v
theories/Numstats_Spec.v
theories/Numstats_Proofs.v
theories/Numstats_Props.v
theories/Timer_Model.v
theories/Timer_Spec.v
theories/Timer_Proofs.v
theories/Timer_Props.v
theories/Tname_Model.v
theories/Tname_Spec.v
theories/Tname_Proofs.v
theories/Tname_Props.v
theories/Jump_Spec.v
theories/Jump_Proofs.v
theories/Jump_Props.v
theories/Parse_Spec2.v
theories/Binary_Spec2.v
theories/IO_Spec2.v
theories/KV_Spec2.v
theories/Num_Spec2.v
theories/Comb_Spec2.v
theories/Rline_Spec2.v
theories/Wordfreq_Spec2.v
theories/Text_Spec2.v
theories/Real_Spec2.v
theories/Real_Round.v
theories/Real_Proofs5.v
theories/Real_Proofs6.v
theories/Real_Props2.v
theories/Text_Props2.v
theories/Sink_Props2.v
theories/Real_Proofs7.v
theories/Real_Props3.v
theories/BFile_Props2.v
theories/Numstats_Spec2.v
theories/Numstats_Proofs2.v
theories/Numstats_Props2.v
theories/Timer_Props2.v
theories/Words_Model.v
theories/Words_Spec.v
theories/Words_Proofs.v
theories/Words_Props.v
theories/KV_Proofs3.v
theories/KV_Props2.v
theories/Rand_Model.v
theories/Rand_Spec.v
theories/Rand_Float.v
theories/Rand_Spec2.v
theories/Rand_Proofs.v
theories/Rand_Float2.v
theories/Rand_Proofs2.v
theories/Rand_Proofs3.v
theories/Rand_Proofs4.v
theories/Rand_Proofs5.v
theories/Rand_Props.v
theories/Bdemo_Model.v
theories/Bdemo_Spec.v
theories/Bdemo_Proofs.v
theories/Bdemo_Proofs2.v
theories/Bdemo_Props.v
theories/Selfchk_Model.v
theories/Selfchk_Spec.v
theories/Selfchk_Proofs.v
theories/Selfchk_Props.v
theories/Serial_Model.v
theories/Serial_Spec.v
theories/Serial_Proofs.v
theories/Serial_Props.v
theories/Table_Model.v
theories/Table_Spec.v
theories/Table_Proofs.v
theories/Table_Proofs2.v
theories/Table_Props.v
theories/Record_Model.v
theories/Record_Spec.v
theories/Record_Proofs.v
theories/Record_Props.v
theories/Serial_Props2.v
theories/Date_Model.v
theories/Date_Spec.v
theories/Date_Proofs.v
theories/Date_Props.v
theories/Cmbx_Model.v
theories/Cmbx_Spec.v
theories/Cmbx_Proofs.v
theories/Cmbx_Props.v
theories/Fields_Model.v
theories/Fields_Spec.v
theories/Fields_Proofs.v
theories/Fields_Props.v
theories/Nthx_Model.v
theories/Nthx_Spec.v
theories/Nthx_Proofs.v
theories/Nthx_Props.v
theories/Cells_Model.v
theories/Cells_Spec.v
theories/Cells_Proofs.v
theories/Cells_Proofs2.v
theories/Cells_Props.v
theories/Check_Model.v
theories/Check_Spec.v
theories/Check_Proofs.v
theories/Check_Proofs2.v
theories/Check_Props.v
theories/Tour_Model.v
theories/Tour_Spec.v
theories/Tour_Proofs.v
theories/Tour_Proofs2.v
theories/Tour_Props.v
theories/Walk_Model.v
theories/Walk_Spec.v
theories/Walk_Proofs.v
theories/Walk_Proofs2.v
theories/Walk_Props.v
theories/Sweep_Model.v
theories/Sweep_Spec.v
theories/Sweep_Proofs.v
theories/Sweep_Props.v
theories/Cells_Proofs3.v
theories/Clean_Model.v
theories/Clean_Proofs.v
theories/Clean_Props.v
theories/Multi_Model.v
theories/Multi_Spec.v
theories/Multi_Proofs.v
theories/Multi_Proofs2.v
theories/Multi_Props.v
theories/Multi_Model2.v
theories/Multi_Proofs3.v
theories/Multi_Props2.v
theories/Canon_Model.v
theories/Canon_Proofs.v
theories/Canon_Props.v
theories/Table_Spec2.v
theories/Table_Proofs3.v
theories/Table_Props2.v
theories/Rconf_Model.v
theories/Rconf_Proofs.v
theories/Rconf_Proofs2.v
theories/Rconf_Proofs3.v
theories/Rconf_Props.v
