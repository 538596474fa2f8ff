-Q theories Verif
theories/Base.v
theories/Utf8_model.v
theories/Utf8_spec.v
theories/Utf8_proofs.v
theories/Utf8_props.v
theories/CLib.v
theories/Buckets.v
theories/NHash_model.v
theories/NHash_spec.v
theories/NHash_proofs.v
theories/NHash_props.v
theories/Dec.v
theories/NList_model.v
theories/NList_spec.v
theories/NList_proofs.v
theories/NList_props.v
theories/NSbuf_model.v
theories/NSbuf_spec.v
theories/NSbuf_proofs.v
theories/NSbuf_props.v
theories/Alloc_model.v
theories/Alloc_spec.v
theories/Alloc_proofs.v
theories/Alloc_props.v
theories/Val.v
theories/Hash_model.v
theories/Hash_spec.v
theories/Hash_proofs.v
theories/Hash_props.v
theories/Sort_model.v
theories/Sort_spec.v
theories/Sort_proofs.v
theories/Sort_props.v
theories/Array_model.v
theories/Array_spec.v
theories/Array_proofs.v
theories/Array_props.v
theories/IntList_model.v
theories/IntList_spec.v
theories/IntList_proofs.v
theories/IntList_props.v
theories/StM.v
theories/List_model.v
theories/List_spec.v
theories/List_ring.v
theories/List_proofs.v
theories/List_props.v
theories/Mem_model.v
theories/Mem_proofs.v
theories/Mem_spec.v
theories/Mem_inv.v
theories/Mem_safe.v
theories/Mem_quiet.v
theories/Mem_top.v
theories/Mem_props.v
theories/VmArith_model.v
theories/VmArith_spec.v
theories/VmArith_proofs.v
theories/VmArith_props.v
theories/StrCmp_model.v
theories/StrCmp_spec.v
theories/StrCmp_props.v
theories/Switch_model.v
theories/Switch_proofs.v
theories/Switch_props.v
theories/Frame_model.v
theories/Frame_props.v
theories/Bytes.v
theories/CStrto.v
theories/Elem_model.v
theories/Elem_spec.v
theories/Elem_props.v
theories/VmConv_model.v
theories/VmConv_props.v
theories/Box_model.v
theories/Box_props.v
theories/Fields_model.v
theories/Fields_props.v
theories/Str_model.v
theories/Str_spec.v
theories/Str_props.v
theories/Code_model.v
theories/Code_spec.v
theories/Code_gen.v
theories/Code_sim.v
theories/Code_run.v
theories/Code_props.v
theories/Type_model.v
theories/Type_spec.v
theories/Type_proofs.v
theories/TypeIface_proofs.v
theories/Type_props.v
theories/TypeCache_model.v
theories/TypeCache_spec.v
theories/TypeCache_proofs.v
theories/TypeCache_props.v
theories/Dispatch_model.v
theories/Dispatch_spec.v
theories/Dispatch_proofs.v
theories/DispatchArgs_proofs.v
theories/Dispatch_props.v
theories/Cast_model.v
theories/Cast_spec.v
theories/CastSelect_proofs.v
theories/Cast_proofs.v
theories/CastRun_proofs.v
theories/CastAccept_proofs.v
theories/Cast_props.v
theories/FnMem_model.v
theories/FnMem_spec.v
theories/FnMem_proofs.v
theories/FnRev_proofs.v
theories/FnMem_props.v
theories/FnStr_model.v
theories/FnStr_spec.v
theories/FnStr_proofs.v
theories/FnStr_props.v
theories/StrBuf_model.v
theories/StrBuf_spec.v
theories/StrBuf_proofs.v
theories/StrBuf_props.v
theories/FnSplit_model.v
theories/FnSplit_spec.v
theories/FnSplit_proofs.v
theories/FnSplit_props.v
theories/FnNum_model.v
theories/FnNum_spec.v
theories/FnNum_proofs.v
theories/FnNum_props.v
theories/Float64.v
theories/FnRand_props.v
theories/FnUtf8_model.v
theories/FnUtf8_spec.v
theories/FnUtf8_proofs.v
theories/FnUtf8_props.v
theories/Format_model.v
theories/Format_spec.v
theories/Format_proofs.v
theories/FormatParse_proofs.v
theories/FormatMain_proofs.v
theories/FormatLoop_proofs.v
theories/Format_props.v
theories/Packer_model.v
theories/Packer_spec.v
theories/PackerParse_proofs.v
theories/Packer_proofs.v
theories/PackerHex_proofs.v
theories/PackerMain_proofs.v
theories/PackerUn_proofs.v
theories/Packer_props.v
theories/Toke_model.v
theories/Toke_spec.v
theories/TokeNum_proofs.v
theories/TokeStr_proofs.v
theories/TokeExp_proofs.v
theories/Toke_props.v
theories/Precomp_syntax.v
theories/Precomp_table.v
theories/Precomp_model.v
theories/Precomp_spec.v
theories/PrecompName_proofs.v
theories/PrecompLit_proofs.v
theories/PrecompLook_proofs.v
theories/PrecompTable_proofs.v
theories/PrecompSim_proofs.v
theories/Precomp_props.v
theories/Access_model.v
theories/Access_spec.v
theories/Access_proofs.v
theories/Access_props.v
theories/Init_model.v
theories/Init_spec.v
theories/Init_proofs.v
theories/Init_props.v
theories/Dump_model.v
theories/Dump_spec.v
theories/Dump_proofs.v
theories/Dump_props.v
theories/Expr_model.v
theories/Expr_spec.v
theories/Expr_proofs.v
theories/Expr_props.v
theories/FnHof_model.v
theories/FnHof_spec.v
theories/FnHof_proofs.v
theories/FnCopy_proofs.v
theories/PackerUnhex_props.v
theories/Prog_model.v
theories/Prog_spec.v
theories/Prog_proofs.v
theories/ProgSim_proofs.v
theories/ProgMain_proofs.v
theories/Prog_props.v
theories/Lex_model.v
theories/Lex_spec.v
theories/Lex_proofs.v
theories/LexTurn_proofs.v
theories/LexMain_proofs.v
theories/LexReads_proofs.v
theories/FnHof_props.v
theories/Lex_props.v
theories/Load_model.v
theories/Load_spec.v
theories/LoadText_proofs.v
theories/Load_proofs.v
theories/Load_props.v
theories/Names_model.v
theories/Names_spec.v
theories/Names_proofs.v
theories/NamesSim_proofs.v
theories/NamesStmt_proofs.v
theories/NamesRef_proofs.v
theories/NamesMain_proofs.v
theories/NamesHid_proofs.v
theories/Names_props.v
theories/YaccTables_model.v
theories/Yacc_model.v
theories/Yacc_spec.v
theories/YaccCert_proofs.v
theories/YaccCheck_proofs.v
theories/Yacc_proofs.v
theories/Yacc_props.v
theories/Exc_model.v
theories/Exc_spec.v
theories/Exc_proofs.v
theories/Exc_props.v
theories/Decl_model.v
theories/Decl_spec.v
theories/Decl_props.v
theories/Shuffle_model.v
theories/Shuffle_props.v
theories/FnFloat_model.v
theories/FnFloat_spec.v
theories/FnFloat_props.v
theories/Anon_model.v
theories/Anon_spec.v
theories/Anon_proofs.v
theories/Anon_props.v
theories/Special_model.v
theories/Special_spec.v
theories/Special_props.v
theories/Immutable_model.v
theories/Immutable_spec.v
theories/Immutable_proofs.v
theories/Immutable_props.v
theories/Equal_model.v
theories/Equal_spec.v
theories/Equal_proofs.v
theories/Equal_props.v
theories/EqualCopy_model.v
theories/EqualCopy_props.v
theories/Threads_model.v
theories/Threads_spec.v
theories/Threads_proofs.v
theories/Threads_props.v
