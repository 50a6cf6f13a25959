-Q theories Verif
theories/As/Asm_a64_proof.v
theories/As/Asm_arch_model.v
theories/As/Asm_arch_proof.v
theories/As/Asm_model.v
theories/As/Asm_proof.v
theories/As/Asm_props.v
theories/As/Asm_res_proof.v
theories/As/Asm_rv_main_proof.v
theories/As/Asm_rv_proof.v
theories/As/Asm_spec.v
theories/As/Expr_model.v
theories/As/Expr_proof.v
theories/As/Expr_props.v
theories/As/Expr_spec.v
theories/As/Refs_a64_proof.v
theories/As/Refs_link_proof.v
theories/As/Refs_model.v
theories/As/Refs_proof.v
theories/As/Refs_props.v
theories/As/Refs_rv_proof.v
theories/As/Refs_spec.v
theories/As/Refs_sym_proof.v
theories/As/Refs_x64_proof.v
theories/As/Rv_main_proof.v
theories/As/Rv_model.v
theories/As/Rv_proof.v
theories/As/Rv_props.v
theories/As/Rv_spec.v
theories/As/Rv_word_proof.v
theories/As/Strtab_model.v
theories/As/Strtab_proof.v
theories/As/Strtab_props.v
theories/As/Strtab_spec.v
theories/As/X64_len_proof.v
theories/As/X64_mem_proof.v
theories/As/X64_model.v
theories/As/X64_proof.v
theories/As/X64_props.v
theories/As/X64_reg_proof.v
theories/As/X64_spec.v
theories/Back/Alloc_live_proof.v
theories/Back/Alloc_live_props.v
theories/Back/Alloc_model.v
theories/Back/Alloc_occ_proof.v
theories/Back/Alloc_proof.v
theories/Back/Alloc_props.v
theories/Back/Alloc_spec.v
theories/Back/Alloc_top_proof.v
theories/Back/Blocks_main_proof.v
theories/Back/Blocks_model.v
theories/Back/Blocks_proof.v
theories/Back/Blocks_props.v
theories/Back/Blocks_scan_proof.v
theories/Back/Blocks_spec.v
theories/Back/Cond_proof.v
theories/Back/Cond_props.v
theories/Back/Copy_model.v
theories/Back/Copy_proof.v
theories/Back/Copy_props.v
theories/Back/Copy_spec.v
theories/Back/Cprop_all_proof.v
theories/Back/Cprop_inv_proof.v
theories/Back/Cprop_model.v
theories/Back/Cprop_proof.v
theories/Back/Cprop_props.v
theories/Back/Cprop_spec.v
theories/Back/Cprop_step_proof.v
theories/Back/Flow_live_proof.v
theories/Back/Flow_model.v
theories/Back/Flow_proof.v
theories/Back/Flow_prop_proof.v
theories/Back/Flow_props.v
theories/Back/Flow_spec.v
theories/Back/Frame_args_proof.v
theories/Back/Frame_arrive_proof.v
theories/Back/Frame_call_proof.v
theories/Back/Frame_model.v
theories/Back/Frame_proof.v
theories/Back/Frame_props.v
theories/Back/Frame_run_proof.v
theories/Back/Frame_spec.v
theories/Back/Frame_va_proof.v
theories/Back/Gen_expr_proof.v
theories/Back/Gen_fun_proof.v
theories/Back/Gen_jump_proof.v
theories/Back/Gen_model.v
theories/Back/Gen_op_proof.v
theories/Back/Gen_props.v
theories/Back/Gen_shape_proof.v
theories/Back/Gen_spec.v
theories/Back/Gen_stmt_proof.v
theories/Back/Ir_model.v
theories/Back/Ir_spec.v
theories/Back/Isel_block_proof.v
theories/Back/Isel_cmp_proof.v
theories/Back/Isel_conv_proof.v
theories/Back/Isel_final_proof.v
theories/Back/Isel_model.v
theories/Back/Isel_ops_proof.v
theories/Back/Isel_proof.v
theories/Back/Isel_props.v
theories/Back/Isel_spec.v
theories/Back/Isel_tweak_proof.v
theories/Back/Labels_model.v
theories/Back/Labels_proof.v
theories/Back/Labels_props.v
theories/Back/Labels_spec.v
theories/Back/Opt_def_proof.v
theories/Back/Opt_fold_proof.v
theories/Back/Opt_model.v
theories/Back/Opt_proof.v
theories/Back/Opt_props.v
theories/Back/Opt_spec.v
theories/Back/Peep_props.v
theories/Back/Phi_frame_proof.v
theories/Back/Phi_long_proof.v
theories/Back/Phi_model.v
theories/Back/Phi_proof.v
theories/Back/Phi_props.v
theories/Back/Phi_small_proof.v
theories/Back/Phi_spec.v
theories/Back/Pipe_clear_proof.v
theories/Back/Pipe_keep_proof.v
theories/Back/Pipe_model.v
theories/Back/Pipe_proof.v
theories/Back/Pipe_props.v
theories/Back/Pipe_spec.v
theories/Back/Ssa_all_proof.v
theories/Back/Ssa_model.v
theories/Back/Ssa_name_proof.v
theories/Back/Ssa_phi_proof.v
theories/Back/Ssa_proof.v
theories/Back/Ssa_props.v
theories/Back/Ssa_spec.v
theories/Back/Ssa_visit_proof.v
theories/Back/Switch_def_proof.v
theories/Back/Switch_model.v
theories/Back/Switch_proof.v
theories/Back/Switch_props.v
theories/Back/Switch_ref_proof.v
theories/Back/Switch_spec.v
theories/Back/Switch_top_proof.v
theories/Back/Unphi_edges_proof.v
theories/Back/Unphi_edit_proof.v
theories/Back/Unphi_insert_proof.v
theories/Back/Unphi_look_proof.v
theories/Back/Unphi_model.v
theories/Back/Unphi_more_proof.v
theories/Back/Unphi_moves_proof.v
theories/Back/Unphi_proof.v
theories/Back/Unphi_props.v
theories/Back/Unphi_sim_proof.v
theories/Back/Unphi_spec.v
theories/Back/Unused_model.v
theories/Back/Unused_proof.v
theories/Back/Unused_props.v
theories/Back/Unused_spec.v
theories/Cpp/Cond_main_proof.v
theories/Cpp/Cond_model.v
theories/Cpp/Cond_proof.v
theories/Cpp/Cond_props.v
theories/Cpp/Cond_spec.v
theories/Cpp/Macro_call_proof.v
theories/Cpp/Macro_fun_proof.v
theories/Cpp/Macro_fun_spec.v
theories/Cpp/Macro_model.v
theories/Cpp/Macro_proof.v
theories/Cpp/Macro_props.v
theories/Cpp/Macro_scan_proof.v
theories/Cpp/Macro_spec.v
theories/Cpp/Macro_subst_proof.v
theories/Cpp/Ppexpr_model.v
theories/Cpp/Ppexpr_proof.v
theories/Cpp/Ppexpr_props.v
theories/Cpp/Ppexpr_spec.v
theories/Front/Bitfield_model.v
theories/Front/Bitfield_proof.v
theories/Front/Bitfield_props.v
theories/Front/Bitfield_spec.v
theories/Front/Decl_full_proof.v
theories/Front/Decl_model.v
theories/Front/Decl_proof.v
theories/Front/Decl_props.v
theories/Front/Decl_raw_proof.v
theories/Front/Decl_sound_proof.v
theories/Front/Decl_spec.v
theories/Front/Flatten_full_proof.v
theories/Front/Flatten_model.v
theories/Front/Flatten_proof.v
theories/Front/Flatten_props.v
theories/Front/Flatten_ref_proof.v
theories/Front/Flatten_sound_proof.v
theories/Front/Flatten_spec.v
theories/Front/Flatten_store_proof.v
theories/Front/Flatten_string_proof.v
theories/Front/Flatten_term_proof.v
theories/Front/Fold_cmp_proof.v
theories/Front/Fold_cond_proof.v
theories/Front/Fold_model.v
theories/Front/Fold_num_proof.v
theories/Front/Fold_proof.v
theories/Front/Fold_props.v
theories/Front/Fold_spec.v
theories/Front/Fold_unary_proof.v
theories/Front/Funcend_main_proof.v
theories/Front/Funcend_model.v
theories/Front/Funcend_proof.v
theories/Front/Funcend_props.v
theories/Front/Funcend_spec.v
theories/Front/Layout_model.v
theories/Front/Layout_pack_proof.v
theories/Front/Layout_proof.v
theories/Front/Layout_props.v
theories/Front/Layout_spec.v
theories/Front/Lexer_model.v
theories/Front/Lexer_op_proof.v
theories/Front/Lexer_props.v
theories/Front/Lexer_spec.v
theories/Front/Lexer_str_proof.v
theories/Front/Lexer_word_proof.v
theories/Front/Lexer_wrap_proof.v
theories/Front/Local_model.v
theories/Front/Local_proof.v
theories/Front/Local_props.v
theories/Front/Local_ref_proof.v
theories/Front/Local_spec.v
theories/Front/Pexpr_full_proof.v
theories/Front/Pexpr_model.v
theories/Front/Pexpr_proof.v
theories/Front/Pexpr_props.v
theories/Front/Pexpr_sound_proof.v
theories/Front/Pexpr_spec.v
theories/Front/Pstmt_full_proof.v
theories/Front/Pstmt_model.v
theories/Front/Pstmt_proof.v
theories/Front/Pstmt_props.v
theories/Front/Pstmt_sound_proof.v
theories/Front/Pstmt_spec.v
theories/Front/Reach_model.v
theories/Front/Reach_proof.v
theories/Front/Reach_props.v
theories/Front/Reach_spec.v
theories/Front/Scope_find_proof.v
theories/Front/Scope_model.v
theories/Front/Scope_proof.v
theories/Front/Scope_props.v
theories/Front/Scope_spec.v
theories/Front/Static_main_proof.v
theories/Front/Static_model.v
theories/Front/Static_proof.v
theories/Front/Static_props.v
theories/Front/Static_ref_proof.v
theories/Front/Static_spec.v
theories/Front/Types_model.v
theories/Front/Types_proof.v
theories/Front/Types_props.v
theories/Front/Types_spec.v
theories/Ld/Place_main_proof.v
theories/Ld/Place_model.v
theories/Ld/Place_proof.v
theories/Ld/Place_props.v
theories/Ld/Place_ref_proof.v
theories/Ld/Place_spec.v
theories/Ld/Rela_main_proof.v
theories/Ld/Rela_model.v
theories/Ld/Rela_proof.v
theories/Ld/Rela_props.v
theories/Ld/Rela_ref_proof.v
theories/Ld/Rela_spec.v
theories/Ld/Rela_word_proof.v
theories/Ld/Sym_model.v
theories/Ld/Sym_proof.v
theories/Ld/Sym_props.v
theories/Ld/Sym_ref_proof.v
theories/Ld/Sym_spec.v
theories/Lib/Cmem.v
theories/Lib/Env_model.v
theories/Lib/Env_proof.v
theories/Lib/Env_props.v
theories/Lib/Env_spec.v
theories/Lib/Exit_model.v
theories/Lib/Exit_proof.v
theories/Lib/Exit_props.v
theories/Lib/Exit_spec.v
theories/Lib/Fopen_model.v
theories/Lib/Fopen_proof.v
theories/Lib/Fopen_props.v
theories/Lib/Fopen_spec.v
theories/Lib/Jmp_model.v
theories/Lib/Jmp_proof.v
theories/Lib/Jmp_props.v
theories/Lib/Jmp_spec.v
theories/Lib/Malloc_alloc_proof.v
theories/Lib/Malloc_client_proof.v
theories/Lib/Malloc_model.v
theories/Lib/Malloc_proof.v
theories/Lib/Malloc_props.v
theories/Lib/Malloc_spec.v
theories/Lib/Memstream_model.v
theories/Lib/Memstream_proof.v
theories/Lib/Memstream_props.v
theories/Lib/Memstream_spec.v
theories/Lib/Printf_model.v
theories/Lib/Printf_proof.v
theories/Lib/Printf_props.v
theories/Lib/Printf_spec.v
theories/Lib/Printf_text_proof.v
theories/Lib/Qsort_model.v
theories/Lib/Qsort_proof.v
theories/Lib/Qsort_props.v
theories/Lib/Qsort_spec.v
theories/Lib/Rand_model.v
theories/Lib/Rand_proof.v
theories/Lib/Rand_props.v
theories/Lib/Rand_spec.v
theories/Lib/Stdin_model.v
theories/Lib/Stdin_proof.v
theories/Lib/Stdin_props.v
theories/Lib/Stdin_spec.v
theories/Lib/Stdout_model.v
theories/Lib/Stdout_proof.v
theories/Lib/Stdout_props.v
theories/Lib/Stdout_spec.v
theories/Lib/Strcopy_proof.v
theories/Lib/String_model.v
theories/Lib/String_proof.v
theories/Lib/String_props.v
theories/Lib/String_spec.v
theories/Lib/Strtol_model.v
theories/Lib/Strtol_proof.v
theories/Lib/Strtol_props.v
theories/Lib/Strtol_spec.v
theories/Util/Data_model.v
theories/Util/Data_proof.v
theories/Util/Data_props.v
theories/Util/Data_spec.v
theories/Util/Escape_model.v
theories/Util/Escape_proof.v
theories/Util/Escape_props.v
theories/Util/Line_model.v
theories/Util/Line_proof.v
theories/Util/Line_props.v
theories/Util/Line_spec.v
theories/Util/Mem.v
theories/Util/Name_model.v
theories/Util/Name_proof.v
theories/Util/Path_model.v
theories/Util/Path_proof.v
theories/Util/Path_props.v
theories/Util/Path_spec.v
theories/Util/Table_model.v
theories/Util/Table_proof.v
theories/Util/Table_props.v
theories/Util/Table_spec.v
theories/Util/Vector_model.v
theories/Util/Vector_proof.v
theories/Util/Vector_props.v
theories/Util/Vector_spec.v
theories/Util/Wrap_model.v
theories/Util/Wrap_proof.v
theories/Util/Wrap_props.v
theories/Util/Wrap_spec.v
theories/Wcc/LinkLeb_model.v
theories/Wcc/LinkLeb_proof.v
theories/Wcc/LinkLeb_props.v
