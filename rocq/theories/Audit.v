(** * Audit: one Print Assumptions for every theorem (generated by tools/audit.py). *)
From Verif Require Import ThmLoading ThmIdentity ThmIterators ThmTypes ThmNavigation ThmMeta ThmDescr ThmOptions ThmValues ThmValues2 ThmRender ThmRender2 ThmValuePos ThmEverything ThmGoPackage ThmResolvers ThmAccessors ThmTerminate ThmSchema ThmReadme ThmStable ThmFiles ThmMore ThmLint ThmHierarchy ThmThreads ThmLater ThmErrors ThmNodeless ThmSpelling ThmProgram ThmMain ThmMainFails ThmQuick ThmComplaints ThmSurvey ThmGather ThmLanguage ThmPanics ThmLangOptions ThmDeps ThmPoison ThmTakeover ThmSameType ThmDescend ThmAscend.

Definition audited :=
  (@C01_stays_loaded,
   @C02_load_terminates,
   @C03_parsed_once,
   @C04_imports_available,
   @C04_after_panic_refuted,
   @C05_declarations_found,
   @C05_exact_declaration,
   @C06_index_is_qualified_name,
   @C06_enum_value_index_empty,
   @C06_file_index,
   @C06_file_index_direct,
   @C08_found_is_declared,
   @C09_error_changes_nothing,
   @C10_refuted,
   @C10_never_reported,
   @C10_missing_import,
   @C11_first_resolver_serves,
   @C11_resolver_error,
   @C11_not_found,
   @C12_elements_stay,
   @C12_index_stays,
   @C12_names_stay,
   @C13_queries_do_not_change_schema,
   @C19_one_node_per_declaration,
   @C20_equal_nodes_same_element,
   @C20_equality_decides_types,
   @C21_field_type_fixed,
   @C07_lookup_inverts_index,
   @C07_oneof_type_refuted,
   @C07_file_refuted,
   @C28_iterator_yields_children,
   @C28_loop_sees_children,
   @C29_break_sees_prefix,
   @C29_rest_untouched,
   @C30_lookup_agrees_with_iterator,
   @C30_file_lookup_agrees,
   @C30_extend_block_refuted,
   @C32_unknown_name,
   @C32_unknown_name_outcomes,
   @C32_same_answer_refuted,
   @C59_enum_enums_empty,
   @C14_innermost_scope,
   @C14_unresolved_only_if_undeclared,
   @C15_absolute_name,
   @C15_absolute_unknown,
   @C16_scalars_not_shadowed,
   @C16_map_value_not_shadowed,
   @C16_repeated_type,
   @C17_type_of_field,
   @C17_method_message,
   @C17_name_clash_refuted,
   @C17_enum_value_refuted,
   @C18_unresolved,
   @C18_method_unresolved_panics,
   @C18_repeated_refuted,
   @C22_type_comparison_exact,
   @C46_builtins_one_to_one,
   @C46_scalar_names,
   @C46_map_keys,
   @C24_parent_of_child,
   @C24_parent_in_everything,
   @C24_parent_of_option,
   @C25_hierarchy,
   @C25_of_declaration,
   @C26_node_file,
   @C26_node_file_ends_hierarchy,
   @C23_one_file_node,
   @C23_proto_file_is_fresh,
   @C23_proto_file_is_fresh_before,
   @C23_proto_file_refuted,
   @C27_handed_out,
   @C27_parent_of_element,
   @C27_parent_in_group,
   @C27_type_parents_refuted,
   @C27_value_parents_refuted,
   @C27_value_parents_later,
   @C47_found_name,
   @C47_type_name,
   @C47_scalar_name,
   @C47_oneof_and_map,
   @C47_total_refuted,
   @C48_exact,
   @C48_other_types,
   @C48_well_known,
   @C49_map_value,
   @C49_absolute_panics,
   @C49_same_as_field_refuted,
   @C50_reserved_values,
   @C50_numbers,
   @C51_pos,
   @C51_pos_map,
   @C51_pos_unnamed,
   @C51_pos_map_unnamed,
   @C51_builtin_panics,
   @C51_repeated_panics,
   @C52_comment,
   @C52_no_comment,
   @C52_option_comment_refuted,
   @C53_description,
   @C53_other_types_panic,
   @C33_options,
   @C33_options_loop,
   @C33_unknown_option_panics,
   @C33_name_custom,
   @C33_name_predefined,
   @C34_custom_option,
   @C35_predefined_option,
   @C34_enum_value_scope_refuted,
   @C35_shadowed_refuted,
   @C36_option_named,
   @C36_plain_field_panics,
   @C36_fields_refuted,
   @C36_by_own_name_refuted,
   @C38_value,
   @C38_variant,
   @C39_signed_exact,
   @C39_unsigned_exact,
   @C39_other_text_rejected,
   @C40_uint_unreadable,
   @C41_array,
   @C41_elements_like_singular,
   @C41_scalar_array,
   @C41_unbracketed_is_empty,
   @C41_named_types_unreadable,
   @C42_message,
   @C42_bad_key,
   @C40_uint32_refuted,
   @C41_single_literal_refuted,
   @C41_repeated_enum_refuted,
   @C42_oneof_branch_refuted,
   @C43_string,
   @C43_canonical_literal,
   @C43_literal_text,
   @C51_value,
   @C51_value_literal,
   @C51_value_unnamed,
   @C51_array_panics,
   @C51_item_panics,
   @C31_everything_loop,
   @C31_everything,
   @C31_comment_refuted,
   @C37_method_options,
   @C37_method_options_all,
   @C37_method_options_panic,
   @C37_routes_agree,
   @C37_relative_names_refuted,
   @C37_everything_panics_refuted,
   @C44_split,
   @C44_unique,
   @C44_other_nodes,
   @C44_no_descriptor,
   @C44_valid,
   @C45_go_package,
   @C45_none,
   @C45_builtin,
   @C45_comment_refuted,
   @C45_relative_option_refuted,
   @C54_search,
   @C54_search_protoc_first,
   @C54_example,
   @C54_given_order_refuted,
   @C56_build,
   @C56_bad_root,
   @C56_all_roots,
   @C56_example,
   @C55_duplicate_fails,
   @C55_refuted,
   @C57_include,
   @C57_inside,
   @C57_no_stdlib,
   @C57_stdlib,
   @C57_no_protoc,
   @C57_example,
   @C58_plain,
   @C58_inside,
   @C58_any_root,
   @C58_dotdot_leaves,
   @C58_refuted,
   @C58_example,
   @C60_name,
   @C60_file_name,
   @C61_field_number,
   @C61_map_field_number,
   @C61_enum_value_number,
   @C61_branch_number,
   @C61_oneof_panics,
   @C62_optional,
   @C62_is_extension,
   @C63_package,
   @C63_index_from_package,
   @C64_queries_terminate,
   @C64_programs_terminate,
   @C65_adds_only_imports,
   @C65_adds_all_imports,
   @C66_order_of_loads,
   @C66_same_answers,
   @C66_same_types,
   @C66_duplicates_refuted,
   @C67_no_descriptor,
   @C67_new_registry,
   @C68_load_succeeds,
   @C68_new_registry_succeeds,
   @C67_broken_import_panics,
   @C69_linter_exact,
   @C69_linter_accepts,
   @C69_bypass_refuted,
   @C69_no_other_field_refuted,
   @C70_answer_after_queries,
   @C70_loop_after_queries,
   @C70_options_after_queries,
   @C71_same_program,
   @C71_order_of_loads,
   @C71_file_index_refuted,
   @C72_more_files,
   @C72_later_loads,
   @C72_capture_refuted,
   @C71_linter,
   @C72_linter,
   @C73_first_range,
   @C73_range,
   @C73_used_up,
   @C73_again,
   @C73_nested,
   @C73_nested_steps,
   @C73_nested_break,
   @C73_others,
   @C73_client,
   @C74_same_answers,
   @C74_no_panic,
   @C74_unlocked_alone,
   @C74_no_lock_refuted,
   @C72_any_history,
   @C74_with_loads,
   @C75_returned,
   @C75_panicked,
   @C75_new_registry,
   @C75_one_reason,
   @C75_unknown_is_nameless,
   @C75_not_exist_refuted,
   @C75_resolve,
   @C75_quote,
   @C75_names_resolver,
   @C75_names_file,
   @C75_build,
   @C75_example,
   @C31_runs,
   @C31_nodeless_panics,
   @C31_first_fault,
   @C03_spelling_refuted,
   @C69_program,
   @C69_main,
   @C69_no_resolvers,
   @C69_no_registry,
   @C69_no_status_file,
   @C69_no_status_message,
   @C69_no_service_file,
   @C69_no_service,
   @C69_exit_code,
   @C76_line_unique,
   @C76_fault_no_line,
   @C76_quick_start,
   @C76_main,
   @C76_failures,
   @C77_value,
   @C77_one_complaint,
   @C78_walk_sees_everything_once,
   @C78_extensions_refuted,
   @C79_after_queries,
   @C79_type_graph,
   @C79_broken_panics,
   @C79_second_walk_refuted,
   @C80_agrees,
   @C80_simple_sound,
   @C80_nothing,
   @C80_obstructed,
   @C80_method_agrees,
   @C80_method_simple_sound,
   @C80_refuted_own_name,
   @C80_refuted_compound,
   @C81_type_name,
   @C81_parent,
   @C81_description,
   @C81_description_of_map,
   @C81_map_key,
   @C81_map_value,
   @C81_field_number,
   @C81_field_optional,
   @C81_options,
   @C81_option_named_of_field,
   @C81_pos_repeated,
   @C81_pos_builtin,
   @C81_method,
   @C82_options,
   @C82_one_meaning,
   @C82_only_scopes_hide,
   @C82_hidden,
   @C82_simple_sound,
   @C82_refuted_own_scope,
   @C82_refuted_no_extension,
   @C82_refuted_subfield,
   @C83_import_order,
   @C83_acyclic,
   @C83_no_file,
   @C83_by_pointer_refuted,
   @C84_after_a_failed_import,
   @C84_requested_file,
   @C85_new_files_win,
   @C85_only_new_files,
   @C85_old_declaration_lost,
   @C86_same_type_exact,
   @C86_field_values_exact,
   @C86_load_in_between_refuted,
   @C87_inside,
   @C87_beside,
   @C87_file,
   @C88_up).

Print Assumptions audited.
