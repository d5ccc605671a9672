{
 "claims": [
  {
   "property": "C01",
   "status": "proved",
   "theorems": [
    "c01_de_int_round_trip",
    "c01_de_int_refused"
   ],
   "note": "theories/PropIo.v."
  },
  {
   "property": "C02",
   "status": "proved",
   "theorems": [
    "c02_de_field_exact",
    "c02_de_field_absent",
    "c02_de_field_total"
   ],
   "note": "theories/PropIo.v."
  },
  {
   "property": "C03",
   "status": "proved",
   "theorems": [
    "c03_global_text_round_trip",
    "c03_global_list_round_trip"
   ],
   "note": "theories/PropIo.v."
  },
  {
   "property": "C04",
   "status": "proved",
   "theorems": [
    "c04_pd_text_round_trip"
   ],
   "note": "theories/PropIo.v."
  },
  {
   "property": "C05",
   "status": "proved",
   "theorems": [
    "c05_pd_lines",
    "c05_number_overflow_refuted"
   ],
   "note": "theories/PropIo.v. c05_number_overflow_refuted: the claim fails beyond sequence number 9999999, which AddPDHStr does not check."
  },
  {
   "property": "C06",
   "status": "proved",
   "theorems": [
    "c06_global_lines"
   ],
   "note": "theories/PropIo.v."
  },
  {
   "property": "C07",
   "status": "proved",
   "theorems": [
    "c07_list_round_trip"
   ],
   "note": "theories/PropIo.v."
  },
  {
   "property": "C08",
   "status": "proved",
   "theorems": [
    "c08_real_text",
    "c08_real_no_delimiter"
   ],
   "note": "theories/PropIo.v."
  },
  {
   "property": "C09",
   "status": "proved",
   "theorems": [
    "c09_real_round_trip",
    "c09_real_any_digits",
    "c09_real_refused"
   ],
   "note": "theories/PropIo.v. Values are exact rationals; binary rounding of the arithmetic is not modelled."
  },
  {
   "property": "C10",
   "status": "proved",
   "theorems": [
    "c10_record_exact",
    "c10_crlf"
   ],
   "note": "theories/PropIo.v."
  },
  {
   "property": "C11",
   "status": "proved",
   "theorems": [
    "c11_texts_kept",
    "c11_lines_determined",
    "c11_round_trip",
    "c11_default_text",
    "c11_accepted_iff",
    "c11_text_before_reading"
   ],
   "note": "theories/PropApi.v."
  },
  {
   "property": "C12",
   "status": "proved",
   "theorems": [
    "c12_globals_round_trip"
   ],
   "note": "theories/PropGlobal.v."
  },
  {
   "property": "C13",
   "status": "proved",
   "theorems": [
    "c13_delimiter_refused"
   ],
   "note": "theories/PropGlobal.v."
  },
  {
   "property": "C14",
   "status": "proved",
   "theorems": [
    "c14_fine_resolution_refused"
   ],
   "note": "theories/PropGlobal.v."
  },
  {
   "property": "C15",
   "status": "proved",
   "theorems": [
    "c15_linewidth_not_written",
    "c15_linewidth_read"
   ],
   "note": "theories/PropGlobal.v."
  },
  {
   "property": "C16",
   "status": "proved",
   "theorems": [
    "c16_section_read"
   ],
   "note": "theories/PropGlobal.v."
  },
  {
   "property": "C17",
   "status": "proved",
   "theorems": [
    "c17_directory_round_trip",
    "c17_fields_round_trip",
    "c17_written_iff"
   ],
   "note": "theories/PropDe.v."
  },
  {
   "property": "C18",
   "status": "proved",
   "theorems": [
    "c18_status_digits",
    "c18_status_read",
    "c18_status_refused"
   ],
   "note": "theories/PropDe.v."
  },
  {
   "property": "C19",
   "status": "proved",
   "theorems": [
    "c19_level_entity_refused"
   ],
   "note": "theories/PropDe.v."
  },
  {
   "property": "C20",
   "status": "proved",
   "theorems": [
    "c20_own_lines_only",
    "c20_lines_taken"
   ],
   "note": "theories/PropEnt.v."
  },
  {
   "property": "C21",
   "status": "proved",
   "theorems": [
    "c21_comments_refused",
    "c21_line_comments_refused",
    "c21_every_type"
   ],
   "note": "theories/PropEnt.v, PropRound.v."
  },
  {
   "property": "C22",
   "status": "proved",
   "theorems": [
    "c22_optional_lists_round_trip"
   ],
   "note": "theories/PropEnt.v."
  },
  {
   "property": "C23",
   "status": "proved",
   "theorems": [
    "c23_books_kept"
   ],
   "note": "theories/PropGraph.v. Histories are lists of operations, each tidy (GraphSpec.tidy) in the state it is applied to; what tidy leaves out is covered by C62-C67. Faces and loops can be made and deleted but not filled. The start is the empty model or the graph of a file just read (PlanSpec.read_in)."
  },
  {
   "property": "C24",
   "status": "proved",
   "theorems": [
    "c24_layout"
   ],
   "note": "theories/PropFile.v. Failing output streams are not modelled; files of at most 9999999 lines (809999919 bytes), texts without line breaks and Start Section lines of at most 72 characters."
  },
  {
   "property": "C25",
   "status": "proved",
   "theorems": [
    "c25_counts_ignored",
    "c25_record_required"
   ],
   "note": "theories/PropFile.v. c25_counts_ignored compares two files which differ in the Terminate line only; c25_record_required says when readTS succeeds. Read is modelled up to the linking of entities."
  },
  {
   "property": "C26",
   "status": "proved",
   "theorems": [
    "c26_arcs_round_trip",
    "c26_six_digit_arcs",
    "c26_perfect_arc_refuted"
   ],
   "note": "theories/PropEnt.v."
  },
  {
   "property": "C27",
   "status": "proved",
   "theorems": [
    "c27_composite_curves_round_trip",
    "c27_subfigures_round_trip"
   ],
   "note": "theories/PropEnt.v."
  },
  {
   "property": "C28",
   "status": "proved",
   "theorems": [
    "c28_lines_round_trip",
    "c28_transforms_round_trip"
   ],
   "note": "theories/PropEnt.v."
  },
  {
   "property": "C29",
   "status": "proved",
   "theorems": [
    "c29_boolean_trees_refused",
    "c29_other_trees_not_written"
   ],
   "note": "theories/PropEnt.v."
  },
  {
   "property": "C30",
   "status": "proved",
   "theorems": [
    "c30_trimmed_surfaces_round_trip",
    "c30_no_outer_boundary_refused"
   ],
   "note": "theories/PropEnt.v."
  },
  {
   "property": "C31",
   "status": "proved",
   "theorems": [
    "c31_cull",
    "c31_groups_kept",
    "c31_repeated",
    "c31_one_pass_may_leave_orphans_refuted"
   ],
   "note": "theories/PropGraph.v. States reached by tidy histories, without trees of two or more operands (few) and without edges using empty vertex lists (pinned)."
  },
  {
   "property": "C32",
   "status": "proved",
   "theorems": [
    "c32_conversion",
    "c32_conversions_compose",
    "c32_there_and_back",
    "c32_extern_refused",
    "c32_outside_undefined"
   ],
   "note": "theories/PropUnit.v."
  },
  {
   "property": "C33",
   "status": "proved",
   "theorems": [
    "c33_conversion_not_atomic",
    "c33_scaling_not_atomic"
   ],
   "note": "theories/PropUnit.v."
  },
  {
   "property": "C34",
   "status": "proved",
   "theorems": [
    "c34_scale_change",
    "c34_resolution_drifts",
    "c34_refused"
   ],
   "note": "theories/PropUnit.v."
  },
  {
   "property": "C35",
   "status": "proved",
   "theorems": [
    "c35_next_unit_named",
    "c35_never_right"
   ],
   "note": "theories/PropUnit.v."
  },
  {
   "property": "C36",
   "status": "proved",
   "theorems": [
    "c36_dates_accepted",
    "c36_dates_crash",
    "c36_calendar_dates"
   ],
   "note": "theories/PropGlobal.v."
  },
  {
   "property": "C37",
   "status": "proved",
   "theorems": [
    "c37_parts_unique",
    "c37_parts_reported",
    "c37_no_period_throws",
    "c37_empty_path"
   ],
   "note": "theories/PropPath.v. Systems with the slash as separator; an exception is a distinct outcome."
  },
  {
   "property": "C38",
   "status": "proved",
   "theorems": [
    "c38_valid_handles_are_good",
    "c38_links_follow_lifetime",
    "c38_exactly_these_die",
    "c38_attach",
    "c38_detach",
    "c38_delete",
    "c38_new_entity",
    "c38_new_handle",
    "c38_set_parent",
    "c38_set_parent_via_handle",
    "c38_new_model_handle"
   ],
   "note": "theories/PropHandle.v. States reached by sane histories (HandleSpec.sane). What else the destruction of an entity does to other entities is in the object graph claims."
  },
  {
   "property": "C39",
   "status": "proved",
   "theorems": [
    "c39_composition",
    "c39_monoid",
    "c39_linear",
    "c39_chain"
   ],
   "note": "theories/PropUnit.v."
  },
  {
   "property": "C40",
   "status": "proved",
   "theorems": [
    "c40_segments",
    "c40_segment_added",
    "c40_segment_deleted"
   ],
   "note": "theories/PropGraph.v. States reached by tidy histories. The checks on end points of the joined segments enter as a free boolean (cl)."
  },
  {
   "property": "C41",
   "status": "proved",
   "theorems": [
    "c41_set_exactly",
    "c41_set_null",
    "c41_round_trip",
    "c41_ends",
    "c41_get_crashes",
    "c41_after_refusal",
    "c41_new_after_refusal"
   ],
   "note": "theories/PropNurbs.v. Arrays exist as far as the counts say; numbers up to 10^300, exact rationals; allocation succeeds; built without SISL."
  },
  {
   "property": "C42",
   "status": "proved",
   "theorems": [
    "c42_names",
    "c42_parts_are_not_assemblies",
    "c42_length"
   ],
   "note": "theories/PropUnit.v."
  },
  {
   "property": "C43",
   "status": "proved",
   "theorems": [
    "c43_target"
   ],
   "note": "theories/PropFile.v. The target is what the path names before the call; failing output streams are not modelled."
  },
  {
   "property": "C44",
   "status": "proved",
   "theorems": [
    "c44_comments_are_a_list"
   ],
   "note": "theories/PropApi.v."
  },
  {
   "property": "C45",
   "status": "proved",
   "theorems": [
    "c45_planes_never_read",
    "c45_planes_with_options_round_trip"
   ],
   "note": "theories/PropEnt.v."
  },
  {
   "property": "C46",
   "status": "proved",
   "theorems": [
    "c46_voids_refused",
    "c46_voids_lost",
    "c46_plain_solids_round_trip"
   ],
   "note": "theories/PropEnt.v."
  },
  {
   "property": "C47",
   "status": "proved",
   "theorems": [
    "c47_loops_lose_data"
   ],
   "note": "theories/PropEnt.v."
  },
  {
   "property": "C48",
   "status": "proved",
   "theorems": [
    "c48_vertices_round_trip",
    "c48_edges_round_trip",
    "c48_faces_round_trip",
    "c48_shells_round_trip"
   ],
   "note": "theories/PropEnt.v."
  },
  {
   "property": "C49",
   "status": "proved",
   "theorems": [
    "c49_curves_round_trip",
    "c49_surfaces_round_trip"
   ],
   "note": "theories/PropEnt.v."
  },
  {
   "property": "C50",
   "status": "proved",
   "theorems": [
    "c50_conics_round_trip",
    "c50_revolutions_round_trip",
    "c50_tabulated_cylinders_round_trip",
    "c50_curves_on_surfaces_round_trip",
    "c50_cylinders_round_trip",
    "c50_extrusions_round_trip"
   ],
   "note": "theories/PropEnt.v."
  },
  {
   "property": "C51",
   "status": "proved",
   "theorems": [
    "c51_thin_cylinders_change_height"
   ],
   "note": "theories/PropEnt.v."
  },
  {
   "property": "C52",
   "status": "proved",
   "theorems": [
    "c52_colors_round_trip",
    "c52_long_names_never_read"
   ],
   "note": "theories/PropEnt.v."
  },
  {
   "property": "C53",
   "status": "proved",
   "theorems": [
    "c53_names_round_trip",
    "c53_instances_round_trip"
   ],
   "note": "theories/PropEnt.v."
  },
  {
   "property": "C54",
   "status": "proved",
   "theorems": [
    "c54_negative_form_refused",
    "c54_shells_need_form_1"
   ],
   "note": "theories/PropDe.v."
  },
  {
   "property": "C55",
   "status": "proved",
   "theorems": [
    "c55_array_right",
    "c55_array_dangles"
   ],
   "note": "theories/PropApi.v."
  },
  {
   "property": "C56",
   "status": "proved",
   "theorems": [
    "c56_conic_stays",
    "c56_ends_leave"
   ],
   "note": "theories/PropUnit.v."
  },
  {
   "property": "C57",
   "status": "proved",
   "theorems": [
    "c57_end_points",
    "c57_end_points_scale"
   ],
   "note": "theories/PropUnit.v."
  },
  {
   "property": "C58",
   "status": "proved",
   "theorems": [
    "c58_extension_replaced",
    "c58_period_lost",
    "c58_extension_kept_after_query",
    "c58_name_differs_after_query",
    "c58_append"
   ],
   "note": "theories/PropPath.v."
  },
  {
   "property": "C59",
   "status": "proved",
   "theorems": [
    "c59_write_throws",
    "c59_write_named",
    "c59_read_throws",
    "c59_read_named"
   ],
   "note": "theories/PropPath.v. Reading is modelled up to the linking of entities."
  },
  {
   "property": "C60",
   "status": "proved",
   "theorems": [
    "c60_de_pointers",
    "c60_transforms_accepted",
    "c60_numbers_replace_pointers",
    "c60_optional_entities",
    "c60_parts",
    "c60_members"
   ],
   "note": "theories/PropGraph.v. States reached by tidy histories; geometric checks of setters (closed curves) enter as a free boolean."
  },
  {
   "property": "C61",
   "status": "proved",
   "theorems": [
    "c61_deletion"
   ],
   "note": "theories/PropGraph.v. States reached by tidy histories."
  },
  {
   "property": "C62",
   "status": "proved",
   "theorems": [
    "c62_clear",
    "c62_clear_may_crash_refuted"
   ],
   "note": "theories/PropGraph.v. States reached by tidy histories; the two undefined outcomes are concrete histories."
  },
  {
   "property": "C63",
   "status": "proved",
   "theorems": [
    "c63_removal_leaves_a_stale_referrer",
    "c63_stale_referrer_used"
   ],
   "note": "theories/PropGraph.v."
  },
  {
   "property": "C64",
   "status": "proved",
   "theorems": [
    "c64_surface_not_registered",
    "c64_bound_not_registered",
    "c64_surface_deleted"
   ],
   "note": "theories/PropGraph.v."
  },
  {
   "property": "C65",
   "status": "proved",
   "theorems": [
    "c65_deleting_a_used_vertex_list"
   ],
   "note": "theories/PropGraph.v."
  },
  {
   "property": "C66",
   "status": "proved",
   "theorems": [
    "c66_operand_deleted"
   ],
   "note": "theories/PropGraph.v."
  },
  {
   "property": "C67",
   "status": "proved",
   "theorems": [
    "c67_optional_entity_deleted",
    "c67_property_of_itself",
    "c67_loop_deleted",
    "c67_null_directrix"
   ],
   "note": "theories/PropGraph.v."
  },
  {
   "property": "C68",
   "status": "proved",
   "theorems": [
    "c68_attaching_twice",
    "c68_destruction_clears_flags",
    "c68_one_flag_for_two_objects",
    "c68_flag_destroyed_first"
   ],
   "note": "theories/PropHandle.v."
  },
  {
   "property": "C69",
   "status": "proved",
   "theorems": [
    "c69_deleted_entity_stays_stored"
   ],
   "note": "theories/PropHandle.v. States reached by sane histories."
  },
  {
   "property": "C70",
   "status": "proved",
   "theorems": [
    "c70_two_entities",
    "c70_refused_types"
   ],
   "note": "theories/PropHandle.v. States reached by sane histories; aEntityPointer NULL on entry."
  },
  {
   "property": "C71",
   "status": "proved",
   "theorems": [
    "c71_set_exactly",
    "c71_set_null",
    "c71_round_trip",
    "c71_get_crashes"
   ],
   "note": "theories/PropNurbs.v. Arrays exist as far as the counts say; numbers up to 10^300, exact rationals; allocation succeeds; built without SISL."
  },
  {
   "property": "C72",
   "status": "proved",
   "theorems": [
    "c72_planar_found",
    "c72_planar_sound",
    "c72_straight_line",
    "c72_short",
    "c72_planar_missed_refuted",
    "c72_kink_taken_refuted"
   ],
   "note": "theories/PropNurbs.v. Exact rational arithmetic."
  },
  {
   "property": "C73",
   "status": "proved",
   "theorems": [
    "c73_curve_refused",
    "c73_surface_refused"
   ],
   "note": "theories/PropNurbs.v. Arrays exist as far as the counts say; numbers up to 10^300, exact rationals; allocation succeeds; built without SISL."
  },
  {
   "property": "C74",
   "status": "proved",
   "theorems": [
    "c74_file_round_trip",
    "c74_plain_documents"
   ],
   "note": "theories/PropRound.v. Behind Cull and in front of associate: pointers are kept as entity numbers. Numbers up to 10^300, exact rationals."
  },
  {
   "property": "C75",
   "status": "proved",
   "theorems": [
    "c75_directory_entry_refused",
    "c75_record_refused"
   ],
   "note": "theories/PropRound.v. Behind Cull and in front of associate: pointers are kept as entity numbers. Numbers up to 10^300, exact rationals. Files up to 729 MB."
  },
  {
   "property": "C76",
   "status": "proved",
   "theorems": [
    "c76_resolution_used",
    "c76_small_arcs_refused"
   ],
   "note": "theories/PropRound.v. Behind Cull and in front of associate: pointers are kept as entity numbers. Numbers up to 10^300, exact rationals. Files up to 729 MB."
  },
  {
   "property": "C77",
   "status": "proved",
   "theorems": [
    "c77_sound_file_is_connected",
    "c77_whole_file_is_read"
   ],
   "note": "theories/PropAssoc.v. IsClosed and the computation of end points are two functions left open; theorems hold for all. The numbers a file gives (AssocModel.wants) are those of the records (C74)."
  },
  {
   "property": "C78",
   "status": "proved",
   "theorems": [
    "c78_what_is_kept"
   ],
   "note": "theories/PropAssoc.v. IsClosed and the computation of end points are two functions left open; theorems hold for all. The numbers a file gives (AssocModel.wants) are those of the records (C74)."
  },
  {
   "property": "C79",
   "status": "proved",
   "theorems": [
    "c79_accepted_file_is_proper"
   ],
   "note": "theories/PropAccept.v. IsClosed and the computation of end points are two functions left open; theorems hold for all. The numbers a file gives (AssocModel.wants) are those of the records (C74)."
  },
  {
   "property": "C80",
   "status": "proved",
   "theorems": [
    "c80_pointers_fit"
   ],
   "note": "theories/PropAccept.v. IsClosed and the computation of end points are two functions left open; theorems hold for all. The numbers a file gives (AssocModel.wants) are those of the records (C74)."
  },
  {
   "property": "C81",
   "status": "proved",
   "theorems": [
    "c81_never_accepted",
    "c81_first_entity_is_undefined"
   ],
   "note": "theories/PropAccept.v. IsClosed and the computation of end points are two functions left open; theorems hold for all. The numbers a file gives (AssocModel.wants) are those of the records (C74)."
  },
  {
   "property": "C82",
   "status": "proved",
   "theorems": [
    "c82_extrusion_after_its_curve"
   ],
   "note": "theories/PropAccept.v. IsClosed and the computation of end points are two functions left open; theorems hold for all. The numbers a file gives (AssocModel.wants) are those of the records (C74). Assumes of IsClosed that it answers no for a composite curve without segments (entity102.cpp L677)."
  },
  {
   "property": "C83",
   "status": "proved",
   "theorems": [
    "c83_destroyed_entity_is_used"
   ],
   "note": "theories/PropAccept.v. IsClosed and the computation of end points are two functions left open; theorems hold for all. The numbers a file gives (AssocModel.wants) are those of the records (C74)."
  },
  {
   "property": "C84",
   "status": "proved",
   "theorems": [
    "c84_duplicate_dangles_refuted",
    "c84_clear_after_failure_refuted"
   ],
   "note": "theories/PropAccept.v. IsClosed and the computation of end points are two functions left open; theorems hold for all. The numbers a file gives (AssocModel.wants) are those of the records (C74)."
  },
  {
   "property": "C85",
   "status": "proved",
   "theorems": [
    "c85_model_round_trip"
   ],
   "note": "theories/PropJoin.v. The answers of IsClosed and of the end point functions are left open, as in C77; reals are exact, C74 says what the text keeps of them."
  },
  {
   "property": "C86",
   "status": "proved",
   "theorems": [
    "c86_endless"
   ],
   "note": "theories/PropJoin.v. The answers of IsClosed and of the end point functions are left open, as in C77; reals are exact, C74 says what the text keeps of them."
  },
  {
   "property": "C87",
   "status": "proved",
   "theorems": [
    "c87_parameter_splines",
    "c87_other_curves"
   ],
   "note": "theories/PropJoin.v. Reals are exact."
  },
  {
   "property": "C88",
   "status": "proved",
   "theorems": [
    "c88_package",
    "c88_contents",
    "c88_two_models"
   ],
   "note": "theories/PropExport.v. Entities of the two models are in one heap; the data are in a list in the order of the ids. typeless_nulls and free addresses are facts of models made by calls."
  },
  {
   "property": "C89",
   "status": "proved",
   "theorems": [
    "c89_converted",
    "c89_weights"
   ],
   "note": "theories/PropExport.v. Reals are exact."
  },
  {
   "property": "C90",
   "status": "proved",
   "theorems": [
    "c90_not_converted",
    "c90_half_converted",
    "c90_no_gradations",
    "c90_left_out",
    "c90_nothing_to_pack"
   ],
   "note": "theories/PropExport.v. Reals are exact."
  },
  {
   "property": "C91",
   "status": "proved",
   "theorems": [
    "c91_into_itself"
   ],
   "note": "theories/PropExport.v. For a model whose units and scale are its own, so that nothing is converted."
  },
  {
   "property": "C92",
   "status": "proved",
   "theorems": [
    "c92_names"
   ],
   "note": "theories/PropExport.v. Time is a parameter, as in C42."
  },
  {
   "property": "C93",
   "status": "proved",
   "theorems": [
    "c93_nesting"
   ],
   "note": "theories/PropExport.v. Network definitions (320) are not supported by the library and excluded."
  },
  {
   "property": "C94",
   "status": "proved",
   "theorems": [
    "c94_matching",
    "c94_not_transitive",
    "c94_lines",
    "c94_arcs"
   ],
   "note": "theories/PropSeg.v. Doubles are the reals of the standard library, whose axioms Print Assumptions lists; rounding is not modelled."
  },
  {
   "property": "C95",
   "status": "proved",
   "theorems": [
    "c95_arc",
    "c95_circle"
   ],
   "note": "theories/PropSeg.v. Doubles are the reals of the standard library, whose axioms Print Assumptions lists; rounding is not modelled."
  },
  {
   "property": "C96",
   "status": "proved",
   "theorems": [
    "c96_arc_box",
    "c96_circle_box",
    "c96_line_box"
   ],
   "note": "theories/PropSeg.v. Doubles are the reals of the standard library, whose axioms Print Assumptions lists; rounding is not modelled."
  },
  {
   "property": "C97",
   "status": "proved",
   "theorems": [
    "c97_reverse",
    "c97_twice",
    "c97_box",
    "c97_getters",
    "c97_midpoint",
    "c97_circle_midpoint",
    "c97_length"
   ],
   "note": "theories/PropSeg.v. Doubles are the reals of the standard library, whose axioms Print Assumptions lists; rounding is not modelled."
  },
  {
   "property": "C98",
   "status": "proved",
   "theorems": [
    "c98_refused",
    "c98_pieces",
    "c98_accepted",
    "c98_hollow"
   ],
   "note": "theories/PropSeg.v. Doubles are the reals of the standard library, whose axioms Print Assumptions lists; rounding is not modelled."
  },
  {
   "property": "C99",
   "status": "proved",
   "theorems": [
    "c99_pieces",
    "c99_accepted",
    "c99_beyond",
    "c99_beyond_reached"
   ],
   "note": "theories/PropSeg.v. Doubles are the reals of the standard library, whose axioms Print Assumptions lists; rounding is not modelled."
  },
  {
   "property": "C100",
   "status": "proved",
   "theorems": [
    "c100_pieces",
    "c100_accepted",
    "c100_wide",
    "c100_lost"
   ],
   "note": "theories/PropSeg.v. Doubles are the reals of the standard library, whose axioms Print Assumptions lists; rounding is not modelled."
  },
  {
   "property": "C101",
   "status": "proved",
   "theorems": [
    "c101_two_circles"
   ],
   "note": "theories/PropCut.v. Doubles are the reals of the standard library, whose axioms Print Assumptions lists; rounding is not modelled."
  },
  {
   "property": "C102",
   "status": "proved",
   "theorems": [
    "c102_apart",
    "c102_points",
    "c102_arc_then_circle",
    "c102_touching",
    "c102_circle_and_its_arc",
    "c102_same_ends",
    "c102_missed",
    "c102_made_up",
    "c102_overlap"
   ],
   "note": "theories/PropCut.v. Doubles are the reals of the standard library, whose axioms Print Assumptions lists; rounding is not modelled. Of two arcs of one circle only the overlap of two halves is claimed."
  },
  {
   "property": "C103",
   "status": "proved",
   "theorems": [
    "c103_circle_line",
    "c103_arc_line",
    "c103_not_symmetric",
    "c103_flag_by_direction"
   ],
   "note": "theories/PropCut.v. Doubles are the reals of the standard library, whose axioms Print Assumptions lists; rounding is not modelled. For an arc with D between 0 and 1e-6 it is only claimed that at most the point next to the centre is reported."
  },
  {
   "property": "C104",
   "status": "proved",
   "theorems": [
    "c104_lines",
    "c104_overlap_missed",
    "c104_short_missed",
    "c104_row_is_edge"
   ],
   "note": "theories/PropCut.v. Doubles are the reals of the standard library, whose axioms Print Assumptions lists; rounding is not modelled."
  },
  {
   "property": "C105",
   "status": "proved",
   "theorems": [
    "c105_null",
    "c105_refused",
    "c105_taken",
    "c105_defined",
    "c105_undefined"
   ],
   "note": "theories/PropOut.v. Doubles are the reals of the standard library, whose axioms Print Assumptions lists; rounding is not modelled. Cutouts, holes and pointers shared with the caller are not modelled."
  },
  {
   "property": "C106",
   "status": "proved",
   "theorems": [
    "c106_shape",
    "c106_contiguous",
    "c106_closed"
   ],
   "note": "theories/PropOut.v. Doubles are the reals of the standard library, whose axioms Print Assumptions lists; rounding is not modelled. Cutouts, holes and pointers shared with the caller are not modelled."
  },
  {
   "property": "C107",
   "status": "proved",
   "theorems": [
    "c107_lines",
    "c107_straightened",
    "c107_arcs_refuted"
   ],
   "note": "theories/PropOut.v. Doubles are the reals of the standard library, whose axioms Print Assumptions lists; rounding is not modelled. Cutouts, holes and pointers shared with the caller are not modelled."
  },
  {
   "property": "C108",
   "status": "proved",
   "theorems": [
    "c108_in_box",
    "c108_square",
    "c108_tight"
   ],
   "note": "theories/PropOut.v. Doubles are the reals of the standard library, whose axioms Print Assumptions lists; rounding is not modelled. Cutouts, holes and pointers shared with the caller are not modelled."
  },
  {
   "property": "C109",
   "status": "proved",
   "theorems": [
    "c109_circle",
    "c109_open",
    "c109_level_refuted"
   ],
   "note": "theories/PropOut.v. Doubles are the reals of the standard library, whose axioms Print Assumptions lists; rounding is not modelled. Cutouts, holes and pointers shared with the caller are not modelled."
  },
  {
   "property": "C110",
   "status": "proved",
   "theorems": [
    "c110_polygon",
    "c110_arc_refuted"
   ],
   "note": "theories/PropOp.v. Doubles are the reals of the standard library, whose axioms Print Assumptions lists; rounding is not modelled. Cutouts, holes and pointers shared with the caller are not modelled."
  },
  {
   "property": "C111",
   "status": "proved",
   "theorems": [
    "c111_joined",
    "c111_lost_refuted"
   ],
   "note": "theories/PropOp.v. Doubles are the reals of the standard library, whose axioms Print Assumptions lists; rounding is not modelled. Cutouts, holes and pointers shared with the caller are not modelled."
  },
  {
   "property": "C112",
   "status": "proved",
   "theorems": [
    "c112_crossing",
    "c112_done",
    "c112_apart"
   ],
   "note": "theories/PropOp.v. Doubles are the reals of the standard library, whose axioms Print Assumptions lists; rounding is not modelled. Cutouts, holes and pointers shared with the caller are not modelled."
  },
  {
   "property": "C113",
   "status": "proved",
   "theorems": [
    "c113_kept",
    "c113_refused",
    "c113_misses",
    "c113_stale_box_refuted"
   ],
   "note": "theories/PropOp.v. Doubles are the reals of the standard library, whose axioms Print Assumptions lists; rounding is not modelled. Cutouts, holes and pointers shared with the caller are not modelled."
  },
  {
   "property": "C114",
   "status": "proved",
   "theorems": [
    "c114_accepted",
    "c114_refused",
    "c114_parts"
   ],
   "note": "theories/PropPcb.v. Over the real numbers; splines and the bilinear surface are those which the SISL library is documented to give, taken as exact. New entities and their pointers are taken to be made without failure."
  },
  {
   "property": "C115",
   "status": "proved",
   "theorems": [
    "c115_bounds",
    "c115_covers",
    "c115_sharp_line",
    "c115_sharp_arc"
   ],
   "note": "theories/PropPcb.v. Over the real numbers; splines and the bilinear surface are those which the SISL library is documented to give, taken as exact. New entities and their pointers are taken to be made without failure."
  },
  {
   "property": "C116",
   "status": "proved",
   "theorems": [
    "c116_faces",
    "c116_swapped"
   ],
   "note": "theories/PropPcb.v. Over the real numbers; splines and the bilinear surface are those which the SISL library is documented to give, taken as exact. New entities and their pointers are taken to be made without failure."
  },
  {
   "property": "C117",
   "status": "proved",
   "theorems": [
    "c117_line",
    "c117_round",
    "c117_low_start_refuted"
   ],
   "note": "theories/PropPcb.v. Over the real numbers; splines and the bilinear surface are those which the SISL library is documented to give, taken as exact. New entities and their pointers are taken to be made without failure."
  },
  {
   "property": "C118",
   "status": "proved",
   "theorems": [
    "c118_curves",
    "c118_plane_curves",
    "c118_form_of_curves_refuted",
    "c118_form_of_walls_refuted"
   ],
   "note": "theories/PropPcb.v. Over the real numbers; splines and the bilinear surface are those which the SISL library is documented to give, taken as exact. New entities and their pointers are taken to be made without failure."
  },
  {
   "property": "C119",
   "status": "proved",
   "theorems": [
    "c119_answer",
    "c119_covers",
    "c119_sides",
    "c119_failure"
   ],
   "note": "theories/PropPcb.v. Over the real numbers; splines and the bilinear surface are those which the SISL library is documented to give, taken as exact. New entities and their pointers are taken to be made without failure."
  },
  {
   "property": "C120",
   "status": "proved",
   "theorems": [
    "c120_plane",
    "c120_level",
    "c120_normal",
    "c120_box",
    "c120_defined",
    "c120_resolution_refuted"
   ],
   "note": "theories/PropPcb.v. Over the real numbers; splines and the bilinear surface are those which the SISL library is documented to give, taken as exact. New entities and their pointers are taken to be made without failure."
  },
  {
   "property": "C121",
   "status": "proved",
   "theorems": [
    "c121_union",
    "c121_answers",
    "c121_answers_refuted"
   ],
   "note": "theories/PropOvl.v. Doubles are the reals of the standard library, whose axioms Print Assumptions lists; rounding is not modelled. An outline merged with itself is not modelled. Where outlines meet is what C101 - C103 say."
  },
  {
   "property": "C122",
   "status": "proved",
   "theorems": [
    "c122_difference",
    "c122_contiguous_refuted"
   ],
   "note": "theories/PropOvl.v. Doubles are the reals of the standard library, whose axioms Print Assumptions lists; rounding is not modelled. An outline merged with itself is not modelled. Where outlines meet is what C101 - C103 say."
  },
  {
   "property": "C123",
   "status": "proved",
   "theorems": [
    "c123_keeps",
    "c123_refused",
    "c123_misses",
    "c123_circles"
   ],
   "note": "theories/PropOvl.v. Doubles are the reals of the standard library, whose axioms Print Assumptions lists; rounding is not modelled. An outline merged with itself is not modelled. Where outlines meet is what C101 - C103 say."
  },
  {
   "property": "C124",
   "status": "proved",
   "theorems": [
    "c124_answer",
    "c124_hole_answer",
    "c124_keeps",
    "c124_stored",
    "c124_hole_stored",
    "c124_taken",
    "c124_merged",
    "c124_inside_refuted"
   ],
   "note": "theories/PropOvl.v. Doubles are the reals of the standard library, whose axioms Print Assumptions lists; rounding is not modelled. An outline merged with itself is not modelled. Where outlines meet is what C101 - C103 say."
  },
  {
   "property": "C125",
   "status": "proved",
   "theorems": [
    "c125_careful_runs",
    "c125_owned",
    "c125_no_leak",
    "c125_any_program_refuted"
   ],
   "note": "theories/PropGh.v. What the geometry answers is left open, so this holds whatever it is; the order of segments in an outline is not followed, and memory is available. The functions of one outline with itself or with an object inside it are outside of the positive claims."
  },
  {
   "property": "C126",
   "status": "proved",
   "theorems": [
    "c126_destroy",
    "c126_delete",
    "c126_detach",
    "c126_new_destroys"
   ],
   "note": "theories/PropGh.v. What the geometry answers is left open, so this holds whatever it is; the order of segments in an outline is not followed, and memory is available. The functions of one outline with itself or with an object inside it are outside of the positive claims."
  },
  {
   "property": "C127",
   "status": "proved",
   "theorems": [
    "c127_handed",
    "c127_pointer_refuted"
   ],
   "note": "theories/PropGh.v. What the geometry answers is left open, so this holds whatever it is; the order of segments in an outline is not followed, and memory is available. The functions of one outline with itself or with an object inside it are outside of the positive claims."
  },
  {
   "property": "C128",
   "status": "proved",
   "theorems": [
    "c128_surfaces",
    "c128_nothing",
    "c128_curves_refuted",
    "c128_wall_refuted",
    "c128_left_over",
    "c128_lists",
    "c128_split",
    "c128_split_refused",
    "c128_split_count_refuted",
    "c128_split_none",
    "c128_intersections",
    "c128_intersections_refused"
   ],
   "note": "theories/PropGh.v. What the geometry returns is left open; integers do not overflow."
  },
  {
   "property": "C129",
   "status": "proved",
   "theorems": [
    "c129_circle",
    "c129_answers",
    "c129_groups",
    "c129_total",
    "c129_order"
   ],
   "note": "theories/PropDr.v. Doubles are the reals of the standard library, whose axioms Print Assumptions lists; rounding is not modelled. Drills are told apart by their addresses."
  },
  {
   "property": "C130",
   "status": "proved",
   "theorems": [
    "c130_accounts",
    "c130_complete",
    "c130_complete_refuted",
    "c130_dies",
    "c130_dies_refuted"
   ],
   "note": "theories/PropDr.v. What the geometry answers is left open, except in the two cases, where it is that of C101, C112 and C113 over the real numbers."
  },
  {
   "property": "C131",
   "status": "proved",
   "theorems": [
    "c131_line",
    "c131_blank_lines",
    "c131_fields",
    "c131_every_line",
    "c131_keywords",
    "c131_number_tail"
   ],
   "note": "theories/PropIdf.v. White space and upper case are those of the C locale."
  },
  {
   "property": "C132",
   "status": "proved",
   "theorems": [
    "c132_record",
    "c132_comment",
    "c132_section",
    "c132_made",
    "c132_quote_refuted",
    "c132_small_refuted"
   ],
   "note": "theories/PropIdf.v. To which component a hole is given (AddDrill) is not followed. Numbers are exact; reading into a double is not rounded, and the rounding of what is written is to the nearest decimal of the exact value."
  },
  {
   "property": "C133",
   "status": "proved",
   "theorems": [
    "c133_section"
   ],
   "note": "theories/PropIdf.v. Numbers are exact; reading into a double is not rounded, and the rounding of what is written is to the nearest decimal of the exact value."
  },
  {
   "property": "C134",
   "status": "proved",
   "theorems": [
    "c134_arc",
    "c134_only_one",
    "c134_line_circle",
    "c134_kicad",
    "c134_swapped",
    "c134_beyond_full_turn_refuted",
    "c134_converted_arc",
    "c134_converted_line_circle"
   ],
   "note": "theories/PropIdfGeo.v. Over real numbers; rounding of doubles is not modelled."
  },
  {
   "property": "C135",
   "status": "proved",
   "theorems": [
    "c135_loop",
    "c135_open",
    "c135_closed_in_idf_refuted",
    "c135_again"
   ],
   "note": "theories/PropIdfGeo.v. Loops of one circle are in c134_converted_line_circle. Over real numbers; rounding of doubles is not modelled."
  },
  {
   "property": "C136",
   "status": "proved",
   "theorems": [
    "c136_pushed",
    "c136_lines",
    "c136_arcs",
    "c136_arcs_refuted",
    "c136_two"
   ],
   "note": "theories/PropIdfGeo.v. Over real numbers; rounding of doubles is not modelled."
  },
  {
   "property": "C137",
   "status": "proved",
   "theorems": [
    "c137_placed",
    "c137_rigid",
    "c137_made",
    "c137_none",
    "c137_body"
   ],
   "note": "theories/PropIdfBody.v. Colours, names and subfigure entities are left out. Over real numbers; rounding of doubles is not modelled."
  },
  {
   "property": "C138",
   "status": "proved",
   "theorems": [
    "c138_top",
    "c138_bottom",
    "c138_first_only",
    "c138_each_refuted"
   ],
   "note": "theories/PropIdfBody.v. What AddCutout makes of the outline is a parameter; c138_first_only asks that it stays closed. Over real numbers; rounding of doubles is not modelled."
  },
  {
   "property": "C139",
   "status": "proved",
   "theorems": [
    "c139_section",
    "c139_records",
    "c139_last_way_refuted",
    "c139_comment_refuted",
    "c139_properties",
    "c139_no_properties",
    "c139_closed_refuted",
    "c139_left_over_refuted"
   ],
   "note": "theories/PropIdfOutl.v. Numbers are rationals. Lines with fields which are no plain numbers are covered by examples only."
  },
  {
   "property": "C140",
   "status": "proved",
   "theorems": [
    "c140_written",
    "c140_short_refuted"
   ],
   "note": "theories/PropIdfOutl.v. Numbers are rationals; the changes which writing makes to the loop itself are not followed."
  },
  {
   "property": "C141",
   "status": "proved",
   "theorems": [
    "c141_accepted",
    "c141_board",
    "c141_record",
    "c141_end",
    "c141_refused",
    "c141_nameless_refuted",
    "c141_outline_refuted",
    "c141_unit_refuted"
   ],
   "note": "theories/PropIdfPlace.v. Numbers are rationals; the board header and the other sections are not part of this claim."
  },
  {
   "property": "C142",
   "status": "proved",
   "theorems": [
    "c142_records",
    "c142_board",
    "c142_holes",
    "c142_bottom_refuted",
    "c142_name_refuted",
    "c142_unit_refuted"
   ],
   "note": "theories/PropIdfPlace.v. Numbers are rationals; the outlines are given by the library."
  },
  {
   "property": "C143",
   "status": "proved",
   "theorems": [
    "c143_defined",
    "c143_made",
    "c143_only",
    "c143_nowhere",
    "c143_star_refuted",
    "c143_star_shape"
   ],
   "note": "theories/PropIdfPlace.v, PropIdfStar.v. Which outlines have a body is a parameter; C137 and C138 are about the bodies."
  },
  {
   "property": "C144",
   "status": "proved",
   "theorems": [
    "c144_board",
    "c144_library",
    "c144_comment",
    "c144_written",
    "c144_library_written"
   ],
   "note": "theories/PropIdfFile.v. The lines are given as in C131; opening the file is not modelled."
  },
  {
   "property": "C145",
   "status": "proved",
   "theorems": [
    "c145_order",
    "c145_lost"
   ],
   "note": "theories/PropIdfFile.v. CAD types and the checks of ownership are left out."
  },
  {
   "property": "C146",
   "status": "proved",
   "theorems": [
    "c146_no_loops",
    "c146_outline",
    "c146_file",
    "c146_refused"
   ],
   "note": "theories/PropIdfEmpty.v, PropIdfFile.v. Comments of the sections are not written in the model; the winding of a loop is a parameter."
  },
  {
   "property": "C147",
   "status": "proved",
   "theorems": [
    "c147_names",
    "c147_tnm",
    "c147_props",
    "c147_outline",
    "c147_comment"
   ],
   "note": "theories/PropIdfLib.v. The points of the outlines are those of C138 and C139; the fields are given as in C131."
  },
  {
   "property": "C148",
   "status": "proved",
   "theorems": [
    "c148_first",
    "c148_written"
   ],
   "note": "theories/PropIdfLib.v. Opening the file is not modelled; counters of references are given beside the outlines; the winding of a loop is a parameter."
  },
  {
   "property": "C149",
   "status": "proved",
   "theorems": [
    "c149_record",
    "c149_section",
    "c149_no_height"
   ],
   "note": "theories/PropIdfRec.v. The loops between the second and the last line are those of C138; the fields of a line are given as in C131."
  },
  {
   "property": "C150",
   "status": "proved",
   "theorems": [
    "c150_tail"
   ],
   "note": "theories/PropIdfRec.v. That the sections before are read is a premise; C145 and C146 are about them."
  },
  {
   "property": "C151",
   "status": "proved",
   "theorems": [
    "c151_counted",
    "c151_at_most",
    "c151_library",
    "c151_stolen",
    "c151_unwritten"
   ],
   "note": "theories/PropIdfRef.v. Assignment of one placement to another is not modelled; that a deleted placement is used is an outcome of its own."
  },
  {
   "property": "C152",
   "status": "proved",
   "theorems": [
    "c152_add",
    "c152_remove",
    "c152_absent",
    "c152_owner_refuted",
    "c152_set_owner",
    "c152_given_away",
    "c152_first",
    "c152_once",
    "c152_deleted"
   ],
   "note": "theories/PropIdfHold.v. An outline which is given to two sections at once is not modelled."
  },
  {
   "property": "C153",
   "status": "proved",
   "theorems": [
    "c153_refused",
    "c153_slot",
    "c153_extent",
    "c153_wide_refuted"
   ],
   "note": "theories/PropIdfSlot.v. In real numbers. Of slots wider than 900 mm only one is shown, which is spoiled."
  },
  {
   "property": "C154",
   "status": "proved",
   "theorems": [
    "c154_found",
    "c154_added",
    "c154_deleted",
    "c154_cleared",
    "c154_unplaced",
    "c154_named",
    "c154_placed",
    "c154_other",
    "c154_other_refuted",
    "c154_renamed_refuted",
    "c154_twice_refuted"
   ],
   "note": "theories/PropIdfParts.v. Components are a name and a placement; the order of the map, the deletion by index and the holes and outlines of a component are left out."
  }
 ]
}