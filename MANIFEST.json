{
 "claims": [
  {
   "property": "C01",
   "status": "proved",
   "theorems": [
    "C01_conversion",
    "C01_bool",
    "C01_accepts",
    "C01_zero_division",
    "C01_value_error",
    "C01_total",
    "C01_nan_accepted"
   ],
   "note": ""
  },
  {
   "property": "C02",
   "status": "proved",
   "theorems": [
    "C02_accepts",
    "C02_errors",
    "C02_default_allowables"
   ],
   "note": ""
  },
  {
   "property": "C03",
   "status": "proved",
   "theorems": [
    "C03_inverse_of_compliance",
    "C03_readable_iff",
    "C03_isotropic"
   ],
   "note": ""
  },
  {
   "property": "C04",
   "status": "proved",
   "theorems": [
    "C04_pos_def_iff",
    "C04_not_enforced_refuted"
   ],
   "note": ""
  },
  {
   "property": "C05",
   "status": "proved",
   "theorems": [
    "C05_iff",
    "C05_angles_irrelevant"
   ],
   "note": ""
  },
  {
   "property": "C06",
   "status": "proved",
   "theorems": [
    "C06_reads",
    "C06_defined",
    "C06_unique",
    "C06_stable",
    "C06_explicit"
   ],
   "note": ""
  },
  {
   "property": "C07",
   "status": "proved",
   "theorems": [
    "C07_exact",
    "C07_error",
    "C07_symmetric",
    "C07_transitive",
    "C07_reflexive"
   ],
   "note": ""
  },
  {
   "property": "C08",
   "status": "proved",
   "theorems": [
    "C08_one_material",
    "C08_many_materials"
   ],
   "note": ""
  },
  {
   "property": "C09",
   "status": "proved",
   "theorems": [
    "C09_dict_accepted",
    "C09_xiB_ignored"
   ],
   "note": ""
  },
  {
   "property": "C10",
   "status": "proved",
   "theorems": [
    "C10_interfaces",
    "C10_ends_and_steps"
   ],
   "note": ""
  },
  {
   "property": "C11",
   "status": "proved",
   "theorems": [
    "C11_never_singular",
    "C11_Q_layup_defined",
    "C11_rotated_stiffness",
    "C11_multiple_angles"
   ],
   "note": ""
  },
  {
   "property": "C12",
   "status": "proved",
   "theorems": [
    "C12_symmetric_invariants",
    "C12_angle_symmetries"
   ],
   "note": ""
  },
  {
   "property": "C13",
   "status": "proved",
   "theorems": [
    "C13_symmetric",
    "C13_defined"
   ],
   "note": ""
  },
  {
   "property": "C14",
   "status": "proved",
   "theorems": [
    "C14_symmetric_no_coupling"
   ],
   "note": ""
  },
  {
   "property": "C15",
   "status": "proved",
   "theorems": [
    "C15_A_order",
    "C15_xiA_order",
    "C15_BD_order_refuted"
   ],
   "note": ""
  },
  {
   "property": "C16",
   "status": "proved",
   "theorems": [
    "C16_flip"
   ],
   "note": ""
  },
  {
   "property": "C17",
   "status": "proved",
   "theorems": [
    "C17_balanced",
    "C17_balanced_xiA"
   ],
   "note": ""
  },
  {
   "property": "C18",
   "status": "proved",
   "theorems": [
    "C18_round_trip"
   ],
   "note": ""
  },
  {
   "property": "C19",
   "status": "proved",
   "theorems": [
    "C19_ABD_pos_def",
    "C19_degenerate"
   ],
   "note": ""
  },
  {
   "property": "C20",
   "status": "proved",
   "theorems": [
    "C20_feasible",
    "C20_defined"
   ],
   "note": ""
  },
  {
   "property": "C21",
   "status": "proved",
   "theorems": [
    "C21_no_history",
    "C21_second_read_after_error",
    "C21_stale_after_reassignment",
    "C21_stale_refuted",
    "C21_aliased_array"
   ],
   "note": ""
  },
  {
   "property": "C22",
   "status": "proved",
   "theorems": [
    "C22_exact",
    "C22_raises",
    "C22_one_class",
    "C22_self",
    "C22_lamination_parameters",
    "C22_other"
   ],
   "note": ""
  },
  {
   "property": "C23",
   "status": "proved",
   "theorems": [
    "C23_split",
    "C23_interfaces"
   ],
   "note": ""
  },
  {
   "property": "C24",
   "status": "proved",
   "theorems": [
    "C24_rotation",
    "C24_tensor",
    "C24_group"
   ],
   "note": ""
  },
  {
   "property": "C25",
   "status": "proved",
   "theorems": [
    "C25_solves",
    "C25_exists",
    "C25_errors",
    "C25_linear",
    "C25_energy"
   ],
   "note": ""
  },
  {
   "property": "C26",
   "status": "proved",
   "theorems": [
    "C26_equilibrium"
   ],
   "note": ""
  },
  {
   "property": "C27",
   "status": "proved",
   "theorems": [
    "C27_linear",
    "C27_continuous"
   ],
   "note": ""
  },
  {
   "property": "C28",
   "status": "proved",
   "theorems": [
    "C28_consistent",
    "C28_rotation"
   ],
   "note": ""
  },
  {
   "property": "C29",
   "status": "proved",
   "theorems": [
    "C29_shape"
   ],
   "note": ""
  },
  {
   "property": "C30",
   "status": "proved",
   "theorems": [
    "C30_calls_independent",
    "C30_gamma_not_halved",
    "C30_lamination_parameters"
   ],
   "note": ""
  },
  {
   "property": "C31",
   "status": "proved",
   "theorems": [
    "C31_tension",
    "C31_compression",
    "C31_shear",
    "C31_reals",
    "C31_infinite",
    "C31_negative_zero_refuted",
    "C31_zero_at_allowable",
    "C31_columns"
   ],
   "note": ""
  },
  {
   "property": "C32",
   "status": "proved",
   "theorems": [
    "C32_position_swapped",
    "C32_never_agrees"
   ],
   "note": ""
  },
  {
   "property": "C33",
   "status": "proved",
   "theorems": [
    "C33_missing",
    "C33_smallest",
    "C33_all_infinite",
    "C33_nan_named_refuted",
    "C33_zero_allowables",
    "C33_failure"
   ],
   "note": ""
  },
  {
   "property": "C34",
   "status": "proved",
   "theorems": [
    "C34_index_sets",
    "C34_default",
    "C34_errors"
   ],
   "note": ""
  },
  {
   "property": "C35",
   "status": "proved",
   "theorems": [
    "C35_only_tx_rx",
    "C35_tz_refuted"
   ],
   "note": ""
  },
  {
   "property": "C36",
   "status": "proved",
   "theorems": [
    "C36_mixed",
    "C36_names",
    "C36_refuted"
   ],
   "note": ""
  },
  {
   "property": "C37",
   "status": "proved",
   "theorems": [
    "C37_sizes",
    "C37_limits",
    "C37_never",
    "C37_zero"
   ],
   "note": ""
  },
  {
   "property": "C38",
   "status": "proved",
   "theorems": [
    "C38_exact",
    "C38_stored"
   ],
   "note": "exact with exact integrals; stored tables within the explicit bounds k_err, kG_err"
  },
  {
   "property": "C39",
   "status": "proved",
   "theorems": [
    "C39_energy",
    "C39_semidefinite",
    "C39_definite",
    "C39_stored",
    "C39_singular",
    "C39_symmetric",
    "C39_arithmetics"
   ],
   "note": "definiteness with exact integrals; for the stored tables (accurate to 1e-8) the quadratic form is within k_err*(sum|c|)^2 of the energy"
  },
  {
   "property": "C40",
   "status": "proved",
   "theorems": [
    "C40_right_blocks",
    "C40_wrong_blocks",
    "C40_square",
    "C40_membrane_symmetric_iff",
    "C40_coupling_refuted"
   ],
   "note": "block-by-block comparison with exact integrals (right blocks equal, wrong blocks off by explicit terms); the uncoupled square case is fully right; non-symmetry proved with the stored tables"
  },
  {
   "property": "C41",
   "status": "proved",
   "theorems": [
    "C41_linear_D",
    "C41_linear_N",
    "C41_lengths",
    "C41_swap"
   ],
   "note": ""
  },
  {
   "property": "C42",
   "status": "proved",
   "theorems": [
    "C42_pairs",
    "C42_first",
    "C42_first_above_one",
    "C42_overload",
    "C42_stable_iff",
    "C42_smallest_exists",
    "C42_pencil",
    "C42_critical",
    "C42_unsafe_refuted",
    "C42_ex_solver",
    "C42_ex_below"
   ],
   "note": "eigsh is an argument of the model, assumed to meet the documented contract (S_Eigen.documented); existence of an answering solver shown by example; first-factor claim refuted below 1 with a witness plate"
  },
  {
   "property": "C43",
   "status": "proved",
   "theorems": [
    "C43_ends",
    "C43_deflection"
   ],
   "note": ""
  },
  {
   "property": "C44",
   "status": "proved",
   "theorems": [
    "C44_grid",
    "C44_column"
   ],
   "note": ""
  },
  {
   "property": "C45",
   "status": "proved",
   "theorems": [
    "C45_accuracy",
    "C45_keys",
    "C45_symmetric"
   ],
   "note": ""
  },
  {
   "property": "C46",
   "status": "proved",
   "theorems": [
    "C46_product",
    "C46_fxi"
   ],
   "note": ""
  },
  {
   "property": "C47",
   "status": "proved",
   "theorems": [
    "C47_normalised",
    "C47_error",
    "C47_warnings"
   ],
   "note": "over the reals"
  },
  {
   "property": "C48",
   "status": "proved",
   "theorems": [
    "C48_triangle",
    "C48_inside",
    "C48_lengths",
    "C48_mixtures",
    "C48_natural"
   ],
   "note": ""
  },
  {
   "property": "C49",
   "status": "proved",
   "theorems": [
    "C49_region",
    "C49_feasible",
    "C49_tolerance_refuted"
   ],
   "note": "iff with the region; the 1e-4 tolerance is harmless for moderate anisotropy and refuted for E1/E2 = 1e6"
  },
  {
   "property": "C50",
   "status": "proved",
   "theorems": [
    "C50_D",
    "C50_factors",
    "C50_objective",
    "C50_refuted",
    "C50_value"
   ],
   "note": "scaling of D, K and of the smallest factor for all T; scaling of the returned factor refuted below 1, for every documented solver"
  },
  {
   "property": "C51",
   "status": "proved",
   "theorems": [
    "C51_objective",
    "C51_weight",
    "C51_value",
    "C51_carries",
    "C51_unsafe_refuted"
   ],
   "note": "scipy.optimize.minimize itself is not modelled, only the problem handed to it; exact integrals for the feasibility theorem"
  },
  {
   "property": "C52",
   "status": "proved",
   "theorems": [
    "C52_roundtrip",
    "C52_brackets_optional",
    "C52_group_needs_count",
    "C52_errors"
   ],
   "note": ""
  },
  {
   "property": "C53",
   "status": "proved",
   "theorems": [
    "C53_palindrome",
    "C53_half"
   ],
   "note": ""
  },
  {
   "property": "C54",
   "status": "proved",
   "theorems": [
    "C54_capital_s"
   ],
   "note": ""
  },
  {
   "property": "C55",
   "status": "proved",
   "theorems": [
    "C55_alternating",
    "C55_no_count",
    "C55_docstring_refuted"
   ],
   "note": ""
  },
  {
   "property": "C56",
   "status": "proved",
   "theorems": [
    "C56_nested",
    "C56_nested_refuted",
    "C56_leak",
    "C56_glued"
   ],
   "note": ""
  },
  {
   "property": "C57",
   "status": "proved",
   "theorems": [
    "C57_fields",
    "C57_roundtrip"
   ],
   "note": ""
  },
  {
   "property": "C58",
   "status": "proved",
   "theorems": [
    "C58_values",
    "C58_sout",
    "C58_sout_errors",
    "C58_card"
   ],
   "note": ""
  },
  {
   "property": "C59",
   "status": "proved",
   "theorems": [
    "C59_count",
    "C59_assembly_error",
    "C59_ex"
   ],
   "note": "for every solver meeting the documented contract"
  },
  {
   "property": "C60",
   "status": "proved",
   "theorems": [
    "C60_accepts",
    "C60_errors",
    "C60_nonfinite"
   ],
   "note": ""
  },
  {
   "property": "C61",
   "status": "proved",
   "theorems": [
    "C61_isotropic_margin"
   ],
   "note": ""
  },
  {
   "property": "C62",
   "status": "proved",
   "theorems": [
    "C62_superposition"
   ],
   "note": ""
  },
  {
   "property": "C63",
   "status": "proved",
   "theorems": [
    "C63_bardell"
   ],
   "note": ""
  },
  {
   "property": "C64",
   "status": "proved",
   "theorems": [
    "C64_plot",
    "C64_errors",
    "C64_loads"
   ],
   "note": "the drawing is not modelled, only the three arrays"
  },
  {
   "property": "C65",
   "status": "proved",
   "theorems": [
    "C65_refine",
    "C65_reported",
    "C65_functions",
    "C65_ex"
   ],
   "note": "for the matrices assembled with exact integrals; named edges (specifies) with one clamped or two held edges"
  },
  {
   "property": "C66",
   "status": "proved",
   "theorems": [
    "C66_monotone",
    "C66_safe",
    "C66_ex"
   ],
   "note": "for the matrices assembled with exact integrals; named edges (specifies) with one clamped or two held edges"
  },
  {
   "property": "C67",
   "status": "proved",
   "theorems": [
    "C67_combined",
    "C67_convex",
    "C67_ex",
    "C67_ex_convex"
   ],
   "note": "for the matrices assembled with exact integrals; named edges (specifies) with one clamped or two held edges"
  },
  {
   "property": "C68",
   "status": "proved",
   "theorems": [
    "C68_tension",
    "C68_compression",
    "C68_ex"
   ],
   "note": "for the matrices assembled with exact integrals; named edges (specifies) with one clamped or two held edges"
  },
  {
   "property": "C69",
   "status": "proved",
   "theorems": [
    "C69_stiffer",
    "C69_buckling",
    "C69_one_side_refuted",
    "C69_ex"
   ],
   "note": "D in exact arithmetic; the buckling part as C66"
  },
  {
   "property": "C70",
   "status": "proved",
   "theorems": [
    "C70_matrices",
    "C70_analysis",
    "C70_repeatable",
    "C70_plot",
    "C70_mixed",
    "C70_edit",
    "C70_edit_error",
    "C70_nth",
    "C70_default_shared",
    "C70_retry",
    "C70_default_refuted"
   ],
   "note": "every solver, exact arithmetic; users' in-place writes into returned arrays are not among the operations"
  },
  {
   "property": "C71",
   "status": "proved",
   "theorems": [
    "C71_generator",
    "C71_rodrigues",
    "C71_ends",
    "C71_sparse",
    "C71_second"
   ],
   "note": "The generators of the shape functions proved for every index; C71_ends/C71_sparse/C71_second are consequences for all indices, beyond the stored 50."
  },
  {
   "property": "C72",
   "status": "proved",
   "theorems": [
    "C72_functions",
    "C72_space",
    "C72_ritz",
    "C72_small_refuted",
    "C72_ex",
    "C72_ex_ritz"
   ],
   "note": "Needs m (n) plus the number of conditions >= 4; C72_small_refuted shows the bound is needed on free edges."
  },
  {
   "property": "C73",
   "status": "proved",
   "theorems": [
    "C73_stiffness",
    "C73_region",
    "C73_concave",
    "C73_local",
    "C73_maximise",
    "C73_minimise",
    "C73_ex_maximise",
    "C73_ex_minimise"
   ],
   "note": "For the exact tables. The value 1 returned on ArpackError lies above every objective value concerned, so it does not break the chord property at the end points; at the intermediate point the solver is required to answer."
  },
  {
   "property": "C74",
   "status": "proved",
   "theorems": [
    "C74_exists",
    "C74_unique",
    "C74_solver",
    "C74_same",
    "C74_analysis",
    "C74_panels",
    "C74_tie_refuted",
    "C74_ex_same",
    "C74_ex_analysis"
   ],
   "note": "Shows that the hypotheses documented eigsh and the solver answers of C42, C49-C51, C59, C64, C73 can be met together for every plate in compression. C74_tie_refuted: without the proviso on reciprocal factors the answer is not determined."
  },
  {
   "property": "C75",
   "status": "proved",
   "theorems": [
    "C75_exact",
    "C75_accuracy",
    "C75_clamped",
    "C75_users",
    "C75_ritz",
    "C75_pencil",
    "C75_unsafe_refuted",
    "C75_rounded_refuted"
   ],
   "note": "real arithmetic: the texts are read as real numbers; for the rounding of the parsed floats and of the assembly see C77"
  },
  {
   "property": "C76",
   "status": "proved",
   "theorems": [
    "C76_margin",
    "C76_pencil",
    "C76_close",
    "C76_exists",
    "C76_reported",
    "C76_pinned_plate"
   ],
   "note": "compares matrices assembled in real arithmetic from the stored texts with those from exact integrals; the margin u is a hypothesis with existence proved for every plate and a value computed for the example"
  },
  {
   "property": "C77",
   "status": "proved",
   "theorems": [
    "C77_rounding",
    "C77_entries",
    "C77_clamped",
    "C77_close",
    "C77_exists",
    "C77_pinned_plate"
   ],
   "note": "lengths and loads are doubles (an int argument would only make a**3 exact); the accuracy of pow and of reading literals is a hypothesis, met by the instances of C77_ex; an eigen-solver of limited accuracy is added in C97"
  },
  {
   "property": "C78",
   "status": "proved",
   "theorems": [
    "C78_interfaces",
    "C78_ordered",
    "C78_strict",
    "C78_matrices",
    "C78_symmetric",
    "C78_same_text",
    "C78_laminate",
    "C78_absorbed_refuted",
    "C78_B_refuted"
   ],
   "note": "Q_layup is an argument with an accuracy hypothesis here, C88 derives it; the accuracy of pow is a hypothesis (met by repeated multiplication)"
  },
  {
   "property": "C79",
   "status": "proved",
   "theorems": [
    "C79_strip",
    "C79_column",
    "C79_long_plate",
    "C79_one_wave",
    "C79_biaxial",
    "C79_clamped",
    "C79_upper",
    "C79_clamped_upper",
    "C79_sandwich",
    "C79_safe",
    "C79_reported"
   ],
   "note": "the bounds with every edge held assume D16 = D26 = 0 and D12 + 2 D66 >= 0; the column bound and both upper bounds need neither. For pinned plates the statements use exact integrals (C76, C77 measure the distance to the stored tables)."
  },
  {
   "property": "C80",
   "status": "proved",
   "theorems": [
    "C80_mirror",
    "C80_exchange",
    "C80_mirror_y",
    "C80_half_turn",
    "C80_quarter_turn",
    "C80_shear_sign",
    "C80_angles",
    "C80_laminate",
    "C80_reported",
    "C80_small_refuted"
   ],
   "note": "mirror images are stated from four functions reached in each direction on; C80_small_refuted shows that below they fail. The exchange of the axes needs no such bound."
  },
  {
   "property": "C81",
   "status": "proved",
   "theorems": [
    "C81_convex",
    "C81_reserve",
    "C81_multiplier",
    "C81_reduce",
    "C81_inside",
    "C81_frame",
    "C81_mirror",
    "C81_mirror_safe",
    "C81_accuracy"
   ],
   "note": "the envelope is stated on the pairs (allowables, stresses) of the margin table in exact reals; C31 proves that the binary64 margins have the right sign and C81_accuracy bounds their error for given binary64 stresses. Rounding of the stresses themselves is in C96."
  },
  {
   "property": "C82",
   "status": "proved",
   "theorems": [
    "C82_table",
    "C82_ABD",
    "C82_accepted"
   ],
   "note": "nothing is said of lengths within the bands 2^-359..2^-340 and 2^340..2^342, where the result depends on the rounding of the C library; for the full ABD matrix the kind of exception is not determined, only that one is raised"
  },
  {
   "property": "C83",
   "status": "proved",
   "theorems": [
    "C83_functions",
    "C83_integrals",
    "C83_texts",
    "C83_numbers",
    "C83_injective",
    "C83_import",
    "C83_file",
    "C83_clamped",
    "C83_shapes",
    "C83_stored_tables",
    "C83_stored_functions"
   ],
   "note": "The entries made from the first four functions have Float coefficients in the scripts; their texts are a parameter (any text without quotes, backslashes and line ends). The texts of the products in _S.py are a parameter too. sympy is represented by exact arithmetic on coefficient lists and its printing order."
  },
  {
   "property": "C84",
   "status": "proved",
   "theorems": [
    "C84_above",
    "C84_converges",
    "C84_exists",
    "C84_none",
    "C84_one_wave",
    "C84_long_plate",
    "C84_biaxial",
    "C84_navier"
   ],
   "note": "Exact integrals (the stored tables are compared with them in C43, C76, C77) and exact arithmetic; the solver enters through C42. The class of deflections asks for continuous mixed derivatives up to order two in each variable."
  },
  {
   "property": "C85",
   "status": "proved",
   "theorems": [
    "C85_build",
    "C85_matrices",
    "C85_layup",
    "C85_xi",
    "C85_tables",
    "C85_margin",
    "C85_dict",
    "C85_margin_refuted",
    "C85_xi_refuted"
   ],
   "note": "A list keeps holding elements of one kind; materials are values (they have no setters). Exact real arithmetic."
  },
  {
   "property": "C86",
   "status": "proved",
   "theorems": [
    "C86_flexibility",
    "C86_criterion",
    "C86_E1_alone",
    "C86_laminate",
    "C86_buckling",
    "C86_plies",
    "C86_limit",
    "C86_scaled",
    "C86_entries",
    "C86_E1_refuted",
    "C86_ex"
   ],
   "note": "for the matrices assembled with exact integrals; named edges (specifies) with one clamped or two held edges"
  },
  {
   "property": "C87",
   "status": "proved",
   "theorems": [
    "C87_array",
    "C87_accurate",
    "C87_definite",
    "C87_isotropic",
    "C87_invariants",
    "C87_zero_refuted",
    "C87_negative_refuted",
    "C87_singular_refuted",
    "C87_range_refuted"
   ],
   "note": "accuracy for moduli between 2^-200 and 2^200 and 1 - v12 v21 >= 2^-40; thickness and allowables do not enter"
  },
  {
   "property": "C88",
   "status": "proved",
   "theorems": [
    "C88_transformations",
    "C88_ply",
    "C88_matrices",
    "C88_lower",
    "C88_factor",
    "C88_end",
    "C88_loop",
    "C88_right_angle_refuted"
   ],
   "note": "C88_right_angle_refuted: exact zeros at 90 degrees are lost because np.pi < pi. The accuracy of np.cos, np.sin, **, np.linalg.inv and @ is assumed (numpy_near); C88_loop shows a plain loop meets the assumption on @."
  },
  {
   "property": "C89",
   "status": "proved",
   "theorems": [
    "C89_reduced",
    "C89_between",
    "C89_unsafe",
    "C89_movable",
    "C89_clamped",
    "C89_two_layers",
    "C89_safe_refuted",
    "C89_layup"
   ],
   "note": "C89_safe_refuted: the reported factor is not bounded by any multiple of the load the plate carries with its coupling. Exact integrals and exact arithmetic; the solver enters through C42. That the whole in-plane problem is linear (Kirchhoff, small displacements) is part of the specification S_Coupled."
  },
  {
   "property": "C90",
   "status": "proved",
   "theorems": [
    "C90_material",
    "C90_equal",
    "C90_equal_refuted",
    "C90_history",
    "C90_stable",
    "C90_distinct",
    "C90_laminate",
    "C90_laminate_refuted"
   ],
   "note": "C90_equal_refuted, C90_laminate_refuted: equality and text do not determine each other. The text of a float is an argument (prints); stacking given as a list of ints and floats (repr of a dict or of other number types is not modelled)."
  },
  {
   "property": "C91",
   "status": "proved",
   "theorems": [
    "C91_minmax",
    "C91_exists",
    "C91_unique",
    "C91_first",
    "C91_refine",
    "C91_monotone",
    "C91_reported",
    "C91_all",
    "C91_list",
    "C91_reported_refine",
    "C91_ex_lowest",
    "C91_ex"
   ],
   "note": "Needs no factor below 1 (C42_unsafe_refuted shows why). Exact integrals for the plate statements; C91_reported, C91_minmax, C91_exists and C91_unique are for any tables and pencils."
  },
  {
   "property": "C92",
   "status": "proved",
   "theorems": [
    "C92_above",
    "C92_converges",
    "C92_exists",
    "C92_first",
    "C92_all",
    "C92_reported"
   ],
   "note": ""
  },
  {
   "property": "C93",
   "status": "proved",
   "theorems": [
    "C93_normalised",
    "C93_error",
    "C93_infinite",
    "C93_nan",
    "C93_bounded_refuted",
    "C93_warnings",
    "C93_triangle",
    "C93_parabola",
    "C93_parabola_exact",
    "C93_overflow",
    "C93_nan_accepted",
    "C93_values"
   ],
   "note": ""
  },
  {
   "property": "C94",
   "status": "proved",
   "theorems": [
    "C94_symmetric",
    "C94_errors",
    "C94_accurate",
    "C94_factor",
    "C94_end",
    "C94_path"
   ],
   "note": ""
  },
  {
   "property": "C95",
   "status": "proved",
   "theorems": [
    "C95_accurate",
    "C95_range",
    "C95_round_trip",
    "C95_unit_interval_refuted"
   ],
   "note": ""
  },
  {
   "property": "C96",
   "status": "proved",
   "theorems": [
    "C96_strain",
    "C96_stress",
    "C96_loads",
    "C96_epsilon0",
    "C96_tables",
    "C96_margins",
    "C96_loop"
   ],
   "note": ""
  },
  {
   "property": "C97",
   "status": "proved",
   "theorems": [
    "C97_factors",
    "C97_many",
    "C97_divide",
    "C97_reported",
    "C97_raises",
    "C97_residual",
    "C97_count",
    "C97_solver"
   ],
   "note": "the accuracy of the eigen-solver is a hypothesis (its values are those of a pencil near the one it was given); C97_solver proves that such solvers exist, C97_residual and C97_count say what returned pairs prove without any hypothesis on the solver. The returned vectors are not constrained."
  },
  {
   "property": "C98",
   "status": "proved",
   "theorems": [
    "C98_layup",
    "C98_ncr",
    "C98_handed",
    "C98_feasible",
    "C98_ranking"
   ],
   "note": "hypotheses of C88 or C94 on the plies, of C77 on the plate and of C97 on the solver; a factor below 1 (nearly) is excluded, as in C42. scipy.optimize.minimize itself is not modelled."
  },
  {
   "property": "C99",
   "status": "proved",
   "theorems": [
    "C99_loads",
    "C99_normalised",
    "C99_carries",
    "C99_design"
   ],
   "note": "C99_carries takes what C98_ncr proves (the computed value stands for the factor of the exact plate) as a hypothesis; C99_design is the composition of the two, C99_ex and C99_ex_design show a run of the constraint function that meets the hypotheses."
  },
  {
   "property": "C100",
   "status": "proved",
   "theorems": [
    "C100_rounding",
    "C100_energy"
   ],
   "note": "m and n up to 26 because an arbitrary list of conditions may leave any of the first m+4 functions in use. The comparison is with the entries the same assembly has without rounding; the block vw repeats the block wu there too (C40)."
  },
  {
   "property": "C101",
   "status": "proved",
   "theorems": [
    "C101_functions",
    "C101_absolute",
    "C101_product",
    "C101_point",
    "C101_grid",
    "C101_coordinates",
    "C101_values",
    "C101_lengths",
    "C101_column",
    "C101_edge_refuted",
    "C101_loop"
   ],
   "note": "C101_edge_refuted shows that \"held edges are plotted as zero\" fails in doubles for the last stored function. The deflection is taken at the doubles of the grid; how far these are from equal distances is C101_grid."
  },
  {
   "property": "C102",
   "status": "proved",
   "theorems": [
    "C102_plot",
    "C102_region",
    "C102_errors",
    "C102_boundary_refuted",
    "C102_curves"
   ],
   "note": "C102_boundary_refuted refutes that a grid point on the boundary is always drawn (in exact arithmetic C64 shows it is). How far the values drawn are from the exact factors is C98_ncr. The drawing is not modelled."
  }
 ]
}