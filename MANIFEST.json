{
 "claims": [
  {
   "property": "C01",
   "status": "proved",
   "theorems": [
    "C01_fix_variables",
    "C01_fix_variables_unique",
    "C01_evaluate",
    "C01_evaluate_boolean",
    "C01_panics",
    "C01_nonparallel_branch_refuted"
   ],
   "note": "Default (parallel) build. The branch compiled without the feature is refuted by C01_nonparallel_branch_refuted."
  },
  {
   "property": "C02",
   "status": "proved",
   "theorems": [
    "C02_no_par_agrees",
    "C02_fix_no_par_agrees"
   ],
   "note": ""
  },
  {
   "property": "C03",
   "status": "proved",
   "theorems": [
    "C03_fix_last_variables",
    "C03_no_par_agrees",
    "C03_empty_point",
    "C03_too_long"
   ],
   "note": ""
  },
  {
   "property": "C04",
   "status": "proved",
   "theorems": [
    "C04_merge",
    "C04_different_sizes",
    "C04_empty"
   ],
   "note": ""
  },
  {
   "property": "C05",
   "status": "proved",
   "theorems": [
    "C05_table",
    "C05_eval",
    "C05_indicator",
    "C05_kzg_factors",
    "C05_errors"
   ],
   "note": ""
  },
  {
   "property": "C06",
   "status": "proved",
   "theorems": [
    "C06_project_decompose",
    "C06_decompose_project",
    "C06_decompose_bits",
    "C06_get_index",
    "C06_get_index_zero",
    "C06_binary_decompose"
   ],
   "note": ""
  },
  {
   "property": "C07",
   "status": "proved",
   "theorems": [
    "C07_front",
    "C07_back",
    "C07_edges"
   ],
   "note": ""
  },
  {
   "property": "C08",
   "status": "proved",
   "theorems": [
    "C08_evaluate",
    "C08_materialize",
    "C08_wrong_length",
    "C08_add_mle_list",
    "C08_mul_by_mle",
    "C08_plus"
   ],
   "note": ""
  },
  {
   "property": "C09",
   "status": "proved",
   "theorems": [
    "C09_rejected_keeps_value",
    "C09_rejected_keeps_struct_refuted"
   ],
   "note": ""
  },
  {
   "property": "C10",
   "status": "proved",
   "theorems": [
    "C10_invariants",
    "C10_degree",
    "C10_degree_refuted"
   ],
   "note": ""
  },
  {
   "property": "C11",
   "status": "proved",
   "theorems": [
    "C11_build_f_hat",
    "C11_build_f_hat_errors",
    "C11_zero_stays_zero",
    "C11_nonzero_rarely_zero",
    "C11_allV"
   ],
   "note": ""
  },
  {
   "property": "C12",
   "status": "proved",
   "theorems": [
    "C12_random_mle_list",
    "C12_random_zero_mle_list",
    "C12_random_zero_degree_0",
    "C12_rand",
    "C12_rand_zero",
    "C12_random_permutation",
    "C12_random_permutation_mles",
    "C12_identity_permutation_mles"
   ],
   "note": ""
  },
  {
   "property": "C13",
   "status": "proved",
   "theorems": [
    "C13_same_history",
    "C13_draw",
    "C13_vector_is_single_draws",
    "C13_appends_recorded"
   ],
   "note": ""
  },
  {
   "property": "C14",
   "status": "proved",
   "theorems": [
    "C14_nodes_refuted",
    "C14_error",
    "C14_complete",
    "C14_complete_any_oracle_refuted"
   ],
   "note": "Challenges that hit a node 0..deg make the verifier panic on honest proofs, for every polynomial (C14_nodes_refuted, and one case in C14_complete_any_oracle_refuted); C14_error counts them."
  },
  {
   "property": "C15",
   "status": "proved",
   "theorems": [
    "C15_messages",
    "C15_schedule_free"
   ],
   "note": ""
  },
  {
   "property": "C16",
   "status": "proved",
   "theorems": [
    "C16_interpolates",
    "C16_interpolant_exists",
    "C16_total_refuted"
   ],
   "note": "Totality is refuted (C16_total_refuted): every node panics."
  },
  {
   "property": "C17",
   "status": "proved",
   "theorems": [
    "C17_dichotomy",
    "C17_count"
   ],
   "note": ""
  },
  {
   "property": "C18",
   "status": "proved",
   "theorems": [
    "C18_wrong_message_length",
    "C18_missing_message",
    "C18_surplus_messages",
    "C18_point_ignored",
    "C18_zero_variables",
    "C18_degree_zero"
   ],
   "note": ""
  },
  {
   "property": "C19",
   "status": "proved",
   "theorems": [
    "C19_prover",
    "C19_verifier",
    "C19_verifier_zero_variables"
   ],
   "note": ""
  },
  {
   "property": "C20",
   "status": "proved",
   "theorems": [
    "C20_nodes_refuted",
    "C20_error",
    "C20_complete",
    "C20_empty_transcript"
   ],
   "note": "The verifier divides by eq(point, r): when that is zero it panics, which the theorem states. C20_nodes_refuted is the panic at the nodes, C20_error counts both."
  },
  {
   "property": "C21",
   "status": "proved",
   "theorems": [
    "C21_dichotomy",
    "C21_count"
   ],
   "note": ""
  },
  {
   "property": "C22",
   "status": "proved",
   "theorems": [
    "C22_complete",
    "C22_errors",
    "C22_no_variables"
   ],
   "note": ""
  },
  {
   "property": "C23",
   "status": "proved",
   "theorems": [
    "C23_commit_value",
    "C23_homomorphic",
    "C23_value_unique",
    "C23_wrong_value_rejected",
    "C23_collision_count",
    "C23_algebraic_count"
   ],
   "note": ""
  },
  {
   "property": "C24",
   "status": "proved",
   "theorems": [
    "C24_trim_is_smaller_srs",
    "C24_trim_cases"
   ],
   "note": ""
  },
  {
   "property": "C25",
   "status": "proved",
   "theorems": [
    "C25_complete",
    "C25_single_refuted",
    "C25_nodes_refuted",
    "C25_error"
   ],
   "note": "k = 1 is refused always (C25_single_refuted). Challenges 0, 1, 2 panic (C25_nodes_refuted, C25_error)."
  },
  {
   "property": "C26",
   "status": "proved",
   "theorems": [
    "C26_values_iff",
    "C26_values_count",
    "C26_binding",
    "C26_values_unbound_refuted",
    "C26_point_free_refuted",
    "C26_point_forgery_refuted"
   ],
   "note": "The property as stated is refuted (C26_*_refuted); what holds is C26_values_iff, C26_values_count and C26_binding, the last under the check the verifier omits."
  },
  {
   "property": "C27",
   "status": "proved",
   "theorems": [
    "C27_fresh",
    "C27_partition",
    "C27_stable"
   ],
   "note": ""
  },
  {
   "property": "C28",
   "status": "proved",
   "theorems": [
    "C28_arithmetic",
    "C28_increase",
    "C28_unknown"
   ],
   "note": ""
  },
  {
   "property": "C29",
   "status": "proved",
   "theorems": [
    "C29_boolean",
    "C29_linear",
    "C29_evaluations_refuted"
   ],
   "note": "The property as stated is refuted (C29_evaluations_refuted); it holds at boolean points (C29_boolean) and for polynomials whose products have one factor (C29_linear)."
  },
  {
   "property": "C30",
   "status": "proved",
   "theorems": [
    "C30_lockstep"
   ],
   "note": ""
  },
  {
   "property": "C31",
   "status": "proved",
   "theorems": [
    "C31_agree",
    "C31_back_refuted"
   ],
   "note": "Refuted for increase_nv_back unless it adds as many variables as the operand has (C31_back_refuted); C31_agree is the property for the histories without such a call."
  },
  {
   "property": "C32",
   "status": "proved",
   "theorems": [
    "C32_complete",
    "C32_error"
   ],
   "note": "Histories in which both sides make the same calls, at least two commitments and one variable. No condition on the oracle: the proof is accepted when the challenges in it avoid the nodes of the interpolation, and the verifier panics when they do not. C32_error counts the challenge vectors for which that happens. It includes that the batch opening never has to be right: see C34."
  },
  {
   "property": "C33",
   "status": "proved",
   "theorems": [
    "C33_false_claims_rejected",
    "C33_debug_prover_refuses"
   ],
   "note": "About the honest prover's compile_proof on a false history. For an arbitrary proof see C34, which is refuted."
  },
  {
   "property": "C34",
   "status": "proved",
   "theorems": [
    "C34_refuted",
    "C34_every_oracle_refuted"
   ],
   "note": "The property is refuted: for every set of claims there is an accepted proof with the same commitments and sums. C34_every_oracle_refuted has no condition on the oracle: the same proof is accepted whenever its two challenges avoid the interpolation nodes."
  },
  {
   "property": "C35",
   "status": "proved",
   "theorems": [
    "C35_equalize"
   ],
   "note": ""
  },
  {
   "property": "C36",
   "status": "proved",
   "theorems": [
    "C36_prover_copies",
    "C36_verifier_refuted",
    "C36_verifier_shared",
    "C36_queries_refuted",
    "C36_verifier_own_state"
   ],
   "note": "Holds for the prover. Refuted for the verifier (C36_verifier_refuted: the Rc of virtual commitments is shared by deep_copy; C36_queries_refuted: so are the query results); C36_verifier_own_state says which parts are independent, C36_verifier_shared that all evaluations stay the same on both copies."
  },
  {
   "property": "C37",
   "status": "proved",
   "theorems": [
    "C37_all_zero",
    "C37_refuted",
    "C37_read"
   ],
   "note": "The property is refuted: all query results of a compiled proof are zero (C37_all_zero), so they differ from the prover's values (C37_refuted). C37_read says how they reach the verifier's evaluations."
  },
  {
   "property": "C38",
   "status": "proved",
   "theorems": [
    "C38_prover",
    "C38_verifier"
   ],
   "note": "C38_prover is about honest runs of the whole protocol (prove, compile, verify); C38_verifier about any call of the verifier, in a session of any calls before and after it (SessHist), and any commitments under which the claims of the session are true. Deriving the truth of the claims from acceptance is C34, which is refuted."
  },
  {
   "property": "C39",
   "status": "proved",
   "theorems": [
    "C39_prover",
    "C39_verifier"
   ],
   "note": "As C38."
  },
  {
   "property": "C40",
   "status": "proved",
   "theorems": [
    "C40_prover",
    "C40_few_unlucky"
   ],
   "note": "Histories with at least two commitments; the prover's degree bound and key size appear as hypotheses (setting)."
  },
  {
   "property": "C41",
   "status": "proved",
   "theorems": [
    "C41_verifier"
   ],
   "note": "At the level of true claims: see C34 for why acceptance alone proves nothing."
  },
  {
   "property": "C42",
   "status": "proved",
   "theorems": [
    "C42_prover",
    "C42_shapes",
    "C42_verifier"
   ],
   "note": "C42_prover, C42_shapes: honest runs. C42_verifier: true claims force a permutation unless the challenge is unlucky (C40_few_unlucky bounds how many are)."
  },
  {
   "property": "C43",
   "status": "proved",
   "theorems": [
    "C43_prover",
    "C43_verifier"
   ],
   "note": "As C42, for the sum of two bags."
  },
  {
   "property": "C44",
   "status": "proved",
   "theorems": [
    "C44_prover",
    "C44_prover_with_advice",
    "C44_verifier",
    "C44_verifier_with_advice"
   ],
   "note": "With the prover's own multiplicities and with given ones."
  },
  {
   "property": "C45",
   "status": "proved",
   "theorems": [
    "C45_prover",
    "C45_verifier",
    "C45_few_clashes"
   ],
   "note": "The selectors of the bags are ignored by the code. The verifier's index column must be read with the bag's number of variables (index_over); the code's closure computes a different column over a larger cube."
  },
  {
   "property": "C46",
   "status": "proved",
   "theorems": [
    "C46_prover",
    "C46_verifier",
    "C46_distinct",
    "C46_integers",
    "C46_integers_refuted"
   ],
   "note": "Sortedness as integers is refuted without a bound that excludes wrap-around (C46_integers_refuted); it holds with one (C46_integers)."
  },
  {
   "property": "C47",
   "status": "proved",
   "theorems": [
    "C47_advice",
    "C47_verifier",
    "C47_prover",
    "C47_computed"
   ],
   "note": "C47_advice: the advice computation. C47_computed: a client that commits to that advice and proves it, up to the verdict. C47_prover: the honest prover and the verifier after any history. C47_verifier: true claims, unless the challenges are unlucky; the multiplicities must have no more variables than the support."
  },
  {
   "property": "C48",
   "status": "proved",
   "theorems": [
    "C48_advice",
    "C48_products",
    "C48_verifier",
    "C48_prover"
   ],
   "note": "C48_advice, C48_products: the advice, and that its claims are satisfied exactly by disjoint bags. C48_prover: the honest prover and the verifier after any history. C48_verifier: true claims."
  },
  {
   "property": "C49",
   "status": "proved",
   "theorems": [
    "C49_disjoint",
    "C49_union",
    "C49_difference",
    "C49_intersection",
    "C49_disjoint_prover",
    "C49_union_prover",
    "C49_difference_prover",
    "C49_intersection_prover",
    "C49_disjoint_refuted",
    "C49_difference_refuted",
    "C49_intersection_refuted"
   ],
   "note": "Union holds. Disjointness, difference and intersection are refuted (C49_*_refuted): the selector of the merged sets is never checked, so an element may be counted twice. C49_disjoint, C49_difference and C49_intersection hold under the check the code omits (boolean csl). C49_*_prover: honest provers and the verifier after any history."
  },
  {
   "property": "C50",
   "status": "proved",
   "theorems": [
    "C50_prover",
    "C50_rows",
    "C50_verifier",
    "C50_verifier_refuted",
    "C50_evaluates",
    "C50_alias"
   ],
   "note": "C50_prover and C50_rows: the prover's table. C50_verifier: the verifier's columns, when the right table has no more variables than the left one; refuted otherwise (C50_verifier_refuted: the commitment has no value). C50_evaluates: what the verifier evaluates at a point."
  },
  {
   "property": "C51",
   "status": "proved",
   "theorems": [
    "C51_folded",
    "C51_short",
    "C51_coefficients",
    "C51_no_coefficients",
    "C51_distinct_refuted",
    "C51_transform",
    "C51_transform_refuted",
    "C51_prover"
   ],
   "note": "The property is refuted (C51_distinct_refuted, C51_transform_refuted). C51_transform is what the claims do prove: equal products; C51_prover: both ways for the honest prover. C51_coefficients and C51_no_coefficients: where the coefficients come from."
  },
  {
   "property": "C52",
   "status": "proved",
   "theorems": [
    "C52_advice",
    "C52_partition",
    "C52_verifier",
    "C52_prover",
    "C52_marks"
   ],
   "note": "C52_advice, C52_partition: the advice. C52_verifier: true claims. C52_prover: the honest prover, with boolean marks. C52_marks: other marks are refused by the prover's debug check."
  },
  {
   "property": "C53",
   "status": "proved",
   "theorems": [
    "C53_alignment",
    "C53_moved",
    "C53_verifier",
    "C53_verifier_refuted",
    "C53_prover"
   ],
   "note": "C53_alignment, C53_moved: the advice. C53_verifier: true claims; that the row comes from the left table is refuted (C53_verifier_refuted) because of C51. C53_prover: the honest prover's result, which is the verifier's, and when it fails."
  },
  {
   "property": "C54",
   "status": "proved",
   "theorems": [
    "C54_verifier",
    "C54_sum_refuted",
    "C54_sum_verifier_refuted",
    "C54_supported",
    "C54_prover",
    "C54_smaller_refuted"
   ],
   "note": "Counts hold (C54_verifier, which also covers the sums' claims). Refuted for Sum: no column (C54_sum_refuted, C54_sum_verifier_refuted). C54_prover: the honest prover. C54_smaller_refuted: grouped columns with fewer variables than the input have no accepted honest proof."
  },
  {
   "property": "C55",
   "status": "proved",
   "theorems": [
    "C55_counts",
    "C55_short"
   ],
   "note": ""
  },
  {
   "property": "C56",
   "status": "proved",
   "theorems": [
    "C56_split",
    "C56_order_refuted",
    "C56_bags",
    "C56_intersection"
   ],
   "note": "Holds for ascending bags with the selected rows first (C56_split on tables, C56_bags on the tracker); refuted otherwise (C56_order_refuted). C56_intersection: split, then intersection."
  },
  {
   "property": "C57",
   "status": "proved",
   "theorems": [
    "C57_left_refuted",
    "C57_end_refuted",
    "C57_middle",
    "C57_bags_refuted"
   ],
   "note": "The property is refuted: C57_left_refuted (wrong value) and C57_end_refuted (panic), both for families of inputs; C57_bags_refuted on the tracker. C57_middle is what holds: the middle part and its multiplicities."
  },
  {
   "property": "C58",
   "status": "proved",
   "theorems": [
    "C58_prover",
    "C58_verifier",
    "C58_kept",
    "C58_columns",
    "C58_zero"
   ],
   "note": "C58_prover: plans of any length, both directions. C58_verifier: each step of a verifier's run is a call of a session, with the rest of the run after it, as the theorems Cxx_verifier ask; C58_kept, C58_columns, C58_zero: what its handles stand for."
  },
  {
   "property": "C59",
   "status": "proved",
   "theorems": [
    "C59_prover",
    "C59_verifier",
    "C59_mixed",
    "C59_equal",
    "C59_bags_equal",
    "C59_bags",
    "C59_bags_refuted",
    "C59_copies",
    "C59_verifier_copies",
    "C59_new",
    "C59_comms_refuted",
    "C59_comm_bags",
    "C59_claim_refuted"
   ],
   "note": "C59_prover and C59_verifier: a program runs iff every tracker runs its own calls, with the same answers and final states. C59_verifier is for trackers that are not copies of each other (copies share maps, C36). C59_mixed, C59_equal, C59_bags_equal, C59_comm_bags (two bag commitments are equal exactly when the trackers and the sizes agree), C59_bags (debug builds), C59_copies, C59_verifier_copies and C59_new as stated; C59_comms_refuted, C59_claim_refuted and C59_bags_refuted (release builds) are findings."
  },
  {
   "property": "C60",
   "status": "proved",
   "theorems": [
    "C60_sound",
    "C60_count"
   ],
   "note": "About verify_claims with one added comparison (CheckHist.v, last_check), not about the code as it is, which C34 refutes. True query results are a hypothesis (queries_true): that is what the batch opening is for, whose boolean the code drops too. The proof must announce at least as many variables as the committed polynomials have (valued). The claimed sums are part of the verifier's state before the challenges are drawn, which the code does not see to (C63). The prover of the code would have to change too: C64."
  },
  {
   "property": "C61",
   "status": "proved",
   "theorems": [
    "C61_permutation_refuted",
    "C61_permutation_verifier_refuted",
    "C61_range_refuted",
    "C61_range_verifier_refuted"
   ],
   "note": "Findings. What the two checks do establish about all rows is C45 and C46."
  },
  {
   "property": "C62",
   "status": "proved",
   "theorems": [
    "C62_sort_refuted",
    "C62_index_refuted"
   ],
   "note": "Findings, about claims that a session of any protocols holds, for every query map (answered). The positive part (a claim evaluates to its meaning) is used in C60, for points of the bag's size."
  },
  {
   "property": "C63",
   "status": "proved",
   "theorems": [
    "C63_commitments",
    "C63_transcript_refuted",
    "C63_sums_refuted"
   ],
   "note": "Commitments: proved for all sessions. Sums: findings. C60_count assumes that the sums are fixed before the challenges are drawn; this shows that the transcript does not see to it."
  },
  {
   "property": "C64",
   "status": "proved",
   "theorems": [
    "C64_end",
    "C64_multilinear",
    "C64_complete",
    "C64_degree",
    "C64_refuted"
   ],
   "note": "C64_end: where the sum-check ends, for all histories and both builds. C64_complete: release builds pass the comparison of C60 (a check that /repo lacks) when the claims are in all variables and the sums multilinear. C64_multilinear: when that is what the verifier combines. C64_refuted: otherwise it is not, and the comparison of C60 rejects an honest proof of a true claim. linear_calls in C64_end: the calls of the history itself (evaluations, increase of variables) do not replace a polynomial either."
  },
  {
   "property": "C65",
   "status": "proved",
   "theorems": [
    "C65_panics",
    "C65_empty",
    "C65_missing",
    "C65_accepts",
    "C65_unread"
   ],
   "note": "C65_panics is an equivalence; challenges at interpolation nodes, which panic too (C14), are excluded by hypothesis. C65_accepts gives what acceptance implies about the shape; the values are C33, C34 and C60. C65_unread needs no hypothesis on the oracle. Proofs that cannot be deserialized are outside the model."
  },
  {
   "property": "C66",
   "status": "proved",
   "theorems": [
    "C66_complete",
    "C66_false_claims_rejected",
    "C66_debug_prover_refuses",
    "C66_smaller_handles_refuted",
    "C66_larger_later_refuted",
    "C66_skipped_proof_refuted"
   ],
   "note": "A session is any number of rounds: the prover's calls, compile_proof, set_compiled_proof, the verifier's mirrored calls, verify_claims. C66_complete is the step from any accepted prefix to the next proof, so an induction over rounds is inside it. The three refutations are concrete honest runs. C66_false_claims_rejected and C66_debug_prover_refuses hold after any accepted rounds, whatever was claimed in them, and bound the exceptions for the challenges of the next proof; as in C33 the prover runs the code, so forged proofs (C34) are outside."
  },
  {
   "property": "C67",
   "status": "proved",
   "theorems": [
    "C67_boolean",
    "C67_no_zeros",
    "C67_bags_equal",
    "C67_bags_sum",
    "C67_included",
    "C67_permuted",
    "C67_sorted",
    "C67_supported",
    "C67_disjoint",
    "C67_sets_disjoint",
    "C67_union",
    "C67_difference",
    "C67_intersection",
    "C67_join",
    "C67_transform",
    "C67_final_join",
    "C67_group_by",
    "C67_weights"
   ],
   "note": "About the verifier with the added comparison of C60, with its hypotheses (true query results, sums fixed before the challenges of the check) and C40's count of unlucky challenges for the protocol's own challenges. All other challenges of the session are held fixed while these vary: the session is any function of the protocol's challenges. checkable includes that the closures compute the polynomials they are read as, at points with at most N coordinates; for the column of indices (C67_permuted, C67_sorted, C67_supported, C67_disjoint, C67_sets_disjoint, C67_union, C67_difference, C67_intersection, C67_join, C67_group_by) this means that it has all N variables of the session. C67_transform and C67_final_join speak of products of rows, which is all that the row aggregation keeps (C51)."
  }
 ]
}