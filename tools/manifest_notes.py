notes.update({
 "C01": "Default (parallel) build. The branch compiled without the feature is refuted by C01_nonparallel_branch_refuted.",
})
status.update({})
notes.update({
 "C14": "Challenges that hit a node 0..deg make the verifier panic on honest proofs, for every polynomial (C14_nodes_refuted, and one case in C14_complete_any_oracle_refuted); C14_error counts them.",
 "C16": "Totality is refuted (C16_total_refuted): every node panics.",
 "C20": "The verifier divides by eq(point, r): when that is zero it panics, which the theorem states. C20_nodes_refuted is the panic at the nodes, C20_error counts both.",
})
notes.update({
 "C25": "k = 1 is refused always (C25_single_refuted). Challenges 0, 1, 2 panic (C25_nodes_refuted, C25_error).",
 "C26": "The property as stated is refuted (C26_*_refuted); what holds is C26_values_iff, C26_values_count and C26_binding, the last under the check the verifier omits.",
})
notes.update({
 "C29": "The property as stated is refuted (C29_evaluations_refuted); it holds at boolean points (C29_boolean) and for polynomials whose products have one factor (C29_linear).",
 "C31": "Refuted for increase_nv_back unless it adds as many variables as the operand has (C31_back_refuted); C31_agree is the property for the histories without such a call.",
})
notes.update({
 "C32": "Histories in which both sides make the same calls, at least two commitments and one variable. No condition on the oracle: the proof is accepted when the challenges in it avoid the nodes of the interpolation, and the verifier panics when they do not. C32_error counts the challenge vectors for which that happens. It includes that the batch opening never has to be right: see C34.",
 "C33": "About the honest prover's compile_proof on a false history. For an arbitrary proof see C34, which is refuted.",
 "C34": "The property is refuted: for every set of claims there is an accepted proof with the same commitments and sums. C34_every_oracle_refuted has no condition on the oracle: the same proof is accepted whenever its two challenges avoid the interpolation nodes.",
 "C36": "Holds for the prover. Refuted for the verifier (C36_verifier_refuted: the Rc of virtual commitments is shared by deep_copy; C36_queries_refuted: so are the query results); C36_verifier_own_state says which parts are independent, C36_verifier_shared that all evaluations stay the same on both copies.",
 "C37": "The property is refuted: all query results of a compiled proof are zero (C37_all_zero), so they differ from the prover's values (C37_refuted). C37_read says how they reach the verifier's evaluations.",
})
notes.update({
 "C38": "C38_prover is about honest runs of the whole protocol (prove, compile, verify); C38_verifier about any call of the verifier, in a session of any calls before and after it (SessHist), and any commitments under which the claims of the session are true. Deriving the truth of the claims from acceptance is C34, which is refuted.",
 "C39": "As C38.",
 "C40": "Histories with at least two commitments; the prover's degree bound and key size appear as hypotheses (setting).",
 "C41": "At the level of true claims: see C34 for why acceptance alone proves nothing.",
 "C42": "C42_prover, C42_shapes: honest runs. C42_verifier: true claims force a permutation unless the challenge is unlucky (C40_few_unlucky bounds how many are).",
 "C43": "As C42, for the sum of two bags.",
 "C44": "With the prover's own multiplicities and with given ones.",
 "C45": "The selectors of the bags are ignored by the code. The verifier's index column must be read with the bag's number of variables (index_over); the code's closure computes a different column over a larger cube.",
 "C46": "Sortedness as integers is refuted without a bound that excludes wrap-around (C46_integers_refuted); it holds with one (C46_integers).",
})
notes.update({
 "C47": "C47_advice: the advice computation. C47_computed: a client that commits to that advice and proves it, up to the verdict. C47_prover: the honest prover and the verifier after any history. C47_verifier: true claims, unless the challenges are unlucky; the multiplicities must have no more variables than the support.",
 "C48": "C48_advice, C48_products: the advice, and that its claims are satisfied exactly by disjoint bags. C48_prover: the honest prover and the verifier after any history. C48_verifier: true claims.",
 "C49": "Union holds. Disjointness, difference and intersection are refuted (C49_*_refuted): the selector of the merged sets is never checked, so an element may be counted twice. C49_disjoint, C49_difference and C49_intersection hold under the check the code omits (boolean csl). C49_*_prover: honest provers and the verifier after any history.",
 "C51": "The property is refuted (C51_distinct_refuted, C51_transform_refuted). C51_transform is what the claims do prove: equal products; C51_prover: both ways for the honest prover. C51_coefficients and C51_no_coefficients: where the coefficients come from.",
 "C52": "C52_advice, C52_partition: the advice. C52_verifier: true claims. C52_prover: the honest prover, with boolean marks. C52_marks: other marks are refused by the prover's debug check.",
 "C53": "C53_alignment, C53_moved: the advice. C53_verifier: true claims; that the row comes from the left table is refuted (C53_verifier_refuted) because of C51. C53_prover: the honest prover's result, which is the verifier's, and when it fails.",
 "C54": "Counts hold (C54_verifier, which also covers the sums' claims). Refuted for Sum: no column (C54_sum_refuted, C54_sum_verifier_refuted). C54_prover: the honest prover. C54_smaller_refuted: grouped columns with fewer variables than the input have no accepted honest proof.",
 "C56": "Holds for ascending bags with the selected rows first (C56_split on tables, C56_bags on the tracker); refuted otherwise (C56_order_refuted). C56_intersection: split, then intersection.",
 "C57": "The property is refuted: C57_left_refuted (wrong value) and C57_end_refuted (panic), both for families of inputs; C57_bags_refuted on the tracker. C57_middle is what holds: the middle part and its multiplicities.",
})
notes.update({
 "C50": "C50_prover and C50_rows: the prover's table. C50_verifier: the verifier's columns, when the right table has no more variables than the left one; refuted otherwise (C50_verifier_refuted: the commitment has no value). C50_evaluates: what the verifier evaluates at a point.",
})
notes.update({
 "C58": "C58_prover: plans of any length, both directions. C58_verifier: each step of a verifier's run is a call of a session, with the rest of the run after it, as the theorems Cxx_verifier ask; C58_kept, C58_columns, C58_zero: what its handles stand for.",
})
notes.update({
 "C59": "C59_prover and C59_verifier: a program runs iff every tracker runs its own calls, with the same answers and final states. C59_verifier is for trackers that are not copies of each other (copies share maps, C36). C59_mixed, C59_equal, C59_bags_equal, C59_comm_bags (two bag commitments are equal exactly when the trackers and the sizes agree), C59_bags (debug builds), C59_copies, C59_verifier_copies and C59_new as stated; C59_comms_refuted, C59_claim_refuted and C59_bags_refuted (release builds) are findings.",
 "C60": "About verify_claims with one added comparison (CheckHist.v, last_check), not about the code as it is, which C34 refutes. True query results are a hypothesis (queries_true): that is what the batch opening is for, whose boolean the code drops too. The proof must announce at least as many variables as the committed polynomials have (valued). The claimed sums are part of the verifier's state before the challenges are drawn, which the code does not see to (C63). The prover of the code would have to change too: C64.",
 "C61": "Findings. What the two checks do establish about all rows is C45 and C46.",
 "C62": "Findings, about claims that a session of any protocols holds, for every query map (answered). The positive part (a claim evaluates to its meaning) is used in C60, for points of the bag's size.",
 "C63": "Commitments: proved for all sessions. Sums: findings. C60_count assumes that the sums are fixed before the challenges are drawn; this shows that the transcript does not see to it.",
 "C64": "C64_end: where the sum-check ends, for all histories and both builds. C64_complete: release builds pass the comparison of C60 (a check that /repo lacks) when the claims are in all variables and the sums multilinear. C64_multilinear: when that is what the verifier combines. C64_refuted: otherwise it is not, and the comparison of C60 rejects an honest proof of a true claim. linear_calls in C64_end: the calls of the history itself (evaluations, increase of variables) do not replace a polynomial either.",
 "C66": "A session is any number of rounds: the prover's calls, compile_proof, set_compiled_proof, the verifier's mirrored calls, verify_claims. C66_complete is the step from any accepted prefix to the next proof, so an induction over rounds is inside it. The three refutations are concrete honest runs. C66_false_claims_rejected and C66_debug_prover_refuses hold after any accepted rounds, whatever was claimed in them, and bound the exceptions for the challenges of the next proof; as in C33 the prover runs the code, so forged proofs (C34) are outside.",
 "C65": "C65_panics is an equivalence; challenges at interpolation nodes, which panic too (C14), are excluded by hypothesis. C65_accepts gives what acceptance implies about the shape; the values are C33, C34 and C60. C65_unread needs no hypothesis on the oracle. Proofs that cannot be deserialized are outside the model.",
 "C67": "About the verifier with the added comparison of C60, with its hypotheses (true query results, sums fixed before the challenges of the check) and C40's count of unlucky challenges for the protocol's own challenges. All other challenges of the session are held fixed while these vary: the session is any function of the protocol's challenges. checkable includes that the closures compute the polynomials they are read as, at points with at most N coordinates; for the column of indices (C67_permuted, C67_sorted, C67_supported, C67_disjoint, C67_sets_disjoint, C67_union, C67_difference, C67_intersection, C67_join, C67_group_by) this means that it has all N variables of the session. C67_transform and C67_final_join speak of products of rows, which is all that the row aggregation keeps (C51).",
})
