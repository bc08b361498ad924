#!/usr/bin/env python3
"""Writes /verif/properties.jsonl (one JSON object per line)."""
import json, os
P = []
def p(id, title, statement, quantifier, why, anchors):
    P.append(dict(id=id, title=title, statement=statement, quantifier=quantifier,
                  why_tests_cant=why, anchors=anchors))
MP="src/arithmetic/multilinear_polynomial.rs"; VP="src/arithmetic/virtual_polynomial.rs"; UT="src/arithmetic/util.rs"
TR="src/transcript/mod.rs"; SCM="src/subroutines/poly_iop/sum_check/mod.rs"; SCP="src/subroutines/poly_iop/sum_check/prover.rs"
SCV="src/subroutines/poly_iop/sum_check/verifier.rs"; ZC="src/subroutines/poly_iop/zero_check/mod.rs"
KZ="src/subroutines/pcs/multilinear_kzg/mod.rs"; KB="src/subroutines/pcs/multilinear_kzg/batching.rs"; KS="src/subroutines/pcs/multilinear_kzg/srs.rs"; KU="src/subroutines/pcs/multilinear_kzg/util.rs"
PT="src/tracker/prover_tracker.rs"; VT="src/tracker/verifier_tracker.rs"; PW="src/tracker/prover_wrapper.rs"; VW="src/tracker/verifier_wrapper.rs"; DU="src/tracker/dmle_utils.rs"; TS="src/tracker/tracker_structs.rs"
Z="src/zksql_poly_iop/"
tests_field="tests draw a handful of random field elements and sizes; the claim ranges over every size and every field element of a field with ~2^255 elements"

p("C01","Partial and full evaluation of a multilinear extension",
 "For every dense multilinear polynomial f in n variables and every point r of length m<=n, fix_variables(f,r) is the polynomial in n-m variables that agrees with f on r ++ x for every x; evaluate_opt(f,x) is the textbook multilinear extension sum_b f(b)*eq(b,x); a point that is too long (or, for evaluate_opt, of the wrong length) panics.",
 "all primes, all n, all evaluation tables of length 2^n, all points", tests_field, [MP+": fix_variables, evaluate_opt, fix_one_variable_helper"])
p("C02","The in-place evaluator agrees with the allocating one",
 "evaluate_no_par, which overwrites its buffer while still reading from it, returns the same value as evaluate_opt for every polynomial and point (no entry is clobbered before it is read).",
 "all primes, n, tables, points", tests_field, [MP+": evaluate_no_par, fix_variables_no_par"])
p("C03","Fixing the last variables",
 "fix_last_variables(f,r) agrees with f on x ++ r for every x; the non-parallel variant returns the same polynomial whenever r is non-empty, and panics on the empty point, where the parallel one returns f unchanged.",
 "all primes, n, tables, partial points", tests_field, [MP+": fix_last_variables, fix_last_variables_no_par, fix_last_variable_helper"])
p("C04","Merging polynomials loses nothing",
 "For a non-empty list of polynomials with the same number of variables, merge_polynomials succeeds and the merged polynomial evaluated at gen_eval_point(i, log2 k, x) equals the i-th polynomial at x; the padding evaluates to zero on every unused index; different numbers of variables give an error and an empty list panics.",
 "all primes, list lengths (including non powers of two), tables, indices, points", tests_field, [MP+": merge_polynomials", UT+": gen_eval_point, get_batched_nv"])
p("C05","The eq polynomial",
 "build_eq_x_r_vec(r) lists eq(b,r) for all b in index order; its multilinear extension at x equals eq_eval(x,r)=prod(x_i r_i+(1-x_i)(1-r_i)); on boolean points eq_eval is the equality indicator; it is symmetric; an empty r is an error and different lengths are an error.",
 "all primes, all lengths, all vectors", tests_field, [VP+": build_eq_x_r_vec, build_eq_x_r_helper, eq_eval, build_eq_x_r", DU+": eq_eval, build_eq_x_r", KU+": eq_eval, eq_extension"])
p("C06","Little-endian bit encodings",
 "project(bit_decompose(i,n)) = i mod 2^n for every i and n, bit_decompose(project(b)) = b, and get_index(i,n) returns the two indices obtained by shifting i left by one inside n bits with 0/1 in the lowest position, together with the top bit of i; get_index panics for n=0.",
 "all naturals i and widths n", "u64 inputs cannot be enumerated", [UT+": bit_decompose, project, get_index", DU+": bit_decompose"])
p("C07","Adding dummy variables does not change the polynomial",
 "dmle_increase_nv_front(f,m) evaluated at y ++ x is f(x) and dmle_increase_nv_back(f,m) evaluated at x ++ y is f(x), for every y; the sum over the hypercube is multiplied by 2^(m-n) in both cases; a smaller m panics; equal m returns f.",
 "all primes, n<=m, tables, points", tests_field, [DU+": dmle_increase_nv_front, dmle_increase_nv_back"])
p("C08","Virtual polynomial algebra",
 "After any sequence of builder calls (new, new_from_mle, add_mle_list, mul_by_mle, +, build_f_hat), with arbitrary sharing of Arc pointers, evaluate(x) equals the value at x of the corresponding polynomial expression, and materialize() has that expression's values on the boolean hypercube; a point of the wrong length is an error.",
 "all primes, all builder histories, all pointer aliasing patterns that are consistent with memory, all points", "histories and aliasing patterns are unbounded", [VP+": VirtualPolynomial::{add_mle_list, mul_by_mle, evaluate, materialize, build_f_hat, add}"])
p("C09","A rejected product leaves the virtual polynomial untouched",
 "If add_mle_list returns an error the virtual polynomial is unchanged. (Observable value via evaluate is indeed unchanged; the recorded degree and the stored extensions are not, so the full claim is refuted.)",
 "all virtual polynomials and argument lists", "failure atomicity is a property of every failing input", [VP+": add_mle_list"])
p("C10","The recorded degree bounds every product",
 "After any sequence of successful or failing builder calls max_degree is at least the number of factors of every product, every index stored in a product points to a stored extension and every stored extension has num_variables variables. When no call was rejected and only polynomials with terms were multiplied, max_degree is exactly the number of factors of the longest product.",
 "all builder histories", "histories are unbounded", [VP+": add_mle_list, mul_by_mle, new_from_mle"])
p("C11","Random batching of a zero check",
 "Summed over the hypercube, f*eq(.,r) (build_f_hat) equals the multilinear extension of f's hypercube values at r. Hence the sum is zero for every r when f vanishes on the hypercube, and is zero for at most n*p^(n-1) of the p^n choices of r when f does not.",
 "all primes, n, virtual polynomials f, r", "the counting claim ranges over all r in F^n", [VP+": build_f_hat", ZC+": prove, verify"])
p("C12","Test generators are honest for every random stream",
 "random_mle_list and VirtualPolynomial::rand return the true hypercube sum; random_zero_mle_list and rand_zero give polynomials that vanish on the hypercube (degree >= 1); random_permutation returns a permutation of 0..len-1 for every rng output stream; identity_permutation_mles splits the identity into chunks.",
 "all rng streams, sizes, degrees", "rng streams are infinite objects", [MP+": random_mle_list, random_zero_mle_list, random_permutation, identity_permutation_mles", VP+": rand, rand_zero"])
p("C13","Transcript determinism and non-emptiness",
 "Challenges are a function of the ordered history of appended messages only: two transcripts with equal histories yield equal challenges and stay equal; every drawn challenge is itself absorbed; drawing from an empty transcript is an error and leaves it unchanged; a vector of challenges is the sequence of single draws.",
 "all histories, labels, lengths and all challenge oracles", "histories are unbounded and the hash is arbitrary", [TR+": IOPTranscript::{append_message, get_and_append_challenge, get_and_append_challenge_vectors}"])
p("C14","Sum-check completeness",
 "For every virtual polynomial with at least one variable and one product, and for every challenge oracle whose challenges avoid the interpolation nodes 0..deg, the proof made by SumCheck::prove is accepted by SumCheck::verify with the true hypercube sum, and the returned subclaim is (proof.point, poly.evaluate(proof.point)); prover and verifier transcripts end equal. If a challenge is one of those nodes the verifier panics instead; this happens for at most n(deg+1)/p of the challenge vectors.",
 "all primes p>deg, all virtual polynomials, all transcript states and challenge oracles", "a test covers one random polynomial and one oracle", [SCM+": prove, verify, extract_sum", SCP+": prove_round_and_update_state", SCV+": verify_round_and_update_state, check_and_generate_subclaim"])
p("C15","Round messages do not depend on the parallel schedule",
 "Each round message equals, at t=0..deg, the sum over the remaining hypercube of the polynomial with the already drawn challenges and t substituted; this is so for every way rayon may split and recombine the index range.",
 "all primes, polynomials, rounds, challenge prefixes and all fork/join trees over the index range", "schedules cannot be enumerated by tests", [SCP+": prove_round_and_update_state, extrapolate, barycentric_weights"])
p("C16","Univariate interpolation in the verifier",
 "interpolate_uni_poly(evals, x) is the value at x of the unique polynomial of degree < len through (i, evals[i]), in each of its three arithmetic branches, whose machine-integer products never overflow; this holds for every x outside 0..len-1 and, in the code as written, x inside 0..len-1 panics (so totality is refuted).",
 "all primes p>=len, all lengths, all values, all x", "overflow and division by zero depend on every length/point", [SCV+": interpolate_uni_poly, field_factorial, u64_factorial, u128_factorial"])
p("C17","Sum-check soundness",
 "If the verifier accepts a claimed sum, and the returned expected evaluation is the polynomial's value at the returned point, then either the claimed sum is the true sum or, in some round, the drawn challenge is one of at most deg roots of a non-zero difference polynomial. Against any prover strategy at most n*deg*p^(n-1) of the p^n challenge vectors make the verifier accept a false sum.",
 "all primes, polynomials, prover strategies (functions of the challenge prefix), challenge vectors", "quantifies over all adversarial strategies", [SCV+": check_and_generate_subclaim, verify_round_and_update_state"])
p("C18","Malformed sum-check proofs",
 "A message with the wrong number of evaluations is rejected with an error; a missing message panics; surplus messages are ignored; polynomials with zero variables are never provable nor verifiable; a proof for max_degree 0 makes the verifier panic.",
 "all proofs, aux infos and oracles", "proof objects come from an adversary", [SCM+": verify", SCV+": check_and_generate_subclaim", SCP+": prover_init"])
p("C19","Interactive prover/verifier round discipline",
 "The interactive prover rejects a challenge before its first message, a missing challenge afterwards and any round past num_variables; the interactive verifier finishes exactly after num_variables rounds, rejects further rounds, and produces no subclaim earlier.",
 "all call sequences", "call sequences are unbounded", [SCP+": prove_round_and_update_state", SCV+": verify_round_and_update_state, check_and_generate_subclaim"])
p("C20","Zero-check completeness",
 "If f vanishes on the hypercube then ZeroCheck::verify accepts ZeroCheck::prove's proof for every oracle that avoids the interpolation nodes and the zeros of eq(.,r), and returns (point, f(point)); at a node it panics, and at most n(deg+3)/p of the challenge vectors are lost.",
 "all primes, polynomials, oracles", tests_field, [ZC+": prove, verify"])
p("C21","Zero-check soundness",
 "If f is non-zero somewhere on the hypercube then, against any prover strategy, at most (n + n*(deg+1)) * p^(2n-1) of the p^(2n) choices of the batching vector and of the sum-check challenges let ZeroCheck::verify accept with a correct final evaluation.",
 "all primes, polynomials, prover strategies, challenge vectors", "adversarial strategies", [ZC+": verify"])
p("C22","KZG opening completeness",
 "For every trapdoor and generators, every polynomial f with at most as many variables as the parameters and every point of matching length, open returns the value f(point) and verify accepts (commit f, point, value, proof).",
 "all pairings, trapdoors, polynomials, points", "group elements cannot be enumerated", [KZ+": commit, open_internal, verify_internal", KS+": gen_srs_for_testing"])
p("C23","KZG commitments are evaluations at the trapdoor",
 "commit(f) is g raised to f(t) for the matching suffix t of the trapdoor; commitment is additively homomorphic; a fixed proof and point verify for at most one value; verification of an honest opening against any other value returns false.",
 "all pairings, trapdoors, polynomials, points, values", tests_field, [KZ+": commit, verify_internal", KS+": gen_srs_for_testing"])
p("C24","Trimming parameters",
 "trim succeeds exactly for sizes up to the SRS's own; commitments, openings and verification under trimmed parameters are those of an SRS generated for the smaller size with the suffix of the trapdoor.",
 "all SRS sizes, trim sizes", "sizes are unbounded", [KS+": trim, extract_prover_param, extract_verifier_param", KZ+": trim"])
p("C25","Batch opening completeness",
 "For k>=2 polynomials of the same number of variables at arbitrary points with their true values, multi_open succeeds and batch_verify returns true, unless a challenge of the rounds is 0, 1 or 2: then it panics, for at most 3n/p of the challenge vectors. (For k=1 the call always fails: refuted part.)",
 "all pairings, trapdoors, k, polynomials, points (with repetitions), challenge oracles", "k, points and oracles are unbounded", [KB+": multi_open_internal, batch_verify_internal"])
p("C26","Batch verification binds the opened values",
 "batch_verify returns true only if the opened values are the polynomials' values at the points, up to exceptional challenges. Refuted: the evaluation point of the final opening is read from the proof and not compared with the sum-check challenges, so false values can be accepted.",
 "all proofs, oracles", "adversarial proofs", [KB+": batch_verify_internal"])
p("C27","Tracker ids are fresh and stable",
 "In every history of prover-tracker calls, a newly returned id differs from all earlier ones, every id is either materialized or virtual but not both, virtual polynomials refer only to materialized ids, and no call changes the hypercube values of an already tracked polynomial.",
 "all histories of tracker calls", "histories are unbounded", [PT+": gen_id, track_mat_poly, add_sub_polys, mul_polys, add_scalar, mul_scalar, increase_nv_front, increase_nv_back, materialize_poly"])
p("C28","Tracked polynomial arithmetic",
 "evaluate on the result of add_poly, sub_poly, mul_poly, add_scalar, mul_scalar, increase_nv_front/back equals the corresponding operation on the operands' values at every point, in every state reachable by tracker calls; unknown ids panic.",
 "all reachable tracker states, ids, points, scalars", "histories are unbounded", [PT+": evaluate, add_sub_polys, mul_polys, add_scalar, mul_scalar", PW+": TrackedPoly"])
p("C29","Reading the evaluations of a tracked polynomial has no effect",
 "Calling evaluations() on a tracked polynomial does not change what evaluate() returns afterwards. Holds at boolean points and for polynomials whose products are single factors; refuted in general: the call replaces the virtual polynomial by its multilinear extension.",
 "all reachable tracker states, ids, points", "needs a non-multilinear polynomial, a non-boolean point and a specific call order", [PT+": materialize_poly, evaluations, evaluate"])
p("C30","Prover and verifier stay in lockstep",
 "For every program of tracker operations run on both sides (the verifier receiving the prover's commitments), the ids handed out, the appended transcript messages and the challenges agree at every step.",
 "all programs and oracles", "programs are unbounded", [PT+": gen_id", VT+": gen_id, track_mat_comm, add_scalar", VW+": transfer_prover_comm"])
p("C31","Virtual commitments evaluate like the prover's polynomials",
 "For every such program, if the verifier's query map holds the prover's values of the committed polynomials, then eval_virtual_comm agrees with the prover's evaluate on every tracked id. Refuted for increase_nv_back, whose closure keeps added_nv coordinates instead of dropping them.",
 "all programs, points", "programs are unbounded", [VT+": add_comms, sub_comms, mul_comms, add_scalar, mul_scalar, increase_nv_front, increase_nv_back, eval_virtual_comm"])
p("C32","End-to-end completeness of compiled proofs",
 "If all zero-check claims are true then compile_proof succeeds and verify_claims accepts it, for every lockstep history with at least two committed polynomials and every challenge oracle, exactly when the challenges recorded in the proof avoid the interpolation nodes; otherwise verify_claims panics, which at most n(D+5)/p of the challenge vectors lead to.",
 "all histories, oracles", "whole-protocol runs are unbounded", [PT+": compile_proof, convert_zerocheck_claims_to_sumcheck_claim", VT+": verify_claims"])
p("C33","False claims of an honest prover are caught",
 "If the honest prover compiles a proof although some zero-check claim is false or the verifier holds a different claimed sum, verification fails except for exceptional batching challenges.",
 "all histories, oracles", "exceptional challenges are a measure-zero set that tests cannot characterise", [PT+": compile_proof", VT+": verify_claims"])
p("C34","verify_claims is sound",
 "verify_claims accepts only if the recorded claims hold of the committed polynomials. Refuted universally: for every verifier history with at least two commitments, whatever its claims, there is a proof that verify_claims accepts, because neither the final sum-check evaluation nor the boolean result of the batch opening is checked.",
 "all verifier states, claims, oracles, proofs", "adversarial proofs", [VT+": verify_claims"])
p("C35","Equalising the number of variables",
 "Before compiling, every materialized polynomial is extended to the maximum number of variables: zero-check claims keep their truth value, sums of claims are multiplied by 2^(N-n), and every recorded sum is replaced by the true sum of the extended polynomial.",
 "all reachable tracker states", "histories are unbounded", [PT+": equalize_materialized_poly_nv"])
p("C36","Deep copies are independent",
 "After deep_copy, operations on one copy are not observable through the other. Holds for the prover tracker; refuted for the verifier tracker, whose copies share the maps of virtual commitments and query results.",
 "all interleavings of operations on the two copies", "interleavings are unbounded", [PW+": deep_copy", VW+": deep_copy"])
p("C37","The compiled proof carries the evaluations",
 "query_map of a compiled proof maps (id, point) to the committed polynomial's value at the sum-check point. Refuted: every stored value is zero. A verifier that takes over the query results of a proof reads its entries where it has them and what it read before elsewhere.",
 "all histories", "whole-protocol runs are unbounded", [PT+": compile_proof", VT+": transfer_proof_poly_evals"])
p("C38","Selector validity",
 "The claims produced by SelectorValidIOP hold iff every value of the selector is 0 or 1, on the prover's and on the verifier's side alike.",
 "all selectors", tests_field, [Z+"selector_valid/selector_valid.rs"])
p("C39","No-zeros check",
 "With the prover's own inverse advice the BagNoZerosIOP claim holds iff no selected element is zero, and for any other committed advice it can hold only if no selected element is zero.",
 "all bags, selectors, advices", "adversarial advice", [Z+"bag_no_zeros/mod.rs"])
p("C40","Multiset tool completeness",
 "If the weighted multisets on the two sides of BagMultitoolIOP agree and the challenge gamma is not one of the bag elements, the prover returns Ok, all its zero-check claims hold, and the verifier's comparison of (rescaled) sums succeeds, even when the bags have different sizes.",
 "all bags, weights, selectors, gamma", tests_field, [Z+"bag_multitool/bag_multitool.rs"])
p("C41","Multiset tool soundness",
 "For committed helper polynomials that satisfy the zero-check claims, if the verifier's sums agree for more than (total size) choices of gamma, then for every value the total weight on the left equals the total weight on the right as field elements; selected elements equal to gamma make the claims fail.",
 "all bags, weights, selectors, sets of gammas", "adversarial helpers, counting over gammas", [Z+"bag_multitool/bag_multitool.rs"])
p("C42","Bag equality",
 "Specialised to weight one and bags smaller than the characteristic, acceptance of BagEqIOP for enough gammas forces the two selected bags to be permutations of each other, and permutations are always accepted; bags with different numbers of variables are an error for the prover.",
 "all bags and selectors", "adversarial", [Z+"bag_eq/bag_eq.rs"])
p("C43","Bag sum",
 "BagSumIOP's check is complete and sound for `the third bag is the multiset sum of the first two`.",
 "all bags and selectors", "adversarial", [Z+"bag_sum/bag_sum.rs"])
p("C44","Bag inclusion and its multiplicity advice",
 "The advice of calc_bag_inclusion_advice makes the check succeed iff every selected element of the included bag occurs selected in the super bag; any advice for which the check succeeds (for enough gammas) proves that inclusion, for bags smaller than the characteristic.",
 "all bags, selectors, advices", "adversarial advice", [Z+"bag_inclusion/bag_inclusion.rs", Z+"bag_inclusion/utils.rs: calc_bag_inclusion_advice_from_mle"])
p("C45","Prescribed permutation",
 "BagPrescPermIOP's checks hold for an honest permutation; conversely, when they hold for enough gammas, the second bag is the first one permuted by exactly the prescribed index vector.",
 "all bags, index vectors", "adversarial", [Z+"bag_presc_perm/bag_presc_perm.rs"])
p("C46","Strictly sorted bags",
 "When the claims of BagStrictSortIOP hold with a range bag of values 0..B and n*B < p, selected elements are pairwise distinct and every step is an increment by an element of the range, strictly positive at selected positions; if moreover nothing wraps the bag is sorted as integers. (Sortedness as integers is refuted without the no-wrap condition.)",
 "all bags, selectors, ranges", "adversarial", [Z+"bag_sort/bag_sort.rs"])
p("C47","Support of a bag",
 "calc_bag_supp_advice returns strictly increasing distinct selected values, padded in front, whose multiplicities are the occurrence counts, and whose values are exactly the selected values of the bag; BagSuppIOP's claims force the committed support to have exactly the values of the bag, each once.",
 "all bags and boolean selectors; all committed advices", "adversarial advice", [Z+"bag_supp/bag_supp.rs", Z+"bag_supp/utils.rs: calc_bag_supp_advice"])
p("C48","Bag disjointness",
 "calc_bag_disjoint_advice yields satisfiable claims iff the two bags share no selected value; any satisfying advice proves disjointness.",
 "all bags and selectors", "adversarial advice", [Z+"bag_disjoint/bag_disjoint.rs", Z+"bag_disjoint/utils.rs"])
p("C49","Set disjointness, union, difference and intersection",
 "The claims composed by SetDisjointIOP, SetUnionIOP, SetDifferenceIOP and SetIntersectionIOP imply the corresponding relation between the value sets of the selected elements. Holds for the union; refuted for the other three, because the selector of the merged bag is committed by the prover and never checked to be boolean; they hold when it is.",
 "all bags and selectors", "adversarial", [Z+"set_disjoint/set_disjoint.rs", Z+"set_union/set_union.rs", Z+"set_diff/set_diff.rs", Z+"set_intersect/set_intersect.rs"])
p("C50","Cross product",
 "The prover's cross product table holds, for row i of A and row j of B, exactly one row, made of both and selected iff both are; nothing is committed or claimed; the verifier's call returns the same ids, read as the same columns. Refuted for the verifier when B has more variables than A.",
 "all tables", "tests use equal sizes", [Z+"cross_product/cross_product.rs", Z+"cross_product/utils.rs"])
p("C51","Row aggregation distinguishes rows",
 "Two different rows aggregate to different values except for few choices of the coefficients. Refuted: the aggregation multiplies the scaled columns, so rows that are permutations of each other collide for every choice. The prover and the verifier fold with the same coefficients, as many as there are columns, drawn from the transcript they share; without a transcript both fail.",
 "all tables, coefficient vectors", "needs colliding rows", [Z+"index_transform/utils.rs: table_row_prover_agg, table_row_verifier_agg", Z+"index_transform/index_transform.rs"])
p("C52","Join reduction selectors",
 "calc_join_reduction_lr_sel_advice marks exactly the rows whose key does not occur among the selected keys of the other table, so the reduced tables partition the inputs and the kept parts have equal key sets.",
 "all tables and selectors", "all inputs", [Z+"join_reduction/utils.rs", Z+"join_reduction/join_reduction.rs"])
p("C53","One-to-many join alignment",
 "When calc_final_join_one_to_many_index_transform succeeds, the transformed left key equals the right key at every selected row of the right table and is the key of a selected left row; it fails exactly when some selected right key is missing on the left.",
 "all tables and selectors", "all inputs", [Z+"final_join_one_to_many/utils.rs", Z+"final_join_one_to_many/final_join_one_to_many.rs"])
p("C54","Group by",
 "For one grouping column, the result table of GroupByIOP has one selected row per distinct selected key and the Count column holds its number of occurrences; every requested aggregate has a column. Refuted for Sum: no column is produced.",
 "all tables, instructions", "all inputs", [Z+"group_by/group_by.rs"])
p("C55","Multiplicity counting",
 "vec_multiplicity_count maps exactly the values with a non-zero selector to their number of occurrences.",
 "all value and selector vectors", "all inputs", [Z+"util/multiplicity_count.rs"])
p("C56","Left/middle/right split of two bags",
 "bag_lmr_split returns left, middle and right bags with A = L + M and B = M + R as multisets with L, R disjoint. Holds for inputs that are already sorted with selected elements first; refuted for unsorted inputs. The call commits the parts and makes no claim. For sets, set_lmr_split gives the intersection as the middle part, and SetIntersectIOP run with the parts is accepted if the steps of the merged outer parts are in the range.",
 "all bags and selectors", "sortedness of the inputs is never varied in tests", [Z+"util/intermed_bag_calc.rs: bag_lmr_split, set_lmr_split"])
p("C57","Left/middle/right split with multiplicities",
 "bag_lmr_multiplicity_split returns the distinct values with their multiplicities. Refuted: it records the following value instead of the counted one and reads past the end of its input.",
 "all bags and selectors", "all inputs", [Z+"util/intermed_bag_calc.rs: bag_lmr_multiplicity_split"])
p("C58","Composition of protocols in one proof",
 "A client may run any sequence of tracker calls and protocols over one prover tracker, feeding the handles that a call returns (new columns, the table of a join or of a grouping) to later calls, and compile one proof. The honest prover finishes, and a verifier that makes the corresponding calls accepts exactly if the claims of all steps are true, except for challenges that cannot be answered or that hide a difference. Conversely every call of a verifier's run is made in a session, so what acceptance means for a single protocol also holds for each step of the sequence.",
 "all finite sequences of 34 kinds of calls, with later calls chosen from the handles returned by earlier ones, all tables", "each test runs one protocol on fresh trackers; interference between protocols (ids, transcript, shared claims) is never exercised",
 [PW+": ProverTrackerRef, TrackedPoly", VW+": VerifierTrackerRef, TrackedComm", Z+" (all protocols)"])
p("C59","Programs with several trackers",
 "A program may hold several prover and verifier trackers. A call made through a handle or a reference reads and changes only the tracker it belongs to: every tracker ends as if it had run its own calls alone, with the same answers. Arithmetic on handles of different trackers is refused. Two handles compare equal only if they stand for the same polynomial (refuted for the verifier: all commitments of a tracker compare equal, so bags of one size and tables of one shape do). Bags and tables built from handles compare equal only if their parts do, and hold columns of one tracker and one size (refuted for release builds, which check neither). A copy of a prover tracker starts from the state of the original and the two are independent afterwards; a new tracker starts empty. A claim is about the polynomial of the handle it was made with (refuted: claims take bare ids, and an id of another tracker is accepted).",
 "all numbers of trackers, all interleavings of calls, all handles including ones kept from other trackers", "tests use one tracker per side, and one two-tracker test of same_tracker; interleavings and stale handles are unbounded",
 [PW+": TrackedPoly::assert_same_tracker, PartialEq for TrackedPoly, add_zerocheck_claim", VW+": TrackedComm::assert_same_tracker, PartialEq for TrackedComm", "src/tracker/bag.rs: Bag, BagComm, Table, TableComm"])
p("C60","One comparison would make the verifier sound",
 "verify_claims never compares the value at which the sum-check ends with the value of the combined claims at that point (C34). If it did, and the query results given to it were the true values of the committed polynomials, then for any session of any protocols, acceptance would mean that all claims hold, except for few challenges: against any strategy that computes its messages and query results from the challenges it has seen, false claims pass for at most a fraction of (N + 2 + N * max(degree of the messages, D + 1)) / p of the challenge vectors, where N is the number of variables and D the largest number of factors in a claim.",
 "all verifier states that sessions reach, all claims, all prover strategies, all challenge vectors, all primes", "a statement about all cheating provers and the fraction of challenges that save them",
 [VT+": verify_claims, eval_virtual_comm"])
p("C61","Which rows the checks with selectors are about",
 "A bag is a column with a selector, and a check on bags is about the selected rows. Refuted for two protocols: the prescribed permutation of two bags and the range of the strict sort check ignore the selectors they are given, on both sides. Bags whose selected rows differ are accepted, and bags whose selected rows agree are refused.",
 "all bags, all selectors, all tracker states", "tests select all rows", [Z+"bag_presc_perm/bag_presc_perm.rs: BagPrescPermIOP", Z+"bag_sort/bag_sort.rs: BagStrictSortIOP", "src/tracker/bag.rs: Bag"])
p("C62","The verifier can evaluate its claims",
 "Whatever query results a verifier holds, each of its claims has a value at the point where the sum-check ends, computed by its closures, and the closures compute the prover's polynomials. Refuted: when the proof has more variables than the bag, the closures of the strict sort check panic there and the closure for the column of row numbers computes another polynomial. (The closures are never called, C34.)",
 "all verifier states that sessions reach, all bags smaller than the largest one, all points and query results", "tests use polynomials of one size and never reach these closures", [VT+": eval_virtual_comm, verify_claims", Z+"bag_sort/bag_sort.rs: BagStrictSortIOP::verify", Z+"bag_presc_perm/bag_presc_perm.rs: BagPrescPermIOP::verify"])
p("C63","What the prover sends is fixed before the challenges that test it",
 "The commitments a verifier has received are exactly those in its transcript, so every challenge depends on all that came before it. The same holds for the claimed sums. Refuted for the sums: they are never appended, the transcript is the same for every choice of them, and the verdict depends on nothing but their combination with the challenges; so a prover can choose the sums after the challenges, and every accepted run stays accepted with any values in place of all sums but one. Two different bags pass the equality check this way, also if verify_claims made the comparison of C60.",
 "all sessions, all proofs, all maps of claimed sums, all challenge oracles, all accepted verifier states", "no test changes a claimed sum together with another one", [VT+": get_prover_claimed_sum, add_sumcheck_claim, track_mat_comm, verify_claims", PT+": compile_proof", Z+"bag_multitool/bag_multitool.rs: BagMultitoolIOP::verify"])
p("C64","An honest proof is about the polynomials that the verifier combines",
 "The sum-check of an honest prover's accepted proof ends in the value, at the point of the challenges, of the combination of the claimed polynomials: the value that the verifier can compute from query results. Refuted for both builds: before the sum-check the prover replaces every sum-claimed polynomial by the multilinear polynomial with the same corners and, in debug builds, the whole combination. The sum-check ends in the value of the replaced combination, debug proofs always announce degree 1, and the comparison of C60 would reject honest proofs of true claims, given true query results. It holds in release builds for claims on multilinear sums; if such claims are on polynomials in all variables, honest proofs pass the comparison.",
 "all histories of tracker calls, all mirrored verifier histories, both build modes, all challenge oracles", "the code never compares the two values, and a test of one run in one build sees one polynomial", [PT+": compile_proof, equalize_materialized_poly_nv, evaluations", VT+": verify_claims"])
p("C65","Every proof gets an answer",
 "The verifier's last step accepts or rejects whatever proof it is given, honest or not, and an acceptance has read the whole proof. Refuted in both halves, and the exact extent is stated. It panics on exactly these proofs: fewer messages than variables, or constant messages under degree 0; and, once the sum-check has passed, a named commitment that the verifier has not taken over, no opening at all, or an opening with fewer values than commitments or fewer messages than variables. A verifier with an empty transcript panics on every proof; asking for a commitment or a sum that the proof lacks is a panic. An accepted proof has two or more commitments, an opening with a point of the right size and messages of three values. The answer depends on nothing but the numbers of the commitments, the degree, the number of variables, the messages, the size of the opening's point and its first values: the commitments, claimed sums, query results, points and group elements can be replaced at will.",
 "all proofs whatsoever, all verifier states, all challenge oracles (for the list of panics, those whose challenges met by the verifier avoid the interpolation nodes)", "tests feed the verifier honest proofs or proofs with one altered field", [VT+": verify_claims, set_compiled_proof, get_prover_claimed_sum, transfer_prover_comm", "src/subroutines/poly_iop/sum_check/verifier.rs: check_and_generate_subclaim", "src/subroutines/pcs/multilinear_kzg/batching.rs: batch_verify_internal"])
p("C66","Several proofs from one session",
 "A prover and a verifier that go on with the same trackers after a proof can exchange any number of further proofs: after any number of accepted proofs the two sides hold the same ids, every handle has the table its calls gave it, and if the claims of all rounds are true then the next proof is compiled, the verifier's mirroring calls succeed and read the true sums, those of earlier rounds too, and the proof is accepted (or the verifier panics at an interpolation node, C14). If any claim made so far is false, the next honest proof is accepted for at most (n+2)/|F| of its challenges, and a debug prover refuses with the same exceptions. Both hold when all polynomials have the same number of variables. Refuted otherwise: compiling extends smaller tables in place while their handles keep the old number of variables, so a later sum with a fresh polynomial of that size passes the size check and panics when read; a later polynomial with more variables makes the verifier reject the next honest proof, since it keeps the old sums. A verifier that is handed only the second of two proofs rejects it.",
 "all sequences of rounds of any length, all tracker calls in each round, all mirrored verifier calls, all schedules, addresses and build modes, all challenge oracles", "tests compile and verify once per tracker", [PT+": compile_proof, equalize_materialized_poly_nv, convert_zerocheck_claims, aggregate_sumcheck_claims", VT+": set_compiled_proof, verify_claims"])
p("C67","False statements about columns pass rarely, counting every challenge",
 "For the verifier with the comparison of C60 and true query results, take any prover that commits to the columns first, sees the challenges of the protocol, and then chooses everything else (further commitments, claimed sums, what happens in the rest of the session, messages, query results) as it likes. If the selected rows of the two bags differ, BagEqIOP lets it pass for at most a fraction of (l + l' + N + 2 + N * max(degree of the messages, D + 1)) / p of the vectors made of the protocol's challenge and those of the check, where l and l' are the lengths of the columns. The same holds for BagMultitoolIOP (with the total length of all columns) when some value has different weights on the two sides, for BagSumIOP when the rows of the third bag are not those of the first two together, for inclusion with multiplicities when some selected value of the first bag does not occur in the second, for the prescribed permutation (with two challenges, 4 l^2 + 2 l in place of l + l', all columns having the same size) when the column of positions is not a permutation or some value is not the one at its position, for the sort check (with three challenges, 4 * 4^N + 2 * 2^N plus the lengths of bag and range; its prover fixes the shifted column before the first challenge and the multiplicities of the range before the third) when the bag is not sorted over its range, for the support check (with four challenges; the multiplicities are fixed before the first, the shifted column before the second and the counts of the range before the fourth) when the claimed support repeats a row or has not the same values as the bag, for BagDisjointIOP (with five challenges; the sorted union, its multiplicities and the shifted union are fixed before the first) when the bags have a selected value in common, for SetDisjointIOP (four challenges, the committed selector of the sum being boolean) when some row occurs twice in the two sets together, for SetUnionIOP (five challenges) when the claimed union repeats a row or has other values than the two sets, for SetDiffIOP (six challenges, all selectors boolean, also the committed one of the sum) when the claimed difference repeats a row or is not the rows of the first set outside the second, for SetIntersectIOP (six challenges, likewise) when the claimed intersection has not exactly the values in both sets, for JoinReductionIOP (seventeen challenges, 12 * 4^N + 6 * 2^N plus multiples of the lengths) when the marks of the rows without a partner are not boolean or wrong in either column, for IndexTransformIOP (two challenges, 1 plus the lengths of the two selectors; the multiplicities are fixed before the second) when the product of some selected row of the second table is not that of a selected row of the first, for the last step of a one-to-many join (likewise; the received columns are fixed before the first challenge) when in some selected row the keys differ or the received part has not the product of a selected row of the first table, for GroupByIOP (four challenges and one for each sum) when the groups are not the distinct keys or a count or a sum is wrong, and without any challenge of the protocol for a selector that is not boolean and for a bag that contains zero.",
 "all columns and selectors, all prover strategies, all sessions before and after the call, all vectors of challenges, all primes", "a statement about all cheating provers and the fraction of challenges that save them",
 [VT+": verify_claims", Z+"bag_eq/bag_eq.rs: BagEqIOP::verify", Z+"bag_sum/bag_sum.rs: BagSumIOP::verify", Z+"bag_inclusion/bag_inclusion.rs: BagInclusionIOP::verify_with_advice", Z+"bag_multitool/bag_multitool.rs: BagMultitoolIOP::verify", Z+"bag_presc_perm/bag_presc_perm.rs: BagPrescPermIOP::verify", Z+"bag_sort/bag_sort.rs: BagStrictSortIOP::verify", Z+"bag_supp/bag_supp.rs: BagSuppIOP::verify", Z+"bag_disjoint/bag_disjoint.rs: BagDisjointIOP::verify", Z+"set_disjoint/set_disjoint.rs: SetDisjointIOP::verify", Z+"set_union/set_union.rs: SetUnionIOP::verify", Z+"set_diff/set_diff.rs: SetDiffIOP::verify", Z+"set_intersect/set_intersect.rs: SetIntersectIOP::verify", Z+"join_reduction/join_reduction.rs: JoinReductionIOP::verify", Z+"index_transform/index_transform.rs", Z+"final_join_one_to_many/final_join_one_to_many.rs", Z+"group_by/group_by.rs", Z+"bag_no_zeros/mod.rs: BagNoZerosIOP::verify", Z+"selector_valid/selector_valid.rs: SelectorValidIOP::verify"])
with open(os.path.join(os.path.dirname(__file__),"..","properties.jsonl"),"w") as f:
    for x in P: f.write(json.dumps(x)+"\n")
print(len(P))
