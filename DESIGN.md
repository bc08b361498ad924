# Formal model of ssolit/zksql in Rocq

Source of truth: `/repo` (Rust, read as text). Nothing is built or run from it.
Everything formal lives in `rocq/theories`, logical name `Verif`.

## 1. Layout

Everything is in `rocq/theories`. Property theorems are only in `Props_*.v` (`Proof. exact lemma. Qed.`, followed by
`Print Assumptions`), each with examples `Cxx_ex...` that meet its hypotheses.

| Files | Content |
| --- | --- |
| `Fp.v`, `FSum.v` | the prime field Z/pZ for every prime p (the scalar field of the pairing is one); finite sums |
| `Res.v`, `ResLemmas.v` | `res A = Ok a \| Err e \| Panic`: Rust `Result` plus panics |
| `Pairing.v` | bilinear groups over `F p`: operations, laws as a predicate, a concrete instance |
| `Spec*.v` | small specifications written without the model: multilinear extension (`SpecMle`), virtual polynomials (`SpecVp`), polynomial functions (`SpecPoly`), sum check, KZG, batch opening, trackers, bags and claims (`SpecIop`), supports, sets and joins (`SpecRel`), honest runs of joins and grouping (`SpecJoin`) |
| `Model*.v` | the code, function by function; each definition cites file and lines; no proofs |
| `*Hist.v` | histories of API calls and what "accepted", "rejected", "refused" mean: `VpHist`, `VpGrow`, `SumcheckHist`, `KzgHist`, `BatchHist`, `ProverHist`, `VerifierHist`, `CompileHist`, `CopyHist`, `IopHist`, `SessionHist` (rounds of proofs between two trackers), `SessHist` (a verifier's session: tracker calls and protocol calls in any order), `PlanHist` (plans: protocols and tracker calls in sequence, on both sides), `SuppHist` (a client that proves the support it computed), `HandleHist` (programs with several trackers), `RoundHist` (the challenges the sum-check verifier meets), `AnswerHist`, `BindHist`, `CheckHist`, `CheckIopHist`, `EndHist`, `SelHist` |
| `Mle*.v`, `Vp*.v`, `Interp*.v`, `Sumcheck*.v`, `Zerocheck*.v`, `Kzg*.v`, `Batch*.v` | lemmas for C01-C26 |
| `Prover*.v`, `Tmap*.v`, `Verifier*.v`, `Lock*.v`, `Equalize*.v`, `Degree*.v`, `Compile*.v`, `Forge*.v`, `Copy*.v`, `Query*.v`, `Handle*.v` | lemmas for C27-C37 and C59 |
| `IopWorld.v`, `IopInit.v`, `IopMain.v` | one state for both sides of a run: what the prover holds, what the verifier's ids read, preserved by every call |
| `IopBasic.v`, `IopMulti.v`, `IopRuns.v`, `IopSort.v`, `IopComp.v`, `IopComp2.v`, `IopComp3.v`, `IopComp4.v`, `IopRes.v` | runs of the protocols: honest prover and verifier side by side |
| `IopVer.v`, `IopSound*.v`, `IopGot.v` (the ids a call takes), `SortSound.v`, `CompSound*.v`, `IopClaims.v`, `CompClaims.v`, `RelClaims.v`, `SessProofs.v` | what claims that hold say about the bags and tables, at any point of a session |
| `IopCheck.v`, `CompCheck.v`, `CompCheck2.v` | what the verifier says about an honest run |
| `PlanProofs.v`, `PlanVer.v` | plans: the honest run, and the verifier's run as a session |
| `IopSplit.v`, `SplitProofs.v`, `SuppProofs.v`, `MultProofs.v`, `MultTracker.v` | splits of bags on the tracker, an intersection of split sets, and a computed support that is committed and proved |
| `LogDeriv.v`, `BagLemmas.v` | partial fractions, multisets, counting of unlucky challenges |
| `AdviceProofs*.v`, `CrossProofs.v`, `CrossEval.v`, `IopFix.v` | advice functions, cross product, uniqueness of what a verifier reads |
| `NodeProofs.v`, `NodeExtra.v` | the verifiers panic on honest proofs whose challenges hit an interpolation node; how many challenges do |
| `NodeHist.v` | honest prover against verifier with challenges given in advance |
| `SessionProofs.v`, `SessionRounds.v`, `SessionSound.v` | lemmas for C66: compiling from the state an earlier compilation left, the invariant between rounds, rounds with false claims |
| `CheckProofs.v`, `CheckIop.v`, `CheckSort.v`, `CheckSupp.v`, `CheckDisj.v`, `CheckSet.v`, `CheckSet2.v`, `CheckJoin.v`, `CheckTransform.v`, `CheckGroup.v`, `CheckWeights.v`, `WholeEx.v`, `CheckTotal.v`, `EndProofs.v`, `RoundProofs.v`, `AnswerProofs.v`, `BindProofs.v`, `SelProofs.v` | lemmas for C60-C65 and C67: the verifier's check of any proof, end to end runs, what the transcript binds |
| `IopEx.v` | the concrete runs behind the examples |
| `Props_*.v` | the theorems of the manifest |

## 2. Modelling conventions

* **Field.** `F p` is the type of integers in [0,p). Theorems say `forall p, prime p -> ...`.
  `F::from(n)` is reduction mod p. Field division by zero is a Rust panic (`inverse().unwrap()`), hence `Panic`.
* **Panics** (`assert!`, indexing, `unwrap`, `panic!`, `todo!`) are the value `Panic`. `Result::Err` is `Err e`
  with `e` one of the error variants of the crate.
* **`&mut`** becomes returning the new state. When a call fails after having changed the state, the model
  returns the changed state as well where that is observable.
* **usize arithmetic** is `nat`: sizes are lengths of in-memory vectors. Machine integers are modelled explicitly
  only where overflow is a question (`interpolate_uni_poly`).
* **Hash / Merlin.** A transcript is the list of absorbed messages. The challenge is `oracle history label`, where
  `oracle` is universally quantified in every theorem. Serialisation is abstracted: messages are structured values; any
  serialise-then-hash function is one such oracle.
* **Randomness** (`RngCore`) is an arbitrary stream, universally quantified.
* **Rayon.** Element-wise `par_iter` maps are maps. `fold/map/reduce` is modelled with an explicit fork/join tree, universally quantified.
* **Arc pointers** used as hash keys are modelled as explicit addresses with a memory.
* **HashMap/BTreeMap** are association lists; iteration order is only used where the code sorts first, or where the result does
  not depend on it.
* **Groups and pairing** are an abstract bilinear group over `F p`: records of operations with laws as explicit hypotheses, and a concrete instance
  showing that the laws are satisfiable.
* **External crates** (ark-ff, ark-poly, ark-ec, merlin, rayon) are not modelled beyond the behaviour stated at the
  definition that stands for them (e.g. `DenseMultilinearExtension::from_evaluations_vec` asserts the length;
  `batch_inversion` inverts non-zero entries and leaves zeros).

## 3. Plan per property

See `properties.jsonl` for the statements.

* **C01–C07** (`ModelMle.v`): evaluation tables are lists of field elements. Specification: sum over all bit vectors with the
  eq-kernel (`SpecMle.v`). Proved by induction on the number of variables; the in-place loop of C02 with a loop invariant.
* **C08–C12** (`ModelVp.v`): the builder calls as functions on a record; an independent expression semantics; invariant over
  arbitrary histories. C09 is refuted by a witness and the part that holds is proved. `C10_degree`: without rejected calls the recorded degree is exact. C11's count is proved by induction (Schwartz–Zippel for multilinear polynomials).
  C12 quantifies over rng streams.
* **C13** (`ModelTranscript.v`): history semantics.
* **C14–C19** (`ModelSumcheck.v`): prover and verifier state machines, proof and verification loops. Univariate polynomials as
  functions of bounded degree (`SpecPoly.v`), uniqueness by root counting. C17 by induction on rounds over all
  strategies, with the counting version over all challenge vectors.
* **C20–C21** (`ModelZerocheck.v`) on top of C11, C14 and C17.
* **C22–C26** (`ModelKzg.v`, `ModelBatch.v`): abstract bilinear group. C26 and the k=1 part of C25 are refuted by witnesses.
* **C27–C31, C35, C36** (`ModelProver.v`, `ModelVerifier.v`): state machines over an operation alphabet; invariants over all histories; lockstep
  as a simulation between the two machines.
* **C32–C34, C37**: `compile_proof` and `verify_claims` on top of the previous parts.
* **C38–C57** (`ModelIop*.v`, `ModelAdvice*.v`): gadgets as programs of tracker operations; claims interpreted on the hypercube;
  multiset identities through partial fractions and root counting; advice functions as list programs.
* **C58** (`PlanHist.v`): sequences of calls in which later calls use the handles of earlier ones; the runs of the single protocols
  from an arbitrary state are composed by induction on the sequence.
* **C59** (`ModelHandles.v`): references as positions in a list of trackers; projection of a program to each tracker, by induction on the program.
* **C60** (`CheckHist.v`): the verifier with the comparison that C34 shows missing. Every claim is a polynomial whose degree is bounded by its number of
  factors (induction on `means`); the aggregated commitment evaluates to their combination (induction on the two loops); then the sum check
  (messages of one degree, polynomial of another) and counting. `last_check` (and `sc_end` of C64, its first half) stands for no code in /repo.
* **C63** (`BindHist.v`): an invariant of sessions relates the commitments held to the events of the transcript; two verifiers that differ only in their sums
  make the same steps, and the verdict is a function of the sums' combination with the drawn challenges.
* **C64** (`EndHist.v`): the value of the aggregate away from the corners, through equalizing, conversion, aggregation and the debug evaluation; completeness
  of the sum check for that polynomial gives the end of the verifier's run.
* **C66** (`SessionHist.v`): rounds of calls, `compile_proof`, `set_compiled_proof`, mirrored calls and `verify_claims` on the same two trackers, by an invariant between rounds: same ids and transcripts, the tables kept on the cube, every old claim true; the ids used up by compiling and by verifying are counted and agree. For false claims the same invariant without the truth of the old claims, and the count of C33 for the challenges of the next proof
* **C65** (`AnswerHist.v`): every step of `verify_claims` on arbitrary proof data, by cases on lengths; the answer as a function of what is read, by comparing two runs
  step by step. `sc_end` of C64 says when the sum-check passes.
* **C67** (`CheckIopHist.v`): C60's count for all values of the protocol's challenges (none up to seventeen, and for grouping four and one for each sum) of which none is unlucky, the claims being false then (C38, C41-C45, C47-C49, C51-C54 read backwards); the unlucky ones
  are counted one challenge after the other, by partial fractions (C40) and by the pairs that clash (C45).
* **C61, C62** (`SelHist.v`): the protocols with other selectors; `eval_virtual_comm` on the claims that a session holds, for every map of query results.

## 4. Trusted base

* **Coq 8.16.1's kernel** (and `coqc`; `vm_compute` is used for examples only, no `native_compute`).
* **Axioms: none.** `Print Assumptions` stands under every property theorem and prints `Closed under the global context` for all
  of them. The axioms a checker lists for loaded libraries (`Coq.ssr.ssrunder.Under_rel.*`) are fields of a module type of the
  standard library that comes with `Lia`/`Ring`; no theorem here uses them.
* **Hypotheses in the statements.** Primality of p, the laws of the bilinear group (`pairing_laws`; satisfied by the instance
  in `Pairing.v`), 2 < p where the code divides by powers of two, sizes that fit the key (`setting`), challenges that avoid
  the interpolation nodes where the code panics on them. Each is met by an example next to the theorem.
* **The correspondence between `/repo` and `Model*.v`**, which is by reading. Each definition names the file and lines it stands for.
* **The external crates behave as stated** at the definitions that stand for them (section 2).

## 5. What is modelled

| Source | Model |
| --- | --- |
| `arithmetic/multilinear_polynomial.rs`, `arithmetic/util.rs` | `ModelMle.v`, all functions (both builds of `evaluate_no_par`/`fix_variables_no_par`; the feature branch of C01 as a separate definition) |
| `arithmetic/virtual_polynomial.rs` | `ModelVp.v`, all functions but `Display`/`Debug` output (`print_evals`) |
| `transcript/mod.rs` | `ModelTranscript.v`; serialisation abstracted |
| `subroutines/poly_iop/sum_check/*`, `zero_check/mod.rs` | `ModelSumcheck.v` |
| `subroutines/pcs/multilinear_kzg/{srs,mod,util}.rs` | `ModelKzg.v` (single openings; serialisation, affine conversion and window tables abstracted) |
| `subroutines/pcs/multilinear_kzg/batching.rs` | `ModelBatch.v` |
| `tracker/prover_tracker.rs`, `prover_wrapper.rs`, `dmle_utils.rs`, `tracker_structs.rs` | `ModelProver.v`, `ModelMle.v`; the references of the handles in `ModelHandles.v` |
| `tracker/verifier_tracker.rs`, `verifier_wrapper.rs` | `ModelVerifier.v` |
| `tracker/bag.rs`, `zksql_poly_iop/*` | `ModelIop.v`, `ModelAdvice.v`: every `prove`, `verify` and advice function |

Not modelled:

* `tracker/pcs_accumulator.rs` is one comment from the first line to the last; `tracker/zero_check_utils.rs` is a function without a body that
  no module includes.
* Tests, benches, `Display`/`Debug` output, timers, the prelude and error-conversion boilerplate (errors are one enumeration,
  `?` conversions between error types are `map_err`).
* Serialisation and the bytes of Merlin messages; the distribution of random numbers; machine-integer overflow outside
  `interpolate_uni_poly`; memory exhaustion.
* Protocols whose arguments belong to different trackers: in `ModelIop.v` there is one tracker per side (`ModelHandles.v` has several, for the calls of the trackers themselves).
* `GroupByIOP::prove`/`verify` without advice and the Avg, Min and Max aggregates are `todo!()` in the source; they are `Panic`.

## 6. Print Assumptions

Every theorem of `MANIFEST.json`: `Closed under the global context`. To reproduce: compile any `Props_*.v` and read the output.

## 7. What was found

Statements a user would expect and that are false of the code. Each has a theorem (`..._refuted`).

| Theorem | Finding |
| --- | --- |
| `C01_nonparallel_branch_refuted` | without the `parallel` feature, `fix_one_variable_helper` computes another polynomial |
| `C10_degree_refuted` | multiplying a polynomial without terms raises its recorded degree |
| `C09_rejected_keeps_struct_refuted` | a rejected `add_mle_list` has already raised the degree and stored extensions |
| `C14_complete_any_oracle_refuted`, `C14_nodes_refuted`, `C20_nodes_refuted`, `C25_nodes_refuted`, `C16_total_refuted` | `interpolate_uni_poly` panics on every node, so a challenge 0..deg makes the verifier panic on an honest proof, for every polynomial; `C14_error`, `C20_error`, `C25_error` and `C32_error` bound how often |
| `C25_single_refuted` | batch opening of one polynomial always fails |
| `C26_*_refuted` | `batch_verify` takes the opening point from the proof and never compares it with the sum-check challenges; values are not in the transcript |
| `C29_evaluations_refuted` | reading `evaluations()` replaces a virtual polynomial by its multilinear extension, changing later `evaluate()` |
| `C31_back_refuted`, `C50_verifier_refuted` | the verifier's closure of `increase_nv_back` keeps the added coordinates instead of the old ones |
| `C34_refuted` | `verify_claims` never evaluates the claims at the sum-check point and discards the boolean of `batch_verify`: any set of claims has an accepted proof (`C34_every_oracle_refuted`: under every oracle, unless one of its two challenges is an interpolation node) |
| `C36_verifier_refuted`, `C36_queries_refuted` | copies of a verifier tracker share the maps of virtual commitments and of query results |
| `C37_refuted` | all query results in a compiled proof are zero |
| `C46_integers_refuted` | `BagStrictSortIOP` accepts wrapped-around bags |
| `C49_*_refuted` | the selector of the merged bag is never checked to be boolean, so a shared element can be counted with weight 2 |
| `C51_*_refuted`, `C53_verifier_refuted` | rows are folded with a product: permuted rows collide, so a join can output rows that are not in the left table |
| `C54_sum_*refuted` | a requested Sum adds no column |
| `C54_smaller_refuted` | a table cannot be grouped into a smaller one: the group-by verifier gives the grouped columns the input's number of variables |
| `C56_order_refuted` | the split loops over the unsorted vectors |
| `C57_*_refuted` | the split with multiplicities records the value after the run and reads past the end |
| `C59_comms_refuted` | `PartialEq` of `TrackedComm` ignores the id: all commitments of a tracker are equal, so are `BagComm`s of one size |
| `C59_bags_refuted` | `Bag::new` and `Table::new` compare sizes and trackers only in debug builds |
| `C59_claim_refuted` | claims take bare ids: the id of another tracker's polynomial is accepted and names a different polynomial |
| `C61_*_refuted` | the prescribed permutation ignores the selectors of both bags; the strict sort check ignores the selector of the range bag |
| `C63_transcript_refuted`, `C63_sums_refuted` | the claimed sums are not in the transcript: a prover can choose them after the challenges, and any accepted run stays accepted with all sums but one replaced |
| `C64_refuted` | the sum-check of an honest proof is about other polynomials than the claimed ones (each sum-claimed one, in debug builds the whole combination, is replaced by the multilinear one with its corners), so the comparison missing from `verify_claims` would reject honest provers |
| `C65_panics`, `C65_empty`, `C65_missing` | a malformed proof makes the verifier panic instead of reject: too few messages, degree 0, an unknown commitment, no opening, an opening with too few values or messages; each stated as an exact condition |
| `C66_smaller_handles_refuted` | `compile_proof` extends smaller tables in place but not the handles: afterwards a handle that says one variable has four values, and adding a new polynomial of one variable to it passes the assertion and panics when read |
| `C66_larger_later_refuted` | a polynomial with more variables after the first proof makes the verifier reject the second honest proof: it never rescales the sums it holds |
| `C66_skipped_proof_refuted` | a verifier that skips the first proof cannot check the second |
| `C65_unread` | the answer of `verify_claims` ignores the commitments in the proof, the claimed sums, the query results, both points and the group elements of the opening: all can be replaced in an accepted proof |
| `C62_*_refuted` | the verifier's closures for the shift permutation panic at points longer than the bag, those for the row numbers compute another polynomial |

Because of C34, soundness of the protocols (C38-C54) is stated for claims that hold, not for accepted proofs; what acceptance of an
honest prover's proof says is in the `_prover` theorems. C60 says what one more comparison in `verify_claims` would establish,
for sums that are fixed before the challenges are drawn; C63 shows that the code does not fix them, and C64 that the prover would have to change as well.

Observation without a theorem of its own: the verifier of a bag sum uses one constant for all three bags.

## 8. Tests against wrong programs

`seeded/LOG.jsonl`, one line per edit of a scratch copy: the definition, the edit, the claim it breaks, the theorems that no longer
follow. A theorem counts as failed if its proof needs a lemma that no longer compiles.
