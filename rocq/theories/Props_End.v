(** C64: the sum-check of an honest proof and the polynomials that the verifier combines. *)
From Coq Require Import String List Arith Lia Bool ZArith Znumtheory.
Import ListNotations.
From Verif Require Import Res Fp FSum SpecMle SpecKzg SpecPoly SpecSumcheck SpecBatch SpecTracker ModelMle ModelTranscript ModelSumcheck Pairing ModelKzg ModelBatch ModelProver ModelVerifier
  ProverHist VerifierHist CompileHist KzgExtra SpecIop CheckHist QueryProofs EndHist EndProofs SelHist CheckTotal.
Local Open Scope string_scope.
Local Open Scope list_scope.
Local Open Scope nat_scope.

(** Where the sum-check of an accepted honest proof ends. In debug builds it ends in the value of the one multilinear polynomial
    that has the corners of the combination; in release builds in the value of the combination in which every sum-claimed
    polynomial is replaced by the multilinear one with its corners. *)
Theorem C64_end : forall (p : positive) (E : pairing p), pairing_laws E -> prime (Zpos p) ->
  forall (o : oracle p (gcar (PG1 E))) sc sc' addr debug vdebug g h rnd N k srs ck vk ops vops s hs D cp s' v v',
  1 <= N -> k <= N -> gen_srs E g h rnd N = Ok srs -> kzg_trim srs None (Some k) = Ok (ck, vk) -> distinct_addresses addr ->
  prun o ck ops = Ok (s, hs) -> mirror false ck ops vops ->
  (forall d, In d (degrees ops) -> d <= D) -> 1 <= D -> D + 1 < fsize p -> 2 < fsize p ->
  2 <= commit_calls ops -> 0 < max_nv hs <= k ->
  compile_proof o sc sc' addr debug s = Ok (cp, s') -> vrun o vdebug vk cp vops = Ok (v, map tp_id hs) -> verify_claims o v = Ok v' ->
  exists zs r cs x y rest, length zs = length (zero_calls ops) /\ length r = max_nv hs /\ length cs = length (sum_calls ops) + 1 /\ length x = max_nv hs /\
    drawn (vt_tr v) (vt_tr v') = zs ++ r ++ cs ++ x ++ rest /\ sc_end o v = Ok (x, y) /\
    (debug = true -> y = end_debug ops (max_nv hs) zs r cs x) /\
    (debug = false -> linear_calls [] ops -> (forall i, In i (zero_calls ops) -> ~ In i (sum_calls ops)) -> y = end_release ops (max_nv hs) zs r cs x).
Proof. intros p E HE Hp. exact (hist_end HE Hp). Qed.
Print Assumptions C64_end.

(** That is what the verifier combines if, in release builds, all sum-claimed polynomials are multilinear. *)
Theorem C64_multilinear : forall (p : positive) (E : pairing p) (o : oracle p (gcar (PG1 E))) pp ops s hs zs r cs x,
  prun o pp ops = Ok (s, hs) -> (forall i, In i (sum_calls ops) -> multilinear (poly_at ops i)) -> length x = max_nv hs ->
  end_release ops (max_nv hs) zs r cs x = end_true ops zs r cs x.
Proof. intros p E. exact end_multilinear. Qed.
Print Assumptions C64_multilinear.

(** So release builds pass the comparison of C60, and honest proofs are accepted by the verifier that makes it, if the query
    results are the values of the committed polynomials, all claims are on polynomials in all variables and sum claims on
    multilinear ones. *)
Theorem C64_complete : forall (p : positive) (E : pairing p), pairing_laws E -> prime (Zpos p) ->
  forall (o : oracle p (gcar (PG1 E))) sc sc' addr vdebug g h rnd N k srs ck vk ops vops s hs D cp s' v v' x y q,
  1 <= N -> k <= N -> gen_srs E g h rnd N = Ok srs -> kzg_trim srs None (Some k) = Ok (ck, vk) -> distinct_addresses addr ->
  prun o ck ops = Ok (s, hs) -> mirror true ck ops vops -> back_calls [] ops ->
  (forall d, In d (degrees ops) -> d <= D) -> 1 <= D -> D + 1 < fsize p -> 2 < fsize p ->
  2 <= commit_calls ops -> 0 < max_nv hs <= k ->
  linear_calls [] ops -> (forall i, In i (zero_calls ops) -> ~ In i (sum_calls ops)) -> (forall i, In i (sum_calls ops) -> multilinear (poly_at ops i)) ->
  (forall i, In i (zero_calls ops) \/ In i (sum_calls ops) -> fst (poly_at ops i) = max_nv hs) ->
  compile_proof o sc sc' addr false s = Ok (cp, s') -> vrun o vdebug vk cp vops = Ok (v, map tp_id hs) -> verify_claims o v = Ok v' ->
  sc_end o v = Ok (x, y) -> query_holds v q (map tp_id hs) (denote ops) x ->
  last_check o (answered v q) = Ok true /\ exists w, verify_claims_checked o (answered v q) = Ok w.
Proof. intros p E HE Hp. exact (hist_checked HE Hp). Qed.
Print Assumptions C64_complete.

(** Proofs compiled in debug builds announce degree 1, whatever is claimed. *)
Theorem C64_degree : forall (p : positive) (E : pairing p) (o : oracle p (gcar (PG1 E))) sc sc' addr s cp s',
  compile_proof o sc sc' addr true s = Ok (cp, s') -> cp_deg cp = 1.
Proof. intros p E. exact debug_degree. Qed.
Print Assumptions C64_degree.

(** ** Histories over F 101 *)
Local Notation "'i101' n" := (@ofZ 101 n%Z) (at level 9).
Local Notation E101 := (exp_pairing 101).
Definition ez_o : oracle 101 (gcar (PG1 E101)) := fun h _ => ofN (5 + length h mod 90).
Definition ez_sc : nat -> nat -> sched := fun _ _ => SSplit 1 SLeaf SLeaf.
Definition ez_tab (i : nat) : list (F 101) := match i with 0 => [i101 1; i101 0; i101 1; i101 1] | 1 => [i101 3; i101 5; i101 0; i101 7] | _ => [i101 2; i101 9] end.
Definition ez_A : reading (p:=101) := fun i => (match i with 0 | 1 => 2 | _ => 1 end, fun j => nth j (ez_tab i) F0).
(** A claim on the sum of a product; a claim that f*f - f vanishes, with a claim on the sum of a committed polynomial. *)
Definition ez_ops (b : bool) : list (pop 101) :=
  [OCommit 2 (ez_tab 0); OCommit 2 (ez_tab 1); OCommit 1 (ez_tab 2)] ++ if b then [OMul 0 1; OSum 3 (i101 0)] else [OMul 0 0; OSub 3 0; OZero 4; OSum 2 (i101 0)].
Definition ez_vops (b : bool) : list (vop E101) :=
  [VONext; VONext; VONext] ++ if b then [VOMul 0 1; VOSum 3 (i101 10)] else [VOMul 0 0; VOSub 3 0; VOZero 4; VOSum 2 (i101 22)].
(** The values of the committed polynomials at the point of the proof. *)
Definition ez_queries (cp : cproof E101) : list (nat * list (F 101) * F 101) :=
  map (fun i => ((i, pf_point (cp_sc cp)), extension ez_A i (pf_point (cp_sc cp)))) [0; 1; 2].
(** A run of an honest prover and two verifiers: [v] has the proof as it is, [w] the one with those query results. *)
Definition ez_run (setup : res (srs E101)) (b debug : bool) {T} (k : list tpoly -> list nat -> list nat -> vtrk E101 -> vtrk E101 -> list (F 101) -> F 101 -> bool -> T) : option T :=
  match setup with
  | Ok s => match kzg_trim s None (Some 2) with
            | Ok (ck, vk) => match prun ez_o ck (ez_ops b) with
                             | Ok (s, hs) => match compile_proof ez_o ez_sc ez_sc (fun i => i) debug s with
                                             | Ok (cp, _) =>
                                                 match vrun ez_o true vk cp (ez_vops b), vrun ez_o true vk (with_queries cp (ez_queries cp)) (ez_vops b ++ [VOTransferEvals]) with
                                                 | Ok (v, is), Ok (w, js) =>
                                                     match verify_claims ez_o v, verify_claims ez_o w, sc_end ez_o v, last_check ez_o w with
                                                     | Ok v', Ok _, Ok (x, y), Ok c => Some (k hs is js v v' x y c)
                                                     | _, _, _, _ => None
                                                     end
                                                 | _, _ => None
                                                 end
                                             | _ => None
                                             end
                             | _ => None
                             end
            | _ => None
            end
  | _ => None
  end.
Local Notation ez_setup := (gen_srs E101 (i101 2) (i101 7) (fun i => ofN (i + 3)) 3).
(** The challenges, cut according to the numbers of claims. *)
Definition ez_cut (b : bool) (v v' : vtrk E101) : list (F 101) * list (F 101) * list (F 101) :=
  let l := drawn (vt_tr v) (vt_tr v') in let nz := length (zero_calls (ez_ops b)) in
  (firstn nz l, firstn 2 (skipn nz l), firstn (length (sum_calls (ez_ops b)) + 1) (skipn (nz + 2) l)).
(** Is the end the combination, the release form, the debug form? What does the comparison of C60 say, given true query results? *)
Definition ez_sees (b debug : bool) : option (list bool * bool) :=
  ez_run ez_setup b debug (fun _ _ _ v v' x y c => let '(zs, r, cs) := ez_cut b v v' in
    (map (Feqb y) [end_true (ez_ops b) zs r cs x; end_release (ez_ops b) 2 zs r cs x; end_debug (ez_ops b) 2 zs r cs x], c)).
Example C64_ex : ez_sees true false = Some ([false; true; true], false) /\ ez_sees true true = Some ([false; true; true], false) /\
  ez_sees false false = Some ([true; true; false], true) /\ ez_sees false true = Some ([false; false; true], false).
Proof. vm_compute. repeat split; reflexivity. Qed.
Print Assumptions C64_ex.
Lemma ez_nonnode : forall hh l, nonnode 4 (ez_o hh l).
Proof.
  intros hh l i Hi Heq. unfold ez_o in Heq. pose proof (Nat.mod_upper_bound (length hh) 90 ltac:(discriminate)) as Hm. apply ofN_inj in Heq; lia.
Qed.
(** The hypotheses of C64_end and C64_multilinear. *)
Example C64_ex_hyps : forall b, (forall ck : pparam E101, mirror false ck (ez_ops b) (ez_vops b)) /\ degrees (ez_ops b) = (if b then [1; 1; 1; 2] else [1; 1; 1; 2; 2]) /\ (forall hh l, nonnode 4 (ez_o hh l)) /\ commit_calls (ez_ops b) = 3 /\
  linear_calls [] (ez_ops b) /\ (forall i, In i (zero_calls (ez_ops b)) -> ~ In i (sum_calls (ez_ops b))) /\ (b = false -> forall i, In i (sum_calls (ez_ops b)) -> multilinear (poly_at (ez_ops b) i)).
Proof.
  intros b. split; [intros ck; destruct b; repeat constructor|]. split; [destruct b; reflexivity|]. split; [exact ez_nonnode|]. split; [destruct b; reflexivity|].
  split; [destruct b; repeat split|]. split; [destruct b; cbn; intuition congruence|]. intros -> i [<-|[]]. intros x Hx.
  change (mle_ext 1 (tab (ez_tab 2)) x = mle_ext 1 (tab (corners (mle_den 1 (ez_tab 2)))) x). f_equal.
Qed.

(** What goes wrong in the first history. *)
Definition ez_bad (hs : list tpoly) (is js : list nat) (v v' : vtrk E101) (x : list (F 101)) (y : F 101) (c : bool) : bool :=
  let '(zs, r, cs) := ez_cut true v v' in
  (if list_eq_dec Nat.eq_dec is (map tp_id hs) then true else false) && (if list_eq_dec Nat.eq_dec js (map tp_id hs) then true else false) && (length zs =? 0) && (length r =? 2) && (length cs =? 2) &&
  feql (drawn (vt_tr v) (vt_tr v')) (zs ++ r ++ cs ++ x ++ skipn 6 (drawn (vt_tr v) (vt_tr v'))) && negb (Feqb y (end_true (ez_ops true) zs r cs x)) && negb c && (max_nv hs =? 2).
Lemma ez_bad_inv : forall hs is js v v' x y c, true = ez_bad hs is js v v' x y c -> max_nv hs = 2 /\ is = map tp_id hs /\ js = map tp_id hs /\ exists zs r cs rest, length zs = 0 /\ length r = 2 /\ length cs = 2 /\
  drawn (vt_tr v) (vt_tr v') = zs ++ r ++ cs ++ x ++ rest /\ y <> end_true (ez_ops true) zs r cs x /\ c = false.
Proof.
  intros hs is js v v' x y c H. symmetry in H. unfold ez_bad in H. destruct (ez_cut true v v') as [[zs r] cs]. rewrite !andb_true_iff in H. destruct H as [[[[[[[[H1 H2] H3] H4] H5] H6] H7] H8] H9].
  destruct (list_eq_dec Nat.eq_dec is (map tp_id hs)) as [Ei|]; [|discriminate]. destruct (list_eq_dec Nat.eq_dec js (map tp_id hs)) as [Ej|]; [|discriminate].
  apply Nat.eqb_eq in H3, H4, H5, H9. apply feql_eq in H6. apply negb_true_iff in H7, H8. apply Feqb_neq in H7. split; [exact H9|]. split; [exact Ei|]. split; [exact Ej|]. exists zs, r, cs. eexists. repeat (split; [eassumption|]). exact H8.
Qed.
Lemma ez_inv : forall setup b debug (k : list tpoly -> list nat -> list nat -> vtrk E101 -> vtrk E101 -> list (F 101) -> F 101 -> bool -> bool) a, ez_run setup b debug k = Some a ->
  exists srs ck vk s hs cp s' v v' w w' x y c is js, setup = Ok srs /\ kzg_trim srs None (Some 2) = Ok (ck, vk) /\ prun ez_o ck (ez_ops b) = Ok (s, hs) /\ compile_proof ez_o ez_sc ez_sc (fun i => i) debug s = Ok (cp, s') /\
    vrun ez_o true vk cp (ez_vops b) = Ok (v, is) /\ verify_claims ez_o v = Ok v' /\ vrun ez_o true vk (with_queries cp (ez_queries cp)) (ez_vops b ++ [VOTransferEvals]) = Ok (w, js) /\ verify_claims ez_o w = Ok w' /\
    sc_end ez_o v = Ok (x, y) /\ last_check ez_o w = Ok c /\ a = k hs is js v v' x y c.
Proof.
  intros setup b debug k a H. unfold ez_run in H. destruct setup as [srs| |]; try discriminate H. destruct (kzg_trim srs None (Some 2)) as [[ck vk]| |] eqn:H1; try discriminate H.
  destruct (prun ez_o ck (ez_ops b)) as [[s hs]| |] eqn:H2; try discriminate H. destruct (compile_proof _ _ _ _ debug s) as [[cp s']| |] eqn:H3; try discriminate H.
  destruct (vrun ez_o true vk cp _) as [[v is]| |] eqn:H4; try discriminate H. destruct (vrun ez_o true vk (with_queries _ _) _) as [[w js]| |] eqn:H5; try discriminate H.
  destruct (verify_claims ez_o v) as [v'| |] eqn:H6; try discriminate H. destruct (verify_claims ez_o w) as [w'| |] eqn:H7; try discriminate H. destruct (sc_end ez_o v) as [[x y]| |] eqn:H8; try discriminate H.
  destruct (last_check ez_o w) as [c| |] eqn:H9; try discriminate H. injection H as <-. exists srs, ck, vk, s, hs, cp, s', v, v', w, w', x, y, c, is, js. repeat (split; [first [reflexivity|assumption]|]). reflexivity.
Qed.
(** Both builds: the honest proof of a true claim is accepted, its sum-check does not end in the combination of the claimed
    polynomials, and with true query results the comparison of C60 would reject it. *)
Theorem C64_refuted : forall debug : bool, exists (o : oracle 101 (gcar (PG1 E101))) srs ck vk ops vops s hs cp s' v v' zs r cs x y rest,
  gen_srs E101 (i101 2) (i101 7) (fun i => ofN (i + 3)) 3 = Ok srs /\ kzg_trim srs None (Some 2) = Ok (ck, vk) /\
  prun o ck ops = Ok (s, hs) /\ mirror false ck ops vops /\ zeros_hold ops /\ compile_proof o ez_sc ez_sc (fun i => i) debug s = Ok (cp, s') /\
  vrun o true vk cp vops = Ok (v, map tp_id hs) /\ verify_claims o v = Ok v' /\
  length zs = length (zero_calls ops) /\ length r = max_nv hs /\ length cs = length (sum_calls ops) + 1 /\ drawn (vt_tr v) (vt_tr v') = zs ++ r ++ cs ++ x ++ rest /\
  sc_end o v = Ok (x, y) /\ y <> end_true ops zs r cs x /\
  exists q w w', (forall i z u, In ((i, z), u) q -> exists n l, nth_error ops i = Some (OCommit n l) /\ u = mle_ext n (tab l) (firstn n z)) /\
    vrun o true vk (with_queries cp q) (vops ++ [VOTransferEvals]) = Ok (w, map tp_id hs) /\ verify_claims o w = Ok w' /\ last_check o w = Ok false.
Proof.
  intros debug. assert (H : ez_run ez_setup true debug ez_bad = Some true) by (destruct debug; vm_compute; reflexivity).
  destruct (ez_inv _ _ _ _ _ H) as [srs [ck [vk [s [hs [cp [s' [v [v' [w [w' [x [y [c [is [js [H1 [H2 [H3 [H4 [H5 [H6 [H7 [H8 [H9 [H10 H11]]]]]]]]]]]]]]]]]]]]]]]]]].
  apply ez_bad_inv in H11. destruct H11 as [L0 [-> [-> [zs [r [cs [rest [L1 [L2 [L3 [L4 [L5 ->]]]]]]]]]]]].
  exists ez_o, srs, ck, vk, (ez_ops true), (ez_vops true), s, hs, cp, s', v, v', zs, r, cs, x, y, rest.
  split; [exact H1|]. split; [exact H2|]. split; [exact H3|]. split; [apply C64_ex_hyps|]. split; [intros i []|]. split; [exact H4|]. split; [exact H5|]. split; [exact H6|].
  split; [exact L1|]. split; [rewrite L2; symmetry; exact L0|]. split; [exact L3|]. split; [exact L4|]. split; [exact H9|]. split; [exact L5|].
  exists (ez_queries cp), w, w'. split; [|split; [exact H7|split; [exact H8|exact H10]]].
  intros i z u Hin. unfold ez_queries in Hin. cbn [map In] in Hin. destruct Hin as [Hin|[Hin|[Hin|[]]]]; injection Hin as <- <- <-; eexists; eexists; (split; [reflexivity|reflexivity]).
Qed.
Print Assumptions C64_refuted.

(** The hypotheses of C64_complete: f*f - f is claimed to vanish, g has a sum. *)
Definition ey_ops : list (pop 101) := [OCommit 2 (ez_tab 0); OCommit 2 (ez_tab 1); OMul 0 0; OSub 2 0; OZero 3; OSum 1 (i101 0)].
Definition ey_vops : list (vop E101) := [VONext; VONext; VOMul 0 0; VOSub 2 0; VOZero 3; VOSum 1 (i101 15)].
Definition ey_run (setup : res (srs E101)) : option (list nat * bool * list bool) :=
  match setup with
  | Ok s => match kzg_trim s None (Some 2) with
            | Ok (ck, vk) => match prun ez_o ck ey_ops with
                             | Ok (s, hs) => match compile_proof ez_o ez_sc ez_sc (fun i => i) false s with
                                             | Ok (cp, _) =>
                                                 match vrun ez_o true vk cp ey_vops with
                                                 | Ok (v, is) =>
                                                     match verify_claims ez_o v, sc_end ez_o v with
                                                     | Ok _, Ok (x, _) =>
                                                         let q b := [((0, x), extension ez_A 0 x); ((1, x), (extension ez_A 1 x + if b : bool then F0 else F1)%F)] in
                                                         Some (is, (max_nv hs =? 2) && (length x =? 2), map (fun b => match verify_claims_checked ez_o (answered v (q b)) with Ok _ => true | _ => false end) [true; false])
                                                     | _, _ => None
                                                     end
                                                 | _ => None
                                                 end
                                             | _ => None
                                             end
                             | _ => None
                             end
            | _ => None
            end
  | _ => None
  end.
Example C64_ex_complete : ey_run ez_setup = Some ([0; 1; 2; 3], true, [true; false]).
Proof. vm_compute. reflexivity. Qed.
Example C64_ex_complete_hyps : (forall ck : pparam E101, mirror true ck ey_ops ey_vops) /\ back_calls [] ey_ops /\ linear_calls [] ey_ops /\ degrees ey_ops = [1; 1; 2; 2] /\ commit_calls ey_ops = 2 /\
  zero_calls ey_ops = [3] /\ sum_calls ey_ops = [1] /\ fst (poly_at ey_ops 3) = 2 /\ fst (poly_at ey_ops 1) = 2 /\ multilinear (poly_at ey_ops 1).
Proof.
  split; [intros ck; repeat constructor|]. split; [repeat split|]. split; [repeat split|]. repeat (split; [reflexivity|]). intros x Hx.
  change (mle_ext 2 (tab (ez_tab 1)) x = mle_ext 2 (tab (corners (mle_den 2 (ez_tab 1)))) x). f_equal.
Qed.
