(** The honest proof is lost exactly at the interpolation nodes; how many challenges do that. *)
From Coq Require Import String List Arith Lia Bool ZArith Znumtheory.
Import ListNotations.
From Verif Require Import Res ResLemmas Fp FSum SpecMle SpecVp SpecKzg SpecPoly SpecSumcheck SpecBatch SpecTracker ModelMle MleLemmas MleProofs MleExtra ModelVp VpHist VpProofs VpExtra
  ModelTranscript ModelSumcheck SumcheckHist PolyLemmas InterpProofs SumcheckVerify SumcheckExtra ZerocheckProofs TranscriptProofs Pairing ModelKzg KzgProofs KzgExtra ModelBatch BatchProofs BatchExtra
  NodeHist NodeProofs ModelProver ModelVerifier ProverHist VerifierHist CompileHist TmapLemmas ProverProofs ProverExtra ProverStep DegreeProofs EqualizeProofs CompileProofs CompileExtra HistExtra
  LockProofs VerifierExtra CompileMain CompileSound.
Local Open Scope string_scope.
Local Open Scope list_scope.
Local Open Scope nat_scope.

Section N.
Context {p : positive}.
Hypothesis Hp : prime (Zpos p).
Local Notation F := (F p).
Add Ring Fr : (@F_ring p).
Add Field Ff : (F_field Hp).

(** ** The zero check and the opening panic at nodes *)
Lemma zc_node : forall {C} (o : oracle p C) sc (v : vp p) e a t pf t', built v e -> (forall m, In m (flat v) -> fst m <> a) ->
  max_degree v + 1 < fsize p -> 0 < num_variables v -> is_empty t = false ->
  (forall k, k < 2 ^ num_variables v -> pden e (bpoint (num_variables v) k) = F0) ->
  zc_prove o sc v a t = Ok (pf, t') -> (exists x i, In x (pf_point pf) /\ i < max_degree v + 2 /\ x = ofN i) ->
  zc_verify o pf (max_degree v) (num_variables v) t = Panic.
Proof.
  intros C o sc v e a t pf t' Hb Hfr Hd Hn Ht Hz HP Hx. unfold zc_prove in HP. unfold zc_verify. rewrite draw_vecT_ok in HP |- * by exact Ht. cbn [bind] in HP |- *.
  pose proof (run_draws_length o "0check r" (num_variables v) t) as Hr.
  destruct (run_draws o "0check r" (num_variables v) t) as [r t1]. cbn [fst] in Hr.
  destruct (built_fhat v e r a Hb Hfr Hr) as [u [U1 [U2 [U3 [U4 [U5 _]]]]]]; [intros ->; simpl in Hr; lia|].
  destruct (built_inv u _ U4) as [Hui [_ Hue]].
  assert (Huv : forall x, length x = num_variables v -> vp_val u x = (pden e x * eqf x r)%F).
  { intros x Hx'. pose proof (vp_evaluate_spec u x Hui) as E. rewrite U2 in E. specialize (E Hx'). rewrite U5 in E by exact Hx'.
    inversion E. reflexivity. }
  rewrite U1 in HP. cbn [bind] in HP.
  destruct (sc_complete Hp o sc u t1 Hui) as [pf0 [t0 [E1 [E2 [E3 _]]]]]; [lia|lia|lia|]. rewrite HP in E1. injection E1 as <- <-.
  assert (Hs : cube_sum (num_variables v) (vp_val u) = F0).
  { rewrite (cube_sum_ext _ _ (fun x => pden e x * eqf x r)%F) by exact Huv. rewrite fhat_sum by exact Hr.
    apply mle_ext_zero. exact Hz. }
  rewrite U2, Hs in E3. rewrite E3. cbn [bind]. rewrite Feqb_refl. cbn [ensure bind].
  pose proof (sc_prove_node Hp o sc u t1 pf t' Hui ltac:(lia) ltac:(lia) HP) as Q. rewrite U3, U2 in Q. rewrite Q; [reflexivity|].
  destruct Hx as [x [i [X1 [X2 X3]]]]. exists x, i. split; [exact X1|]. split; [lia|exact X3].
Qed.

(** ** Counting *)
Definition isnode (k : nat) (c : F) : bool := existsb (fun i => Feqb c (ofN i)) (seq 0 k).
Lemma isnode_spec : forall k c, isnode k c = true <-> exists i, i < k /\ c = ofN i.
Proof.
  intros k c. unfold isnode. rewrite existsb_exists. split.
  - intros [i [A B]]. apply in_seq in A. apply Feqb_eq in B. exists i. split; [lia|exact B].
  - intros [i [A B]]. exists i. split; [apply in_seq; lia|apply Feqb_eq; exact B].
Qed.
Lemma isnode_false : forall k c, isnode k c = false -> nonnode k c.
Proof. intros k c H. destruct (nonnode_dec k c) as [A|A]; [exact A|]. apply isnode_spec in A. congruence. Qed.
Lemma any_node_false : forall k cs, existsb (isnode k) cs = false -> forall c, In c cs -> nonnode k c.
Proof.
  intros k cs H c Hc. apply isnode_false. destruct (isnode k c) eqn:E; [|reflexivity]. rewrite <- H. symmetry. apply existsb_exists. exists c. auto.
Qed.

Lemma count_node : forall k, count (isnode k) (allF p) <= k.
Proof.
  intros k. unfold count. replace k with (length (map (fun i => ofN i : F) (seq 0 k))) at 2 by (rewrite map_length, seq_length; reflexivity).
  apply NoDup_incl_length; [apply NoDup_filter; apply allF_NoDup|]. intros c Hc. apply filter_In in Hc. destruct Hc as [_ Hc]. apply isnode_spec in Hc.
  destruct Hc as [i [A ->]]. apply in_map_iff. exists i. split; [reflexivity|]. apply in_seq. lia.
Qed.

Lemma count_nodes : forall k n, count (existsb (isnode k)) (allV p n) <= n * k * fsize p ^ (n - 1).
Proof.
  intros k. induction n as [|n IH]; [cbn; lia|].
  eapply Nat.le_trans; [apply (count_step n k (n * k * fsize p ^ (n - 1)) (isnode k)); [apply count_node|]|].
  - intros a Ha. eapply Nat.le_trans; [|exact IH]. apply count_le. intros x _ H. cbn [existsb] in H. rewrite Ha in H. exact H.
  - replace (S n - 1) with n by lia. apply bound_step.
Qed.

Lemma count_window : forall j n M (Q : list F -> bool), count (fun ch => Q (firstn n (skipn j ch))) (allV p (j + (n + M))) <= count Q (allV p n) * fsize p ^ (j + M).
Proof.
  intros j n M Q. eapply Nat.le_trans; [apply (count_two_phase j (n + M) (count Q (allV p n) * fsize p ^ M) 0 (fun _ => false)); [rewrite count_false; auto|]|].
  - intros x Hx _. eapply Nat.le_trans; [|apply count_prefix]. apply count_le. intros y _ H. apply allV_in_length in Hx.
    rewrite skipn_app, Hx, Nat.sub_diag, skipn_O, <- Hx, skipn_all in H. exact H.
  - rewrite (Nat.pow_add_r _ j M). generalize (count Q (allV p n)), (fsize p ^ j), (fsize p ^ M). intros. rewrite Nat.mul_0_l. nia.
Qed.

Lemma count_window_nodes : forall k j n M, 0 < n -> count (fun ch => existsb (isnode k) (firstn n (skipn j ch))) (allV p (j + (n + M))) <= n * k * fsize p ^ (j + (n + M) - 1).
Proof.
  intros k j n M Hn. eapply Nat.le_trans; [apply count_window|]. eapply Nat.le_trans; [apply Nat.mul_le_mono_r; apply count_nodes|].
  rewrite <- Nat.mul_assoc, <- Nat.pow_add_r. replace (n - 1 + (j + M)) with (j + (n + M) - 1) by lia. lia.
Qed.

Lemma count_eqf : forall (r : list F), count (fun x => Feqb (eqf x r) F0) (allV p (length r)) <= length r * fsize p ^ (length r - 1).
Proof.
  induction r as [|r0 r IH]; cbn [length].
  - rewrite count_false; [lia|]. intros x Hx. apply allV_in_length in Hx. destruct x; [|discriminate Hx]. apply Feqb_neq. cbn. apply F1_neq_0. exact Hp.
  - eapply Nat.le_trans; [apply (count_step (length r) 1 (length r * fsize p ^ (length r - 1)) (fun a => Feqb (a * (r0 + r0 - F1))%F (r0 - F1)))|].
    + destruct (F_eq_dec (r0 + r0 - F1)%F F0) as [A|A]; [|apply count_eq_one; [exact Hp|exact A]].
      rewrite count_false; [lia|]. intros a _. apply Feqb_neq. rewrite A. intros B. 
      assert (R : r0 = F1) by (replace r0 with ((r0 - F1) + F1)%F by ring; rewrite <- B; ring). rewrite R in A.
      apply (F1_neq_0 Hp). rewrite <- A. ring.
    + intros a Ha. eapply Nat.le_trans; [|exact IH]. apply count_le. intros x _ H. apply Feqb_eq in H. apply Feqb_eq.
      rewrite eqf_cons in H. apply Feqb_neq in Ha. apply (Fmul_integral Hp) in H. destruct H as [X|H]; [|exact H]. exfalso. apply Ha.
      replace (r0 - F1)%F with (a * (r0 + r0 - F1) - (a * r0 + (F1 - a) * (F1 - r0)))%F by ring. rewrite X; ring.
    + replace (S (length r) - 1) with (length r) by lia. pose proof (bound_step (p:=p) (length r) 1) as Q. lia.
Qed.

(** ** Scripted runs *)
Lemma nchal_append : forall {C} l x (t : tr p C), nchal (hist (append l x t)) = nchal (hist t).
Proof. intros. unfold append. cbn [hist]. rewrite nchal_app. unfold nchal at 2. cbn. lia. Qed.
Lemma nchal_run_msgs : forall {C} (o : oracle p C) ms t, nchal (hist (snd (run_msgs o ms t))) = nchal (hist t) + length ms.
Proof.
  intros C o. induction ms as [|m ms IH]; intros t; cbn [run_msgs length]; [cbn; lia|].
  specialize (IH (tdraw "Internal round" (o (hist (append "prover msg" (PMsg m) t)) "Internal round") (append "prover msg" (PMsg m) t))).
  destruct (run_msgs _ ms _) as [cs t']. cbn [snd] in *. rewrite IH, nchal_tdraw, nchal_append. lia.
Qed.

Lemma sc_prove_script : forall {C} k0 (ch : list F) sc (v : vp p) (t : tr p C) pf t' j, vp_inv v -> S (max_degree v) <= fsize p -> 0 < num_variables v ->
  nchal (hist t) = k0 + j -> j + num_variables v <= length ch -> sc_prove (script k0 ch) sc v t = Ok (pf, t') ->
  pf_point pf = firstn (num_variables v) (skipn j ch) /\ nchal (hist t') = k0 + j + num_variables v.
Proof.
  intros C k0 ch sc v t pf t' j Hi Hd Hn Hk Hl H. destruct (sc_prove_spec Hp (script k0 ch) sc v t Hi Hd Hn) as [cs [t0 [S1 [S2 S3]]]].
  rewrite H in S1. injection S1 as -> ->. cbn [pf_point].
  pose proof (honest_length (num_variables v) (max_degree v) (vp_val v) [] cs) as L. rewrite S2 in L.
  pose proof (run_msgs_script (honest (num_variables v) (max_degree v) (vp_val v) [] cs) ch k0 (append "aux info" (PAux (max_degree v) (num_variables v)) t) j) as Q.
  pose proof (nchal_run_msgs (script k0 ch) (honest (num_variables v) (max_degree v) (vp_val v) [] cs) (append "aux info" (PAux (max_degree v) (num_variables v)) t)) as Q2.
  rewrite S3, L, nchal_append in Q, Q2. cbn [fst snd] in Q, Q2. split; [apply Q; lia|lia].
Qed.

(** ** How often the honest proof is lost *)
Lemma sc_error : forall {C} sc (v : vp p) e (t : tr p C), built v e -> max_degree v < fsize p -> 0 < num_variables v -> products v <> [] ->
  count (sc_fails sc v (cube_sum (num_variables v) (pden e)) t) (allV p (num_variables v)) <= num_variables v * (max_degree v + 1) * fsize p ^ (num_variables v - 1).
Proof.
  intros C sc v e t Hb Hd Hn Hpr. eapply Nat.le_trans; [|apply count_nodes]. apply count_le. intros ch Hch H. apply allV_in_length in Hch.
  unfold sc_fails in H. destruct (sc_complete_built Hp (script (nchal (hist t)) ch) sc v e t Hb Hd Hn Hpr) as [pf [t' [E1 [E2 [_ E4]]]]]. rewrite E1 in H.
  destruct (sc_prove_script (nchal (hist t)) ch sc v t pf t' 0 (proj1 (built_vals v e Hb)) Hd Hn (eq_sym (Nat.add_0_r _)) ltac:(lia) E1) as [P1 _].
  rewrite skipn_O, <- Hch, firstn_all in P1. destruct (existsb (isnode (max_degree v + 1)) ch) eqn:X; [reflexivity|]. exfalso.
  destruct E4 as [E4 _]; [rewrite P1; apply any_node_false; exact X|]. rewrite E4 in H. discriminate H.
Qed.

Lemma zc_error : forall {C} sc (v : vp p) e a (t : tr p C), built v e -> (forall m, In m (flat v) -> fst m <> a) ->
  max_degree v + 1 < fsize p -> 0 < num_variables v -> is_empty t = false ->
  (forall k, k < 2 ^ num_variables v -> pden e (bpoint (num_variables v) k) = F0) ->
  count (zc_fails sc v a t) (allV p (num_variables v + num_variables v)) <=
    num_variables v * (max_degree v + 3) * fsize p ^ (num_variables v + num_variables v - 1).
Proof.
  intros C sc v e a t Hb Hfr Hd Hn Ht Hz. set (n := num_variables v) in *.
  eapply Nat.le_trans; [apply (count_le _ (fun ch => existsb (isnode (max_degree v + 2)) (firstn n (skipn n ch)) || Feqb (eqf (firstn n (skipn n ch)) (firstn n ch)) F0))|].
  - intros ch Hch H. apply allV_in_length in Hch. apply orb_true_iff. destruct (existsb (isnode (max_degree v + 2)) (firstn n (skipn n ch))) eqn:X; [left; reflexivity|right].
    unfold zc_fails in H. set (o := script (nchal (hist t)) ch) in H.
    destruct (zc_complete Hp o sc v e a t Hb Hfr Hd Hn Ht Hz) as [r [t1 [pf [t' [D1 [D2 [P1 [P2 P3]]]]]]]]. rewrite P1 in H.
    rewrite draw_vecT_ok in D1 by exact Ht. injection D1 as D1.
    destruct (run_draws_script ch "0check r" (nchal (hist t)) n t 0 ltac:(lia) ltac:(lia)) as [A1 A2]. fold o in A1, A2. fold n in D1. rewrite D1 in A1, A2. cbn [fst snd skipn] in A1, A2.
    unfold zc_prove in P1. rewrite draw_vecT_ok in P1 by exact Ht. fold n in P1. rewrite D1 in P1. cbn [bind] in P1.
    destruct (built_fhat v e r a Hb Hfr D2) as [u [U1 [U2 [U3 [U4 _]]]]]; [intros ->; simpl in D2; lia|]. rewrite U1 in P1. cbn [bind] in P1.
    destruct (sc_prove_script (nchal (hist t)) ch sc u t1 pf t' n (proj1 (built_vals u _ U4)) ltac:(lia) ltac:(lia) ltac:(lia) ltac:(lia) P1) as [P4 _].
    rewrite U2 in P4. fold n in P4. rewrite P4, A1 in P3. fold n in P3, H. rewrite P3 in H by (apply any_node_false; exact X).
    destruct (Feqb _ F0); [reflexivity|discriminate H].
  - eapply Nat.le_trans; [apply count_or|]. pose proof (count_window_nodes (max_degree v + 2) n n 0 Hn) as W. rewrite Nat.add_0_r in W.
    assert (Q : count (fun ch : list F => Feqb (eqf (firstn n (skipn n ch)) (firstn n ch)) F0) (allV p (n + n)) <= n * fsize p ^ (n + n - 1)).
    { eapply Nat.le_trans; [apply (count_two_phase n n (n * fsize p ^ (n - 1)) 0 (fun _ => false)); [rewrite count_false; auto|]|].
      - intros x Hx _. apply allV_in_length in Hx. pose proof (count_eqf x) as Q. rewrite Hx in Q. eapply Nat.le_trans; [|exact Q]. apply count_le. intros y Hy H. apply allV_in_length in Hy.
        assert (S1 : skipn n (x ++ y) = y) by (rewrite <- Hx, skipn_app, Nat.sub_diag, skipn_all; reflexivity).
        assert (S2 : firstn n (x ++ y) = x) by (rewrite <- Hx, firstn_app, Nat.sub_diag, firstn_O, app_nil_r; apply firstn_all).
        rewrite S1, S2, <- Hy, firstn_all in H. exact H.
      - replace (n + n - 1) with (n + (n - 1)) by lia. rewrite (Nat.pow_add_r _ n (n - 1)). generalize (fsize p ^ n), (fsize p ^ (n - 1)). intros. nia. }
    eapply Nat.le_trans; [apply Nat.add_le_mono; [exact W|exact Q]|]. generalize (fsize p ^ (n + n - 1)). intros. nia.
Qed.

(** ** The opening *)
Section B.
Context {E : pairing p}.
Hypothesis HE : pairing_laws E.
Notation comm := (gcar (PG1 E)).

Lemma batch_node_srs : forall {C} (o : oracle p C) sc addr (g : comm) (h : gcar (PG2 E)) rnd N n m polys points vs (t : tr p C) s ck vk0 vk comms bp t',
  1 <= N -> n <= N -> distinct_addresses addr -> 0 < m -> m <= n -> 2 <= length polys -> batch_wf m polys points -> is_empty t = false -> 2 < fsize p ->
  gen_srs E g h rnd N = Ok s -> kzg_trim s None (Some n) = Ok (ck, vk0) ->
  multi_open o sc addr ck polys points vs t = Ok (bp, t') -> length vs = length polys -> length comms = length polys ->
  (exists x i, In x (pf_point (bp_sc bp)) /\ i < 3 /\ x = ofN i) -> batch_verify o vk comms points bp t = Panic.
Proof.
  intros C o sc addr g h rnd N n m polys points vs t s ck vk0 vk comms bp t' HN Hn Hinj Hm Hmn Hk Hwf Ht Hf Hg Htr HM Hv Hc Hx.
  destruct (kzg_trim_srs HE g h rnd N n HN Hn) as [s' [ck' [vk' [S [T [Q1 Q2]]]]]]. rewrite Hg in S. injection S as <-. rewrite Htr in T. injection T as <- <-. subst ck vk0.
  eapply (batch_node Hp HE o sc addr g h (suffix n (trapdoor rnd N)) m polys points vs t bp t' comms vk); try eassumption.
  rewrite suffix_length; [exact Hmn|rewrite trapdoor_length; exact Hn].
Qed.

Lemma batch_error : forall {C} sc addr (g : comm) (h : gcar (PG2 E)) rnd N n m polys points (t : tr p C),
  1 <= N -> n <= N -> distinct_addresses addr -> 0 < m -> m <= n -> 2 <= length polys -> batch_wf m polys points -> is_empty t = false -> 2 < fsize p ->
  exists s ck vk comms, gen_srs E g h rnd N = Ok s /\ kzg_trim s None (Some n) = Ok (ck, vk) /\ mapM (kzg_commit ck) polys = Ok comms /\
    let k := Nat.log2_up (length polys) in
    count (batch_fails sc addr ck vk comms polys points t) (allV p (k + m)) <= 3 * m * fsize p ^ (k + m - 1).
Proof.
  intros C sc addr g h rnd N n m polys points t HN Hn Hinj Hm Hmn Hk Hwf Ht Hf.
  destruct (kzg_trim_srs HE g h rnd N n HN Hn) as [s [ck [vk [S [T [-> ->]]]]]].
  set (tau := suffix n (trapdoor rnd N)) in *.
  assert (Ltau : length tau = n) by (unfold tau; apply suffix_length; rewrite trapdoor_length; exact Hn).
  exists s, (srs_pp (srs_of g h tau)), (vk_of g h tau), (map (fun f => gmul (value f (suffix m tau)) g) polys).
  split; [exact S|]. split; [exact T|]. split; [apply (commits_ok HE g h tau m polys points); [lia|exact Hwf]|]. cbv zeta. set (k := Nat.log2_up (length polys)).
  pose proof (count_window_nodes 3 k m 0 Hm) as W. rewrite Nat.add_0_r in W. rewrite (Nat.mul_comm 3 m). eapply Nat.le_trans; [|exact W]. apply count_le.
  intros ch Hch H. apply allV_in_length in Hch. unfold batch_fails in H. set (o := script (nchal (hist t)) ch) in H.
  destruct (run_draws o "t" k t) as [ts t1] eqn:D.
  destruct (multi_open_run HE Hp o sc addr g h tau m polys points t ts t1 Hinj Hm ltac:(lia) Hk Hwf Ht Hf D) as [_ [_ [_ [v [e [pf [t2 [gp [po [V1 [V2 [V3 [V4 [_ [X1 [X2 [_ [_ [_ [_ X3]]]]]]]]]]]]]]]]]]]].
  rewrite X3 in H.
  destruct (run_draws_script ch "t" (nchal (hist t)) k t 0 ltac:(lia) ltac:(lia)) as [_ A2]. fold o in A2. rewrite D in A2. cbn [snd] in A2.
  destruct (sc_prove_script (nchal (hist t)) ch sc v t1 pf t2 k (proj1 (built_vals v e V1)) ltac:(lia) ltac:(lia) ltac:(lia) ltac:(lia) X1) as [P1 _]. rewrite V2 in P1.
  destruct (existsb (isnode 3) (firstn m (skipn k ch))) eqn:X; [reflexivity|]. exfalso.
  destruct (batch_honest HE Hp o sc addr g h tau m polys points t ts t1 Hinj Hm ltac:(lia) Hk Hwf Ht Hf) as [pf' [pfo [t2' [L [M [A _]]]]]].
  { rewrite draw_vecT_ok by exact Ht. fold k. rewrite D. reflexivity. }
  pose proof (M (open_values polys points)) as M'. rewrite X3 in M'. injection M' as <- <- <-.
  rewrite (A (open_values polys points)) in H; [discriminate H|apply open_values_length; apply Hwf|reflexivity|]. rewrite P1. apply any_node_false. exact X.
Qed.

(** ** The compiled proof *)
Lemma hist_error : forall (oh : oracle p comm) sc sc' addr debug vdebug g h rnd N k srs ck vk ops vops s hs D M,
  1 <= N -> k <= N -> gen_srs E g h rnd N = Ok srs -> kzg_trim srs None (Some k) = Ok (ck, vk) -> distinct_addresses addr ->
  prun oh ck ops = Ok (s, hs) -> mirror false ck ops vops ->
  (forall d, In d (degrees ops) -> d <= D) -> 1 <= D -> D + 1 < fsize p -> 2 < fsize p ->
  2 <= commit_calls ops -> 0 < max_nv hs <= k -> zeros_hold ops -> (forall i c, In (VOSum i c) vops -> c = sum_at ops (max_nv hs) i) ->
  let L := length (zero_calls ops) + max_nv hs + length (sum_calls ops) + 1 + max_nv hs + Nat.log2_up (commit_calls ops) + max_nv hs in
  count (fun ch => negb (compile_verify oh sc sc' addr debug vdebug vk vops s ch)) (allV p (L + M)) <= max_nv hs * (D + 5) * fsize p ^ (L + M - 1).
Proof.
  intros oh sc sc' addr debug vdebug g h rnd N k srs ck vk ops vops s hs D M HN Hk Hg Ht Hadr H Hm Hdeg HD HDf H2f H2 Hn Hz Hall L.
  destruct (kzg_trim_srs HE g h rnd N k HN Hk) as [srs' [ck' [vk' [G1 [G2 [G3 G4]]]]]]. rewrite Hg in G1. inversion G1; subst srs'. rewrite Ht in G2. inversion G2; subst ck' vk'. clear G1 G2.
  set (tau := suffix k (trapdoor rnd N)) in *. subst ck vk.
  assert (Lt : length tau = k) by (unfold tau; apply suffix_length; rewrite trapdoor_length; exact Hk).
  set (n := max_nv hs) in *. set (l := Nat.log2_up (commit_calls ops)) in *. set (a := length (zero_calls ops) + n + length (sum_calls ops) + 1) in *.
  assert (EL : L = a + n + l + n) by reflexivity.
  eapply Nat.le_trans; [apply (count_le _ (fun ch => existsb (isnode (D + 2)) (firstn n (skipn a ch)) || existsb (isnode 3) (firstn n (skipn (a + n + l) ch))))|].
  - intros ch Hch Hv. apply allV_in_length in Hch. apply orb_true_iff. destruct (existsb (isnode (D + 2)) (firstn n (skipn a ch))) eqn:X; [left; reflexivity|right].
    destruct (existsb (isnode 3) _) eqn:Y; [reflexivity|]. exfalso. apply negb_true_iff in Hv. unfold compile_verify in Hv. set (k0 := nchal (hist (pt_tr s))) in *. set (o := script k0 ch) in *.
    destruct (hist_compile HE Hp oh o sc sc' addr g h tau ops s hs D H Hadr Hdeg HD HDf H2f H2 ltac:(unfold n in Hn; lia)) as [cz [t1 [r [t2 [cs [t3 [R1 [R2 [R3 Hc]]]]]]]]].
    cbv zeta in Hc. rewrite (zero_claims _ _ _ _ _ (max_nv hs) cz r H Hz) in Hc. fold n in R2, R3, Hc.
    destruct (proj2 (Hc debug) (fun _ => eq_refl)) as [cp [s' [C1 [C2 [C3 [C3p [C4 [C5 [C6 [C7 C8]]]]]]]]]]. rewrite C1 in Hv.
    destruct (hist_lockstep oh vdebug false _ (vk_of g h tau) cp ops vops s hs Hm H C4) as [v [L1 [L2 [L3 [L4 [L5 [L6 _]]]]]]]. rewrite L1 in Hv.
    destruct (vrun_sc _ _ _ _ _ _ _ L1) as [V1 [V2 _]]. cbn in V1, V2. destruct (hist_calls _ _ _ _ _ H) as [Zc [Sc _]].
    pose proof (proj1 (hist_covers_sums _ _ _ _ _ _ _ _ _ _ n Hm H L1 L6 C5) Hall) as HW.
    assert (Off : off_nodes cp).
    { assert (T3 : nchal (hist t3) = k0 + a).
      { destruct (run_draws_script ch "zerocheck challenge" k0 (length (zero_calls ops)) (pt_tr s) 0 ltac:(unfold k0; lia) ltac:(lia)) as [_ A2]. fold o in A2. rewrite R1 in A2. cbn [snd] in A2.
        destruct (run_draws_script ch "0check r" k0 n t1 (length (zero_calls ops)) ltac:(lia) ltac:(lia)) as [_ B2]. fold o in B2. rewrite R2 in B2. cbn [snd] in B2.
        destruct (run_draws_script ch "sumcheck challenge" k0 (length (sum_calls ops) + 1) t2 (length (zero_calls ops) + n) ltac:(lia) ltac:(lia)) as [_ D2]. fold o in D2. rewrite R3 in D2. cbn [snd] in D2.
        unfold a. lia. }
      destruct C8 as [ms [u1 [ts [u2 [bp [ms2 [u3 [W1 [W2 [W3 [W4 [W5 W6]]]]]]]]]]]].
      pose proof (run_msgs_script ms ch k0 (append "aux info" (PAux (cp_deg cp) n) t3) a) as Q1. pose proof (nchal_run_msgs o ms (append "aux info" (PAux (cp_deg cp) n) t3)) as Q2.
      fold o in Q1. rewrite W1, nchal_append, W2 in Q1, Q2. cbn [fst snd] in Q1, Q2. specialize (Q1 T3 ltac:(lia)).
      destruct (run_draws_script ch "t" k0 l u1 (a + n) ltac:(lia) ltac:(lia)) as [_ A2]. fold o in A2. fold l in W3. rewrite W3 in A2. cbn [snd] in A2.
      pose proof (run_msgs_script ms2 ch k0 (append "aux info" (PAux 2 n) u2) (a + n + l)) as Q3. fold o in Q3. rewrite W5, nchal_append, W6 in Q3. cbn [fst] in Q3. specialize (Q3 ltac:(lia) ltac:(lia)).
      split.
      - rewrite Q1. intros c Hc' i Hi. apply (any_node_false _ _ X c Hc'). lia.
      - intros b c Hb. rewrite W4 in Hb. destruct Hb as [<-|[]]. rewrite Q3. apply any_node_false. exact Y. }
    destruct (C6 v V1 V2 L3 L4) as [_ C6b].
    + rewrite L5, Zc, map_length. reflexivity.
    + rewrite <- (map_length fst), L6, Sc, map_length. reflexivity.
    + rewrite HW in C6b. destruct (proj1 (C6b eq_refl) Off) as [v' Hv']. rewrite Hv' in Hv. discriminate Hv.
  - eapply Nat.le_trans; [apply count_or|].
    pose proof (count_window_nodes (D + 2) a n (l + n + M) ltac:(lia)) as W1. pose proof (count_window_nodes 3 (a + n + l) n M ltac:(lia)) as W2.
    replace (a + (n + (l + n + M))) with (L + M) in W1 by lia. replace (a + n + l + (n + M)) with (L + M) in W2 by lia.
    eapply Nat.le_trans; [apply Nat.add_le_mono; [exact W1|exact W2]|]. generalize (fsize p ^ (L + M - 1)). intros. nia.
Qed.
End B.
End N.
