(** The handles a program gets are pairwise different. *)
From Coq Require Import String List Arith Lia Bool ZArith.
Import ListNotations.
From Verif Require Import Res ResLemmas Fp FSum ModelMle ModelVp ModelTranscript ModelSumcheck Pairing ModelKzg ModelBatch ModelProver ModelVerifier ModelHandles HandleHist HandleProofs DegreeProofs CompileProofs.
Local Open Scope list_scope.
Local Open Scope nat_scope.

Section S.
Context {p : positive} {E : pairing p}.
Implicit Types t : ptrk E.

Ltac bd H := match type of H with bind ?r _ = Ok _ => let q := fresh "q" in let Q := fresh "Q" in destruct r as [q| |] eqn:Q; cbn [bind] in H; [|discriminate|discriminate] end.

Lemma materialize_next : forall t id t', materialize_poly t id = Ok t' -> pt_next t' = pt_next t.
Proof. intros t id t' H. apply materialize_loop_sub in H. apply H. Qed.
Lemma evaluations_next : forall t id l t', evaluations t id = Ok (l, t') -> pt_next t' = pt_next t.
Proof. intros t id l t' H. apply evaluations_sub in H. apply H. Qed.
Lemma addsub_next : forall t a b d i t', add_sub_polys t a b d = Ok (i, t') -> i = pt_next t /\ pt_next t' = S (pt_next t).
Proof. intros t a b d i t' H. unfold add_sub_polys in H. bd H. bd H. inversion H; subst. split; reflexivity. Qed.
Lemma mul_next : forall t a b i t', mul_polys t a b = Ok (i, t') -> i = pt_next t /\ pt_next t' = S (pt_next t).
Proof. intros t a b i t' H. unfold mul_polys in H. bd H. bd H. inversion H; subst. split; reflexivity. Qed.
Lemma muls_next : forall t a c i t', mul_scalar t a c = Ok (i, t') -> i = pt_next t /\ pt_next t' = S (pt_next t).
Proof. intros t a c i t' H. unfold mul_scalar in H. destruct (mget (pt_mat t) a); [inversion H; subst; split; reflexivity|]. bd H. inversion H; subst. split; reflexivity. Qed.
Lemma chal_next : forall (o : oracle p (gcar (PG1 E))) l t x t', pt_challenge o l t = Ok (x, t') -> pt_next t' = pt_next t.
Proof. intros o l t x t' H. unfold pt_challenge in H. bd H. destruct q as [c u]. inversion H; subst. reflexivity. Qed.
Lemma incr_next : forall f t id k i t', increase_nv f t id k = Ok (i, t') -> i = pt_next t /\ pt_next t' = S (pt_next t).
Proof.
  intros f t id k i t' H. unfold increase_nv in H. bd H. apply materialize_next in Q. bd H. bd H.
  destruct (k =? 0); cbn [new_arc] in H; inversion H; subst; cbn; rewrite Q; split; reflexivity.
Qed.

Lemma unw : forall {A} (r : res A) a, unwrap r = Ok a -> r = Ok a.
Proof. intros A [x| |] a H; cbn in H; congruence. Qed.
Lemma convert_next : forall (o : oracle p (gcar (PG1 E))) n t t', convert_zerocheck_claims o n t = Ok t' -> pt_next t <= pt_next t'.
Proof.
  intros o n t t' H. unfold convert_zerocheck_claims in H. bd H. cbn [track_mat_poly new_arc track_mat_arc_poly gen_id put_mat] in H. cbv zeta beta in H.
  match type of H with bind (foldM ?f ?a ?l) _ = _ => destruct (foldM f a l) as [[agg s1]| |] eqn:Ef; cbn [bind] in H; [|discriminate|discriminate]; assert (Hs : pt_next (snd a) <= pt_next (snd (agg, s1))) end.
  { match type of Ef with foldM _ _ ?l = _ => generalize dependent l end. intros l Ef. revert Ef. apply (foldM_inv _ _ (fun a b : nat * ptrk E => pt_next (snd a) <= pt_next (snd b))); [intros; lia|intros; lia|].
    intros [a s] x [b s'] Hc. cbn [fst snd] in *. bd Hc. destruct q0 as [c s2]. apply unw in Q0. apply chal_next in Q0. bd Hc. destruct q0 as [j s3].
    apply muls_next in Q1. apply addsub_next in Hc. lia. }
  cbn [snd pt_next] in Hs. bd H. destruct q0 as [r u]. bd H. bd H. destruct q1 as [j s4]. apply mul_next in Q2. inversion H; subst. cbn in *. lia.
Qed.
Lemma aggregate_next : forall (o : oracle p (gcar (PG1 E))) n t x t', aggregate_sumcheck_claims o n t = Ok (x, t') -> pt_next t <= pt_next t'.
Proof.
  intros o n t x t' H. unfold aggregate_sumcheck_claims in H. bd H. cbn [track_mat_poly new_arc track_mat_arc_poly gen_id put_mat] in H. cbv zeta beta in H.
  match type of H with foldM ?f ?a ?l = Ok ?b => assert (Hs : pt_next (snd a) <= pt_next (snd b)) end.
  { match type of H with foldM _ _ ?l = _ => generalize dependent l end. intros l H. revert H. apply (foldM_inv _ _ (fun a b : nat * F p * ptrk E => pt_next (snd a) <= pt_next (snd b))); [intros; lia|intros; lia|].
    intros [[a sm] s] y [[b sm'] s'] Hc. cbn [fst snd] in *. bd Hc. destruct q0 as [c s2]. apply unw in Q0. apply chal_next in Q0. bd Hc. destruct q0 as [j s3].
    apply muls_next in Q1. bd Hc. destruct q0 as [j2 s4]. apply addsub_next in Q2. inversion Hc; subst. lia. }
  cbn in Hs. lia.
Qed.
Lemma compile_next : forall (o : oracle p (gcar (PG1 E))) sc sc' addr debug t cp t', compile_proof o sc sc' addr debug t = Ok (cp, t') -> pt_next t <= pt_next t'.
Proof.
  intros o sc sc' addr debug t cp t' H. unfold compile_proof in H. bd H. destruct q as [n s1]. apply equalize_old in Q. destruct Q as [Q _].
  bd H. apply convert_next in Q0. bd H. destruct q0 as [[agg sum] s3]. apply aggregate_next in Q1.
  assert (Hs : forall s4, (if debug then ' (ev, s') <- evaluations s3 agg ;; _ <- ensure (Feqb (fold_left Fadd ev F0) sum) IOPInvalidProver ;; Ok s' else Ok s3) = Ok s4 -> pt_next s3 <= pt_next s4).
  { intros s4 Hd. destruct debug; [|inversion Hd; subst; lia]. bd Hd. destruct q0 as [ev s']. apply evaluations_next in Q2. bd Hd. inversion Hd; subst. lia. }
  bd H. specialize (Hs _ eq_refl). bd H. bd H. destruct q2 as [pf u]. bd H. bd H. bd H. destruct q4 as [bp u']. inversion H; subst. cbn. lia.
Qed.

(** The answers of one tracker. *)
Lemma alone_next : forall (o : oracle p (gcar (PG1 E))) sc sc' addr debug t c x t', alone o sc sc' addr debug t c = Ok (x, t') ->
  pt_next t <= pt_next t' /\ forall h, x = AHandle h -> pt_next t <= ph_id h < pt_next t' /\ goes c = Some (ph_at h) \/ goes c = None.
Proof.
  intros o sc sc' addr debug t c x t' H.
  destruct c; cbn [alone goes] in *; unfold named, tp_track, tp_commit, tp_add, tp_sub, tp_mul, tp_bin, tp_add_scalar, tp_mul_scalar, tp_front, tp_back, tp_evaluate, tp_evaluations in H.
  all: try (destruct (ph_at a =? ph_at b)).
  - cbn in H. inversion H; subst. cbn. split; [lia|]. intros h Hh. inversion Hh; subst. cbn. left. split; [lia|reflexivity].
  - bd H. destruct q as [h0 t0]. bd Q. destruct q as [i t1]. unfold track_and_commit_mat_poly in Q0. bd Q0. cbn in Q0. inversion Q0; subst. inversion Q; subst. inversion H; subst. cbn.
    split; [lia|]. intros h Hh. inversion Hh; subst. cbn. left. split; [lia|reflexivity].
  - bd H. destruct q as [h0 t0]. bd Q. bd Q. destruct q0 as [i t1]. apply addsub_next in Q1. inversion Q; subst. inversion H; subst. split; [lia|]. intros h Hh. inversion Hh; subst. cbn. left. split; [lia|reflexivity].
  - bd H. destruct q as [h0 t0]. bd Q. bd Q. destruct q0 as [i t1]. apply addsub_next in Q1. inversion Q; subst. inversion H; subst. split; [lia|]. intros h Hh. right. reflexivity.
  - bd H. destruct q as [h0 t0]. bd Q. bd Q. destruct q0 as [i t1]. apply addsub_next in Q1. inversion Q; subst. inversion H; subst. split; [lia|]. intros h Hh. inversion Hh; subst. cbn. left. split; [lia|reflexivity].
  - bd H. destruct q as [h0 t0]. bd Q. bd Q. destruct q0 as [i t1]. apply addsub_next in Q1. inversion Q; subst. inversion H; subst. split; [lia|]. intros h Hh. right. reflexivity.
  - bd H. destruct q as [h0 t0]. bd Q. bd Q. destruct q0 as [i t1]. apply mul_next in Q1. inversion Q; subst. inversion H; subst. split; [lia|]. intros h Hh. inversion Hh; subst. cbn. left. split; [lia|reflexivity].
  - bd H. destruct q as [h0 t0]. bd Q. bd Q. destruct q0 as [i t1]. apply mul_next in Q1. inversion Q; subst. inversion H; subst. split; [lia|]. intros h Hh. right. reflexivity.
  - bd H. destruct q as [h0 t0]. bd Q. destruct q as [i t1]. unfold add_scalar in Q0. bd Q0. bd Q0. cbn [track_mat_poly new_arc track_mat_arc_poly gen_id put_mat] in Q0. cbv zeta beta in Q0.
    apply addsub_next in Q0. cbn in Q0. inversion Q; subst. inversion H; subst. split; [lia|]. intros h Hh. inversion Hh; subst. cbn. left. split; [lia|reflexivity].
  - bd H. destruct q as [h0 t0]. bd Q. destruct q as [i t1]. apply muls_next in Q0. inversion Q; subst. inversion H; subst. split; [lia|]. intros h Hh. inversion Hh; subst. cbn. left. split; [lia|reflexivity].
  - bd H. destruct q as [h0 t0]. bd Q. destruct q as [i t1]. apply incr_next in Q0. inversion Q; subst. inversion H; subst. split; [lia|]. intros h Hh. inversion Hh; subst. cbn. left. split; [lia|reflexivity].
  - bd H. destruct q as [h0 t0]. bd Q. destruct q as [i t1]. apply incr_next in Q0. inversion Q; subst. inversion H; subst. split; [lia|]. intros h Hh. inversion Hh; subst. cbn. left. split; [lia|reflexivity].
  - bd H. inversion H; subst. split; [lia|]. intros h Hh. discriminate.
  - bd H. destruct q as [l t0]. apply evaluations_next in Q. inversion H; subst. split; [lia|]. intros h Hh. discriminate.
  - bd H. destruct q as [y t0]. apply chal_next in Q. inversion H; subst. split; [lia|]. intros h Hh. discriminate.
  - inversion H; subst. cbn. split; [lia|]. intros h Hh. discriminate.
  - inversion H; subst. cbn. split; [lia|]. intros h Hh. discriminate.
  - inversion H; subst. cbn. split; [lia|]. intros h Hh. discriminate.
  - bd H. destruct q as [cp t0]. apply compile_next in Q. inversion H; subst. split; [lia|]. intros h Hh. discriminate.
Qed.

(** All handles a program gets are new ones of their trackers. *)
Definition next_of (w : list (ptrk E)) (r : nat) : nat := match nth_error w r with Some t => pt_next t | None => 0 end.

Lemma step_next : forall (o : oracle p (gcar (PG1 E))) sc sc' addr debug w c x w', hcall_do o sc sc' addr debug w c = Ok (x, w') ->
  (forall r, next_of w r <= next_of w' r) /\ forall h, x = AHandle h -> next_of w (ph_at h) <= ph_id h < next_of w' (ph_at h).
Proof.
  intros o sc sc' addr debug w c x w' H. rewrite hcall_gstep in H. unfold gstep in H. destruct (goes c) as [r|] eqn:Hg; [|discriminate].
  destruct (rnth w r) as [t| |] eqn:Hr; cbn [bind] in H; try discriminate. apply rnth_inv in Hr.
  destruct (alone o sc sc' addr debug t c) as [[y t']| |] eqn:Ha; cbn [bind] in H; try discriminate. inversion H; subst.
  apply alone_next in Ha. destruct Ha as [H1 H2]. assert (HL : r < length w) by (apply nth_error_Some; congruence). split.
  - intros q. unfold next_of. destruct (Nat.eq_dec r q) as [<-|Q]; [rewrite upd_same, Hr by exact HL; exact H1|]. rewrite upd_other by exact Q. lia.
  - intros h Hh. destruct (H2 h Hh) as [[A B]|B]; [|congruence]. assert (ph_at h = r) by congruence. subst r. unfold next_of. rewrite upd_same, Hr by exact HL. exact A.
Qed.

Lemma runs_fresh : forall (o : oracle p (gcar (PG1 E))) sc sc' addr debug calls w xs w', runs (hcall_do o sc sc' addr debug) w calls = Ok (xs, w') ->
  (forall i h, nth_error xs i = Some (AHandle h) -> next_of w (ph_at h) <= ph_id h) /\
  forall i j a b, nth_error xs i = Some (AHandle a) -> nth_error xs j = Some (AHandle b) -> ph_id a = ph_id b -> ph_at a = ph_at b -> i = j.
Proof.
  intros o sc sc' addr debug. induction calls as [|c l IH]; intros w xs w' H; cbn [runs] in H.
  { inversion H; subst. split; intros; destruct i; discriminate. }
  destruct (hcall_do o sc sc' addr debug w c) as [[x w1]| |] eqn:Hc; cbn [bind] in H; try discriminate.
  destruct (runs (hcall_do o sc sc' addr debug) w1 l) as [[ys w2]| |] eqn:Hl; cbn [bind] in H; try discriminate. inversion H; subst.
  apply step_next in Hc. destruct Hc as [M F]. destruct (IH _ _ _ Hl) as [I1 I2]. split.
  - intros [|i] h Hi; cbn in Hi; [inversion Hi; subst; apply (F h eq_refl)|]. specialize (I1 i h Hi). specialize (M (ph_at h)). lia.
  - intros [|i] [|j] a b Ha Hb Q1 Q2; cbn in Ha, Hb; [reflexivity| | |f_equal; eapply I2; eassumption].
    + inversion Ha; subst. specialize (I1 j b Hb). destruct (F a eq_refl) as [_ F2]. rewrite Q1, Q2 in F2. lia.
    + inversion Hb; subst. specialize (I1 i a Ha). destruct (F b eq_refl) as [_ F2]. rewrite <- Q1, <- Q2 in F2. lia.
Qed.

Lemma handles_equal : forall (o : oracle p (gcar (PG1 E))) sc sc' addr debug w calls answers w', runs (hcall_do o sc sc' addr debug) w calls = Ok (answers, w') ->
  forall i j a b, nth_error answers i = Some (AHandle a) -> nth_error answers j = Some (AHandle b) -> (ph_eqb a b = true <-> i = j).
Proof.
  intros o sc sc' addr debug w calls answers w' H i j a b Ha Hb. unfold ph_eqb, ph_same. rewrite andb_true_iff, !Nat.eqb_eq. split.
  - intros [Q1 Q2]. exact (proj2 (runs_fresh _ _ _ _ _ _ _ _ _ H) i j a b Ha Hb Q1 Q2).
  - intros ->. assert (a = b) by congruence. subst. auto.
Qed.

(** Comparisons of what the handles are put into. *)
Lemma list_eqb_spec : forall {A} (eqb : A -> A -> bool) l m, list_eqb eqb l m = true <-> length l = length m /\ forall i a b, nth_error l i = Some a -> nth_error m i = Some b -> eqb a b = true.
Proof.
  intros A eqb. induction l as [|a l IH]; intros [|b m]; cbn [list_eqb length].
  - split; [intros _; split; [reflexivity|intros [|i] x y; discriminate]|reflexivity].
  - split; [discriminate|intros [H _]; discriminate].
  - split; [discriminate|intros [H _]; discriminate].
  - rewrite andb_true_iff, IH. split.
    + intros [H1 [H2 H3]]. split; [lia|]. intros [|i] x y Hx Hy; cbn in Hx, Hy; [congruence|eapply H3; eassumption].
    + intros [H1 H2]. split; [exact (H2 0 a b eq_refl eq_refl)|]. split; [lia|]. intros i x y Hx Hy. exact (H2 (S i) x y Hx Hy).
Qed.

Lemma comms_equal : forall i j r, vh_eqb (mkVH i r) (mkVH j r) = true.
Proof. intros. unfold vh_eqb, vh_same. cbn. apply Nat.eqb_refl. Qed.
Lemma comm_bags_equal : forall a b, vh_at (hbc_poly a) = vh_at (hbc_poly b) -> vh_at (hbc_sel a) = vh_at (hbc_sel b) -> hbc_nv a = hbc_nv b -> hbagc_eqb a b = true.
Proof. intros a b H1 H2 H3. unfold hbagc_eqb, vh_eqb, vh_same. rewrite H1, H2, H3, !Nat.eqb_refl. reflexivity. Qed.
Lemma comm_bags_exact : forall (a b : hbagc) (c d : htablec),
  (hbagc_eqb a b = true <-> vh_at (hbc_poly a) = vh_at (hbc_poly b) /\ vh_at (hbc_sel a) = vh_at (hbc_sel b) /\ hbc_nv a = hbc_nv b) /\
  (htablec_eqb c d = true <-> map vh_at (htc_cols c) = map vh_at (htc_cols d) /\ vh_at (htc_sel c) = vh_at (htc_sel d) /\ htc_nv c = htc_nv d).
Proof.
  intros a b c d. unfold hbagc_eqb, htablec_eqb. rewrite !andb_true_iff. unfold vh_eqb at 1 2 4. unfold vh_same. rewrite !Nat.eqb_eq. split; [tauto|].
  assert (L : forall l m, list_eqb vh_eqb l m = true <-> map vh_at l = map vh_at m).
  { induction l as [|x l IH]; intros [|y m]; cbn [list_eqb map]; try (split; [reflexivity || discriminate|reflexivity || discriminate]).
    rewrite andb_true_iff, IH. unfold vh_eqb, vh_same. rewrite Nat.eqb_eq. split; [intros [-> ->]; reflexivity|intros H; inversion H; auto]. }
  rewrite L. tauto.
Qed.
End S.

Section R.
Context {p : positive} {E : pairing p}.
Lemma comms_equal_refuted : forall (w : list (nat * vtrk E)) r m v c d n, nth_error w r = Some (m, v) ->
  exists a b w1 w2, hv_comm w r c = Ok (a, w1) /\ hv_comm w1 r d = Ok (b, w2) /\ vh_id a <> vh_id b /\
    vh_eqb a b = true /\ hbagc_eqb (mkHBc a a n) (mkHBc b a n) = true /\ htablec_eqb (mkHTc [a; b] a n) (mkHTc [b; a] b n) = true.
Proof.
  intros w r m v c d n H. assert (HL : r < length w) by (apply nth_error_Some; congruence).
  unfold hv_comm, at_verifier at 1. unfold rnth at 1. rewrite H. cbn [ounwrap bind track_mat_comm v_gen_id vwrapped].
  eexists. eexists. eexists. eexists. split; [reflexivity|]. unfold at_verifier, rnth. rewrite upd_same by (rewrite map_length; exact HL).
  cbn [ounwrap bind track_mat_comm v_gen_id vwrapped vt_next]. split; [reflexivity|]. split; [cbn; lia|].
  unfold hbagc_eqb, htablec_eqb, vh_eqb, vh_same. cbn [hbc_poly hbc_sel hbc_nv htc_cols htc_sel htc_nv list_eqb vh_at]. rewrite !Nat.eqb_refl. repeat split.
Qed.

Lemma foreign_claim_refuted : forall (w : list (ptrk E)) r q t u (h : phandle),
  nth_error w r = Some t -> nth_error w q = Some u -> ph_at h = q -> q <> r ->
  exists w' t', hp_zero_claim w r (ph_id h) = Ok (tt, w') /\ nth_error w' r = Some t' /\ nth_error w' q = Some u /\
    pt_zc t' = pt_zc t ++ [ph_id h] /\ forall x, tp_evaluate t' (mkTp (ph_id h) (ph_nv h)) x = tp_evaluate t (mkTp (ph_id h) (ph_nv h)) x.
Proof.
  intros w r q t u h H Hu Hq Hn. unfold hp_zero_claim, at_tracker, rnth. rewrite H. cbn [ounwrap bind]. eexists. eexists. split; [reflexivity|].
  split; [apply upd_same; apply nth_error_Some; congruence|]. split; [rewrite upd_other by congruence; exact Hu|]. split; [reflexivity|].
  intros x. unfold tp_evaluate, evaluate. cbn [tp_id].
  assert (EV : forall k f id, evaluate_loop f (add_zerocheck_claim t k) id x = evaluate_loop f t id x).
  { intros k. induction f as [|f IH]; intros id; cbn [evaluate_loop]; unfold add_zerocheck_claim at 1 2; cbn [pt_mat pt_virt]; [reflexivity|].
    destruct (mget (pt_mat t) id); [reflexivity|]. destruct (mget (pt_virt t) id) as [l|]; [|reflexivity]. cbn [ounwrap bind]. f_equal.
    apply mapM_ext. intros cp _. generalize (fst cp). generalize (snd cp). intros is. induction is as [|i is IH2]; intros a; cbn [foldM]; [reflexivity|].
    rewrite IH. destruct (evaluate_loop f t i x) as [y| |]; cbn [bind]; [|reflexivity|reflexivity]. destruct y; cbn [ounwrap bind]; [apply IH2|reflexivity]. }
  exact (EV _ _ _).
Qed.
End R.

(** Bags and tables of handles, new trackers and copies. *)
Definition one_place (a s : phandle) : Prop := ph_nv a = ph_nv s /\ ph_at a = ph_at s.
Lemma col_check : forall a s : phandle, (_ <- rassert (ph_nv a =? ph_nv s) ;; rassert (ph_same a s)) = Ok tt /\ one_place a s \/
  (_ <- rassert (ph_nv a =? ph_nv s) ;; rassert (ph_same a s)) = Panic /\ ~ one_place a s.
Proof.
  intros a s. unfold ph_same, one_place. destruct (Nat.eqb_spec (ph_nv a) (ph_nv s)), (Nat.eqb_spec (ph_at a) (ph_at s)); cbn [rassert bind]; try (right; split; [reflexivity|tauto]).
  left. auto.
Qed.
Lemma hbag_new_debug : forall a s, (one_place a s -> hbag_new true a s = Ok (mkHB a s)) /\ (~ one_place a s -> hbag_new true a s = Panic).
Proof. intros a s. unfold hbag_new. destruct (col_check a s) as [[-> H]|[-> H]]; cbn [bind]; split; intros; tauto. Qed.
Lemma htable_new_debug : forall cols s, (Forall (fun c => one_place c s) cols -> htable_new true cols s = Ok (mkHT cols s)) /\
  (~ Forall (fun c => one_place c s) cols -> htable_new true cols s = Panic).
Proof.
  intros cols s. unfold htable_new.
  assert (H : foldM (fun _ c => _ <- rassert (ph_nv c =? ph_nv s) ;; rassert (ph_same c s)) tt cols = Ok tt /\ Forall (fun c => one_place c s) cols \/
    foldM (fun _ c => _ <- rassert (ph_nv c =? ph_nv s) ;; rassert (ph_same c s)) tt cols = Panic /\ ~ Forall (fun c => one_place c s) cols).
  { induction cols as [|c l IH]; cbn [foldM]; [left; auto|]. destruct (col_check c s) as [[-> H]|[-> H]]; cbn [bind].
    - destruct IH as [[-> I]|[-> I]]; [left; auto|right; split; [reflexivity|]]. intros Q. inversion Q; auto.
    - right. split; [reflexivity|]. intros Q. inversion Q; auto. }
  destruct H as [[-> H]|[-> H]]; cbn [bind]; split; intros; tauto.
Qed.
Lemma htable_new_release : forall cols s, htable_new false cols s = Ok (mkHT cols s).
Proof. reflexivity. Qed.

Lemma new_bags : forall a s cols,
  (hbag_new true a s = Ok (mkHB a s) <-> one_place a s) /\ (hbag_new true a s = Panic <-> ~ one_place a s) /\
  (htable_new true cols s = Ok (mkHT cols s) <-> Forall (fun c => one_place c s) cols) /\
  (htable_new true cols s = Panic <-> ~ Forall (fun c => one_place c s) cols).
Proof.
  intros a s cols. destruct (hbag_new_debug a s) as [A B]. destruct (htable_new_debug cols s) as [C D].
  assert (DE : one_place a s \/ ~ one_place a s) by (destruct (col_check a s); tauto).
  assert (DF : Forall (fun c => one_place c s) cols \/ ~ Forall (fun c => one_place c s) cols).
  { clear. induction cols as [|c l [I|I]]; [left; auto| |].
    - destruct (col_check c s) as [[_ H]|[_ H]]; [left; auto|right; intros Q; inversion Q; auto].
    - right. intros Q. inversion Q; auto. }
  repeat split; auto; try (intros Q; destruct DE as [X|X]; [exact (match X with conj _ _ => X end)|rewrite (B X) in Q; discriminate]);
  try (intros Q; destruct DF as [X|X]; [exact X|rewrite (D X) in Q; discriminate]).
  all: try (destruct DE as [X|X]; [apply X|exfalso; rewrite (B X) in H; discriminate]).
  - intros Q X. rewrite (A X) in Q. discriminate.
  - intros Q X. rewrite (C X) in Q. discriminate.
Qed.

Definition one_handle (a b : phandle) : Prop := ph_id a = ph_id b /\ ph_at a = ph_at b.
Lemma ph_eqb_spec : forall a b, ph_eqb a b = true <-> one_handle a b.
Proof. intros. unfold ph_eqb, ph_same, one_handle. rewrite andb_true_iff, !Nat.eqb_eq. tauto. Qed.
Lemma list_eqb_F2 : forall l m, list_eqb ph_eqb l m = true <-> Forall2 one_handle l m.
Proof.
  induction l as [|a l IH]; intros [|b m]; cbn [list_eqb].
  - split; auto.
  - split; [discriminate|intros Q; inversion Q].
  - split; [discriminate|intros Q; inversion Q].
  - rewrite andb_true_iff, IH, ph_eqb_spec. split; [intros [A B]; auto|intros Q; inversion Q; auto].
Qed.
Lemma hbag_eqb_spec : forall a b, hbag_eqb a b = true <-> one_handle (hb_poly a) (hb_poly b) /\ one_handle (hb_sel a) (hb_sel b).
Proof. intros. unfold hbag_eqb. rewrite andb_true_iff, !ph_eqb_spec. tauto. Qed.
Lemma htable_eqb_spec : forall a b, htable_eqb a b = true <-> Forall2 one_handle (ht_cols a) (ht_cols b) /\ one_handle (ht_sel a) (ht_sel b).
Proof. intros. unfold htable_eqb. rewrite andb_true_iff, list_eqb_F2, ph_eqb_spec. tauto. Qed.

Section Bags.
Context {p : positive} {E : pairing p}.
Lemma bags_equal : forall (o : oracle p (gcar (PG1 E))) sc sc' addr debug w calls answers w', runs (hcall_do o sc sc' addr debug) w calls = Ok (answers, w') ->
  (forall i j k l a s b t, nth_error answers i = Some (AHandle a) -> nth_error answers j = Some (AHandle s) ->
    nth_error answers k = Some (AHandle b) -> nth_error answers l = Some (AHandle t) -> (hbag_eqb (mkHB a s) (mkHB b t) = true <-> i = k /\ j = l)) /\
  (forall is js k l A s B t, map (fun i => nth_error answers i) is = map (fun h => Some (AHandle h)) A -> map (fun i => nth_error answers i) js = map (fun h => Some (AHandle h)) B ->
    nth_error answers k = Some (AHandle s) -> nth_error answers l = Some (AHandle t) -> (htable_eqb (mkHT A s) (mkHT B t) = true <-> is = js /\ k = l)).
Proof.
  intros o sc sc' addr debug w calls answers w' H. pose proof (handles_equal _ _ _ _ _ _ _ _ _ H) as Q. split.
  - intros i j k l a s b t Ha Hs Hb Ht. unfold hbag_eqb. cbn [hb_poly hb_sel]. rewrite andb_true_iff, (Q i k a b Ha Hb), (Q j l s t Hs Ht). tauto.
  - intros is js k l A s B t HA HB Hs Ht. unfold htable_eqb. cbn [ht_cols ht_sel]. rewrite andb_true_iff, (Q k l s t Hs Ht).
    assert (L : list_eqb ph_eqb A B = true <-> is = js).
    { clear Hs Ht. revert js A B HA HB. induction is as [|i is IH]; intros [|j js] [|a A] [|b B] HA HB; cbn in HA, HB; try discriminate; cbn [list_eqb]; [tauto|split; discriminate|split; discriminate|].
      injection HA as Ha HA. injection HB as Hb HB. rewrite andb_true_iff, (IH js A B HA HB), (Q i j a b Ha Hb). split; [intros [-> ->]; reflexivity|intros G; inversion G; auto]. }
    rewrite L. tauto.
Qed.

Lemma copies_alone : forall (o : oracle p (gcar (PG1 E))) sc sc' addr debug w r c w1 calls answers w',
  hp_copy w r = Ok (c, w1) -> runs (hcall_do o sc sc' addr debug) w1 calls = Ok (answers, w') ->
  exists t t1 t2, nth_error w r = Some t /\ c <> r /\ nth_error w' r = Some t1 /\ nth_error w' c = Some t2 /\
    runs (alone o sc sc' addr debug) t (calls_to goes r calls) = Ok (answers_from goes r calls answers, t1) /\
    runs (alone o sc sc' addr debug) t (calls_to goes c calls) = Ok (answers_from goes c calls answers, t2).
Proof.
  intros o sc sc' addr debug w r c w1 calls answers w' Hc H. unfold hp_copy, rnth in Hc. destruct (nth_error w r) as [t|] eqn:Hr; [|discriminate].
  cbn [ounwrap bind] in Hc. injection Hc as <- <-. assert (HL : r < length w) by (apply nth_error_Some; congruence).
  apply prover_alone in H. destruct H as [L [_ [_ K]]]. rewrite app_length in L. cbn in L.
  destruct (nth_error w' r) as [t1|] eqn:H1; [|apply nth_error_None in H1; lia].
  destruct (nth_error w' (length w)) as [t2|] eqn:H2; [|apply nth_error_None in H2; lia].
  exists t, t1, t2. repeat split; auto; [lia| |].
  - apply K; [rewrite nth_error_app1 by exact HL; exact Hr|exact H1].
  - apply K; [rewrite nth_error_app2 by lia; rewrite Nat.sub_diag; reflexivity|exact H2].
Qed.
Lemma new_alone : forall (o : oracle p (gcar (PG1 E))) sc sc' addr debug w pp c w1 calls answers w',
  hp_new w pp = (c, w1) -> runs (hcall_do o sc sc' addr debug) w1 calls = Ok (answers, w') ->
  exists u, nth_error w' c = Some u /\ runs (alone o sc sc' addr debug) (pt_new pp) (calls_to goes c calls) = Ok (answers_from goes c calls answers, u) /\
  forall r t t', nth_error w r = Some t -> nth_error w' r = Some t' -> r <> c /\
    runs (alone o sc sc' addr debug) t (calls_to goes r calls) = Ok (answers_from goes r calls answers, t').
Proof.
  intros o sc sc' addr debug w pp c w1 calls answers w' Hc H. unfold hp_new in Hc. injection Hc as <- <-.
  apply prover_alone in H. destruct H as [L [_ [_ K]]]. rewrite app_length in L. cbn in L.
  destruct (nth_error w' (length w)) as [t2|] eqn:H2; [|apply nth_error_None in H2; lia].
  exists t2. repeat split; auto.
  - apply K; [rewrite nth_error_app2 by lia; rewrite Nat.sub_diag; reflexivity|exact H2].
  - assert (r < length w) by (apply nth_error_Some; congruence). lia.
  - apply K; [rewrite nth_error_app1 by (apply nth_error_Some; congruence); exact H|exact H0].
Qed.
Lemma vnew_alone : forall (o : oracle p (gcar (PG1 E))) debug (w : list (nat * vtrk E)) m vk c w1 calls answers w', NoDup (map fst w) -> ~ In m (map fst w) ->
  hv_new w m vk = (c, w1) -> runs (vhcall_do o debug) w1 calls = Ok (answers, w') ->
  exists u, nth_error w' c = Some (m, u) /\ runs (valone o debug) (vt_new vk) (calls_to vgoes c calls) = Ok (answers_from vgoes c calls answers, u) /\
  forall r k v k' v', nth_error w r = Some (k, v) -> nth_error w' r = Some (k', v') -> r <> c /\
    runs (valone o debug) v (calls_to vgoes r calls) = Ok (answers_from vgoes r calls answers, v').
Proof.
  intros o debug w m vk c w1 calls answers w' ND NI Hc H. unfold hv_new in Hc. injection Hc as <- <-.
  apply verifier_alone in H.
  2: { rewrite map_app. cbn [map fst]. apply NoDup_rev in ND. rewrite <- (rev_involutive (map fst w ++ [m])), rev_app_distr. apply NoDup_rev. cbn.
       constructor; [rewrite <- in_rev; exact NI|exact ND]. }
  destruct H as [L [_ [_ K]]]. rewrite app_length in L. cbn in L.
  destruct (nth_error w' (length w)) as [[m2 t2]|] eqn:H2; [|apply nth_error_None in H2; lia].
  destruct (K (length w) m (vt_new vk) m2 t2) as [-> R]; [rewrite nth_error_app2 by lia; rewrite Nat.sub_diag; reflexivity|exact H2|].
  exists t2. split; [reflexivity|]. split; [exact R|]. intros r k v k' v' Hr Hr'. assert (r < length w) by (apply nth_error_Some; congruence).
  split; [lia|]. refine (proj2 (K r k v k' v' _ Hr')). rewrite nth_error_app1 by assumption. exact Hr.
Qed.
End Bags.
