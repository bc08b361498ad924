(** The verifier's side of the protocols: what its calls add, and what the values of its virtual commitments must be when the claims hold. *)
From Coq Require Import String List Arith Lia Bool ZArith Znumtheory Sorting.Sorted.
Import ListNotations.
From Verif Require Import Res ResLemmas Fp FSum SpecMle SpecPoly PolyLemmas SpecTracker SpecIop ModelMle MleLemmas ModelTranscript Pairing ModelKzg ModelBatch
  ModelProver ModelVerifier ModelAdvice ModelIop ProverHist VerifierHist CompileHist IopHist TmapLemmas LogDeriv BagLemmas BindHist.
Local Open Scope string_scope.
Local Open Scope list_scope.
Local Open Scope nat_scope.

Section P.
Context {p : positive} {E : pairing p}.
Add Ring Fq : (@F_ring p).
Notation comm := (gcar (PG1 E)).
Implicit Types (v : vtrk E) (V : tmap (vexp p)) (A : reading (p:=p)).

Definition sub_map V V' : Prop := forall id e, mget V id = Some e -> mget V' id = Some e.
Definition vready v : Prop := forall id, vt_next v <= id -> mget (vt_virt v) id = None.
Record vgo v v' (ds : list (F p)) : Prop := {
  y_next : vt_next v <= vt_next v';
  y_ready : vready v';
  y_sub : sub_map (vt_virt v) (vt_virt v');
  y_zc : exists z, vt_zc v' = vt_zc v ++ z;
  y_sc : exists z, vt_sc v' = vt_sc v ++ z;
  y_tr : exists t, hist (vt_tr v') = hist (vt_tr v) ++ t /\ challenges t = ds;
  y_bound : comms_bound v -> comms_bound v' }.

Lemma absorbed_app : forall (a b : list (event p comm)), absorbed (E:=E) (a ++ b) = absorbed a ++ absorbed b. Proof. intros a b. apply flat_map_app. Qed.
Lemma bound_same : forall v v', vt_next v <= vt_next v' -> vt_mat v' = vt_mat v -> (exists t, hist (vt_tr v') = hist (vt_tr v) ++ t /\ absorbed (E:=E) t = []) -> comms_bound v -> comms_bound v'.
Proof.
  intros v v' Hn Hm [t [Ht Ha]] [ids [B1 [B2 [B3 B4]]]]. exists ids. rewrite Hm, Ht, absorbed_app, Ha, app_nil_r. split; [exact B1|]. split; [|split; [exact B3|exact B4]].
  eapply Forall_impl; [|exact B2]. intros a Hl. cbn beta in Hl. lia.
Qed.
Lemma sorted_snoc : forall l n, StronglySorted lt l -> Forall (fun a => a < n) l -> StronglySorted lt (l ++ [n]).
Proof.
  intros l n. induction l as [|a l IH]; intros H1 H2; cbn; [constructor; constructor|]. inversion H1; subst. inversion H2; subst. constructor; [apply IH; assumption|]. apply Forall_app. auto.
Qed.
Lemma bound_comm : forall v c id v', track_mat_comm v c = (id, v') -> comms_bound v -> comms_bound v'.
Proof.
  intros v c id v' H [ids [B1 [B2 [B3 B4]]]]. unfold track_mat_comm, v_gen_id, put_virt, set_vtr in H. injection H as _ H. subst v'. exists (ids ++ [vt_next v]). cbn [vt_next vt_mat vt_tr append hist].
  split; [apply sorted_snoc; assumption|]. split; [apply Forall_app; split; [eapply Forall_impl; [|exact B2]; intros a Ha; cbn beta in Ha; lia|constructor; [lia|constructor]]|].
  rewrite absorbed_app. split.
  - apply Forall2_app; [|constructor; [apply mget_mput_same|constructor]]. clear B1 B4. revert B2 B3. generalize (absorbed (E:=E) (hist (vt_tr v))). induction ids as [|a ids IH]; intros l B2 B3; inversion B3; subst; constructor.
    + inversion B2; subst. rewrite mget_mput_other by lia. assumption.
    + inversion B2; subst. apply IH; assumption.
  - intros j x Hj. apply in_or_app. destruct (Nat.eq_dec j (vt_next v)) as [->|Hne]; [right; left; reflexivity|]. rewrite mget_mput_other in Hj by congruence. left. eapply B4. exact Hj.
Qed.

Lemma sub_refl : forall V, sub_map V V. Proof. intros V id e H. exact H. Qed.
Lemma sub_trans : forall a b c, sub_map a b -> sub_map b c -> sub_map a c. Proof. intros a b c H1 H2 id e H. auto. Qed.
Lemma vgo_refl : forall v, vready v -> vgo v v [].
Proof. intros v H. constructor; [lia|exact H|apply sub_refl|exists []; rewrite app_nil_r; reflexivity|exists []; rewrite app_nil_r; reflexivity|exists []; rewrite app_nil_r; auto|auto]. Qed.
Lemma vgo_trans : forall a b c ds ds', vgo a b ds -> vgo b c ds' -> vgo a c (ds ++ ds').
Proof.
  intros a b c ds ds' [A1 A2 A3 [z A4] [y A5] [t [A6 A7]] A8] [B1 B2 B3 [z' B4] [y' B5] [t' [B6 B7]] B8]. constructor; [lia|exact B2|eapply sub_trans; eassumption| | | |auto].
  - exists (z ++ z'). rewrite B4, A4, app_assoc. reflexivity.
  - exists (y ++ y'). rewrite B5, A5, app_assoc. reflexivity.
  - exists (t ++ t'). rewrite B6, A6, app_assoc. split; [reflexivity|]. unfold challenges in *. rewrite flat_map_app. congruence.
Qed.
Lemma vgo_drawn : forall v v' ds, vgo v v' ds -> drawn (vt_tr v) (vt_tr v') = ds.
Proof.
  intros v v' ds H. destruct (y_tr _ _ _ H) as [t [H1 H2]]. unfold drawn. rewrite H1. replace (skipn (length (hist (vt_tr v))) (hist (vt_tr v) ++ t)) with t; [exact H2|].
  clear H1. induction (hist (vt_tr v)) as [|x r IH]; [reflexivity|exact IH].
Qed.

Lemma put_go : forall v e v', vready v -> vt_virt v' = mput (vt_virt v) (vt_next v) e -> vt_next v' = S (vt_next v) -> vt_zc v' = vt_zc v -> vt_sc v' = vt_sc v ->
  (exists t, hist (vt_tr v') = hist (vt_tr v) ++ t /\ challenges t = []) -> (comms_bound v -> comms_bound v') -> mget (vt_virt v') (vt_next v) = Some e /\ vgo v v' [].
Proof.
  intros v e v' R H1 H2 H3 H4 H5 H6. rewrite H1. split; [apply mget_mput_same|]. constructor; [lia| | |exists []; rewrite app_nil_r; exact H3|exists []; rewrite app_nil_r; exact H4|exact H5|exact H6].
  - intros i Hi. rewrite H1, mget_mput_other by lia. apply R. lia.
  - intros i x Hi. rewrite H1, mget_mput_other; [exact Hi|]. intros <-. rewrite (R _ (Nat.le_refl _)) in Hi. discriminate.
Qed.
Lemma go_virtual : forall v e id v', vready v -> track_virtual v e = (id, v') -> id = vt_next v /\ vt_next v' = S id /\ mget (vt_virt v') id = Some e /\ vgo v v' [].
Proof.
  intros v e id v' R H. unfold track_virtual, v_gen_id, put_virt in H. injection H as H1 H2. subst id. split; [reflexivity|]. split; [subst v'; reflexivity|]. apply put_go; try (subst v'; reflexivity); [exact R| |].
  - exists []. rewrite app_nil_r. subst v'. auto.
  - subst v'. apply bound_same; cbn; [lia|reflexivity|exists []; rewrite app_nil_r; auto].
Qed.
Lemma go_adds : forall v a c id v', vready v -> v_add_scalar v a c = (id, v') -> id = S (vt_next v) /\ vt_next v' = S id /\ mget (vt_virt v') id = Some (VAddS a c) /\ vgo v v' [].
Proof.
  intros v a c id v' R H. unfold v_add_scalar in H. destruct (v_gen_id v) as [i v1] eqn:E1. unfold v_gen_id in E1. injection E1 as E1 E2.
  assert (R1 : vready v1) by (subst v1; intros j Hj; apply R; cbn in Hj; lia).
  destruct (go_virtual v1 _ id v' R1 H) as [H1 [H5 [H3 H4]]]. split; [rewrite H1; subst v1; reflexivity|]. split; [exact H5|]. split; [exact H3|]. change (@nil (F p)) with (@nil (F p) ++ []). eapply vgo_trans; [|exact H4].
  subst v1. constructor; cbn; [lia|exact R1|apply sub_refl|exists []; rewrite app_nil_r; reflexivity|exists []; rewrite app_nil_r; reflexivity|exists []; rewrite app_nil_r; auto|apply bound_same; cbn; [lia|reflexivity|exists []; rewrite app_nil_r; auto]].
Qed.
Lemma go_transfer : forall debug v id v', vready v -> v_transfer debug v = Ok (id, v') -> id = vt_next v /\ vt_next v' = S id /\ mget (vt_virt v') id = Some (VQuery id) /\ vgo v v' [].
Proof.
  intros debug v id v' R H. unfold v_transfer, transfer_prover_comm in H. destruct (mget (cp_comms (vt_proof v)) (v_get_next_id v)) as [c|]; [|discriminate]. cbn [ounwrap bind] in H.
  destruct (track_mat_comm v c) as [i u] eqn:E1. destruct (rassert _) as [[]| |]; cbn [bind] in H; try discriminate. injection H as H H'. subst i u.
  pose proof (bound_comm _ _ _ _ E1) as B. unfold track_mat_comm, v_gen_id, put_virt, set_vtr in E1. injection E1 as E1 E2. subst id. split; [reflexivity|]. split; [subst v'; reflexivity|]. apply put_go; try (subst v'; reflexivity); [exact R| |exact B].
  exists [EMsg "comm" (PComm c)]. subst v'. split; reflexivity.
Qed.
Lemma go_chal : forall (o : oracle p comm) l v c v', vready v -> vt_challenge o l v = Ok (c, v') -> vgo v v' [c] /\ vt_next v' = vt_next v.
Proof.
  intros o l v c v' R H. unfold vt_challenge, drawT, draw in H. destruct (is_empty (vt_tr v)); cbn in H; [discriminate|]. injection H as H1 H2. subst v'. split; [|reflexivity].
  constructor; cbn; [lia|exact R|apply sub_refl|exists []; rewrite app_nil_r; reflexivity|exists []; rewrite app_nil_r; reflexivity| |].
  - eexists. rewrite <- app_assoc. split; [reflexivity|]. cbn. congruence.
  - apply bound_same; cbn; [lia|reflexivity|]. eexists. rewrite <- app_assoc. split; reflexivity.
Qed.
Lemma go_zero : forall v id, vready v -> vgo v (v_add_zerocheck_claim v id) [].
Proof. intros v id R. constructor; cbn; [lia|exact R|apply sub_refl|eexists; reflexivity|exists []; rewrite app_nil_r; reflexivity|exists []; rewrite app_nil_r; auto|apply bound_same; cbn; [lia|reflexivity|exists []; rewrite app_nil_r; auto]]. Qed.
Lemma go_sum : forall v id c, vready v -> vgo v (v_add_sumcheck_claim v id c) [].
Proof. intros v id c R. constructor; cbn; [lia|exact R|apply sub_refl|exists []; rewrite app_nil_r; reflexivity|eexists; reflexivity|exists []; rewrite app_nil_r; auto|apply bound_same; cbn; [lia|reflexivity|exists []; rewrite app_nil_r; auto]]. Qed.

Lemma Okinj : forall T (a b : T), Ok a = Ok b -> a = b. Proof. intros T a b H. inversion H. reflexivity. Qed.
(** Reachable verifiers are ready. *)
Lemma vrun_ready : forall o debug vk cp vops v ids, vrun o debug vk cp vops = Ok (v, ids) -> vready v.
Proof.
  intros o debug vk cp vops v ids H. unfold vrun in H.
  assert (G : forall ops w v ids, vready (fst w) -> foldM (vstep o debug) w ops = Ok (v, ids) -> vready v).
  { clear. intros ops. induction ops as [|op ops IH]; intros [v hs] v' ids R H; [cbn in H; injection H as H _; subst; exact R|].
    cbn [foldM] in H. destruct (vstep o debug (v, hs) op) as [[u hs']| |] eqn:E1; cbn [bind] in H; try discriminate. apply (IH (u, hs') v' ids); [|exact H]. cbn [fst] in *. clear H IH.
    assert (Q : forall r, (forall id x, r = Ok (id, x) -> vready x) -> vpush hs r = Ok (u, hs') -> vready u).
    { intros r Hr Hu. unfold vpush in Hu. destruct r as [[id x]| |]; cbn [bind] in Hu; try discriminate. injection Hu as Hu _. subst. eapply Hr. reflexivity. }
    assert (Q1 : forall e id x, Ok (track_virtual v e) = Ok (id, x) -> vready x) by (intros e id x Hx; apply Okinj in Hx; destruct (go_virtual v e id x R Hx) as [_ [_ [_ X]]]; apply X).
    unfold vstep in E1. destruct op; repeat match type of E1 with (bind (rnth hs ?i) _) = _ => destruct (rnth hs i); cbn [bind] in E1; try discriminate end.
    - eapply Q; [|exact E1]. apply Q1.
    - eapply Q; [|exact E1]. intros id x Hx. injection Hx as Hx Hx'. subst. intros i Hi. unfold put_virt, set_vtr in *. cbn [vt_virt vt_next] in *. rewrite mget_mput_other by lia. apply R. lia.
    - eapply Q; [|exact E1]. intros id x Hx. destruct (go_transfer debug v id x R Hx) as [_ [_ [_ X]]]. apply X.
    - eapply Q; [|exact E1]. apply Q1.
    - eapply Q; [|exact E1]. apply Q1.
    - eapply Q; [|exact E1]. apply Q1.
    - eapply Q; [|exact E1]. intros id x Hx. apply Okinj in Hx. destruct (go_adds v _ _ id x R Hx) as [_ [_ [_ X]]]. apply X.
    - eapply Q; [|exact E1]. apply Q1.
    - eapply Q; [|exact E1]. apply Q1.
    - eapply Q; [|exact E1]. apply Q1.
    - destruct (vt_challenge o l v) as [[c x]| |] eqn:E2; cbn [bind] in E1; try discriminate. injection E1 as E1 _. subst. apply (go_chal o l v c u R E2).
    - injection E1 as E1 _. subst. exact R.
    - injection E1 as E1 _. subst. exact R.
    - destruct (get_prover_claimed_sum v _); cbn [bind] in E1; try discriminate. injection E1 as E1 _. subst. exact R.
    - injection E1 as E1 _. subst. exact R.
    - injection E1 as E1 _. subst. exact R. }
  eapply (G vops); [|exact H]. cbn. intros i _. reflexivity.
Qed.

(** *** Values of virtual commitments *)
Lemma means_mono : forall A V V', sub_map V V' -> forall id M j y, means A V id M j y -> means A V' id M j y.
Proof.
  intros A V V' H id M j y Hm. induction Hm.
  - apply me_query with (i := i); auto.
  - eapply me_fun; eauto.
  - eapply me_add; eauto.
  - eapply me_sub; eauto.
  - eapply me_mul; eauto.
  - eapply me_adds; eauto.
  - eapply me_muls; eauto.
  - eapply me_front; eauto.
  - eapply me_back; eauto.
Qed.
Ltac same_node := match goal with H : mget ?m ?i = Some _, H' : mget ?m ?i = Some _ |- _ => rewrite H in H'; first [discriminate H'|injection H' as H'; subst] end.
Lemma means_fun : forall A V id M j y, means A V id M j y -> forall y', means A V id M j y' -> y = y'.
Proof.
  intros A V id M j y Hm. induction Hm; intros y' Hm'; inversion Hm'; subst; clear Hm'; same_node; try reflexivity.
  all: try (erewrite IHHm1, IHHm2 by eassumption; reflexivity).
  all: try (erewrite IHHm by eassumption; reflexivity).
Qed.

Definition psem A V (N id : nat) (f : nat -> F p) : Prop := forall j y, j < 2 ^ N -> means A V id N j y -> y = f j.
Definition chold A V (N : nat) v : Prop :=
  (forall id, In id (vt_zc v) -> forall j, j < 2 ^ N -> means A V id N j F0) /\
  (forall id c, In (id, c) (vt_sc v) -> exists f : nat -> F p, (forall j, j < 2 ^ N -> means A V id N j (f j)) /\ c = Fsum (map f (seq 0 (2 ^ N)))).
Lemma chold_claims : forall A N v, claims_hold A N v -> chold A (vt_virt v) N v. Proof. intros A N v H. exact H. Qed.
Lemma chold_le : forall A V N v v' ds, vgo v v' ds -> chold A V N v' -> chold A V N v.
Proof.
  intros A V N v v' ds G [H1 H2]. destruct (y_zc _ _ _ G) as [z Hz], (y_sc _ _ _ G) as [y Hy]. split; [intros id Hi; apply H1|intros id c Hi; apply H2]; [rewrite Hz|rewrite Hy]; apply in_or_app; auto.
Qed.

Lemma psem_ext : forall A V N id f g, psem A V N id f -> (forall j, j < 2 ^ N -> f j = g j) -> psem A V N id g.
Proof. intros A V N id f g H E1 j y Hj Hy. rewrite <- E1 by exact Hj. apply H; assumption. Qed.
Lemma ps_reads : forall A V N v id n l, sub_map (vt_virt v) V -> reads A N v id n l -> psem A V N id (fun j => nth (j mod 2 ^ n) l F0).
Proof. intros A V N v id n l S [_ [_ H]] j y Hj Hy. symmetry. eapply means_fun; [|exact Hy]. eapply means_mono; [exact S|]. apply H. exact Hj. Qed.
(** The table under a committed id. *)
Definition leaf A (i : nat) (j : nat) : F p := snd (A i) (j mod 2 ^ fst (A i)).
Lemma ps_query : forall A V N id i, mget V id = Some (VQuery i) -> psem A V N id (leaf A i).
Proof. intros A V N id i H j y Hj Hy. inversion Hy; subst; same_node. reflexivity. Qed.
Lemma ps_fun : forall A V N id f g, mget V id = Some (VFun f) -> (forall j, j < 2 ^ N -> fst (A id) <= N -> forall y, f (bpoint (fst (A id)) (j mod 2 ^ fst (A id))) = Ok y -> y = g j) -> psem A V N id g.
Proof. intros A V N id f g H Hg j y Hj Hy. inversion Hy; subst; same_node. apply Hg; assumption. Qed.
Lemma ps_one : forall A V N id, mget V id = Some (VFun one_fun) -> psem A V N id (fun _ => F1).
Proof. intros A V N id H. eapply ps_fun; [exact H|]. intros j _ _ y Hy. unfold one_fun in Hy. congruence. Qed.
Lemma ps_add : forall A V N id a b f g, mget V id = Some (VAdd a b) -> psem A V N a f -> psem A V N b g -> psem A V N id (fun j => (f j + g j)%F).
Proof. intros A V N id a b f g H Ha Hb j y Hj Hy. inversion Hy; subst; same_node. rewrite <- (Ha j x), <- (Hb j y0) by assumption. reflexivity. Qed.
Lemma ps_sub : forall A V N id a b f g, mget V id = Some (VSub a b) -> psem A V N a f -> psem A V N b g -> psem A V N id (fun j => (f j - g j)%F).
Proof. intros A V N id a b f g H Ha Hb j y Hj Hy. inversion Hy; subst; same_node. rewrite <- (Ha j x), <- (Hb j y0) by assumption. reflexivity. Qed.
Lemma ps_mul : forall A V N id a b f g, mget V id = Some (VMul a b) -> psem A V N a f -> psem A V N b g -> psem A V N id (fun j => (f j * g j)%F).
Proof. intros A V N id a b f g H Ha Hb j y Hj Hy. inversion Hy; subst; same_node. rewrite <- (Ha j x), <- (Hb j y0) by assumption. reflexivity. Qed.
Lemma ps_adds : forall A V N id a c f, mget V id = Some (VAddS a c) -> psem A V N a f -> psem A V N id (fun j => (f j + c)%F).
Proof. intros A V N id a c f H Ha j y Hj Hy. inversion Hy; subst; same_node. rewrite <- (Ha j x) by assumption. reflexivity. Qed.
Lemma ps_muls : forall A V N id a c f, mget V id = Some (VMulS a c) -> psem A V N a f -> psem A V N id (fun j => (c * f j)%F).
Proof. intros A V N id a c f H Ha j y Hj Hy. inversion Hy; subst; same_node. rewrite <- (Ha j x) by assumption. reflexivity. Qed.
Lemma zclaim : forall A V N v id f, chold A V N v -> In id (vt_zc v) -> psem A V N id f -> forall j, j < 2 ^ N -> f j = F0.
Proof. intros A V N v id f [H _] Hi Hf j Hj. symmetry. apply Hf; [exact Hj|]. apply H; assumption. Qed.
Lemma sclaim : forall A V N v id c f, chold A V N v -> In (id, c) (vt_sc v) -> psem A V N id f -> c = Fsum (map f (seq 0 (2 ^ N))).
Proof.
  intros A V N v id c f [_ H] Hi Hf. destruct (H _ _ Hi) as [g [H1 ->]]. f_equal. apply map_ext_in. intros j Hj. apply in_seq in Hj. apply Hf; [lia|]. apply H1. lia.
Qed.

Lemma in_zc : forall v v' ds id, vgo v v' ds -> In id (vt_zc v) -> In id (vt_zc v').
Proof. intros v v' ds id G H. destruct (y_zc _ _ _ G) as [z ->]. apply in_or_app. auto. Qed.
Lemma in_sc : forall v v' ds x, vgo v v' ds -> In x (vt_sc v) -> In x (vt_sc v').
Proof. intros v v' ds x G H. destruct (y_sc _ _ _ G) as [z ->]. apply in_or_app. auto. Qed.

(** A verifier call that draws [ds]; whenever the claims hold afterwards, [Q]. *)
Definition sound v v' (ds : list (F p)) (Q : reading (p:=p) -> nat -> tmap (vexp p) -> Prop) : Prop :=
  vgo v v' ds /\ forall A N V, sub_map (vt_virt v') V -> chold A V N v' -> Q A N V.
End P.
Ltac fwd G := match type of G with vgo ?v _ _ => repeat match goal with
  | X : mget (vt_virt v) _ = Some _ |- _ => apply (y_sub _ _ _ G) in X
  | X : In _ (vt_zc v) |- _ => apply (in_zc _ _ _ _ G) in X
  | X : In _ (vt_sc v) |- _ => apply (in_sc _ _ _ _ G) in X
  end end.
