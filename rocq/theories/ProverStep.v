(** What one prover call does, exactly; the polynomials behind the handles of a history. *)
From Coq Require Import String List Arith Lia Bool ZArith.
Import ListNotations.
From Verif Require Import Res ResLemmas Fp FSum SpecMle SpecKzg SpecTracker ModelMle MleLemmas MleProofs MleExtra ModelVp ModelTranscript Pairing ModelKzg ModelBatch
  ModelProver ProverHist TmapLemmas ProverProofs ProverExtra.
Local Open Scope string_scope.
Local Open Scope list_scope.
Local Open Scope nat_scope.

Section S.
Context {p : positive} {E : pairing p}.
Add Ring Fr : (@F_ring p).
Local Notation st := (ptrk E).
Implicit Types s : ptrk E.

(** A call that returns the id [k + pt_next s] with [n] variables and values [f]; [keep]: ids whose values stay. *)
Definition pushed s s' hs hs' (k n : nat) (f : list (F p) -> F p) (keep : nat -> Prop) : Prop :=
  hs' = hs ++ [mkTp (k + pt_next s) n] /\ pt_next s' = S (k + pt_next s) /\ pt_pp s' = pt_pp s /\ pt_tr s' = pt_tr s /\ pt_comm s' = pt_comm s /\
  same_claims s s' /\ (forall x, length x = n -> pval s' (k + pt_next s) x = f x) /\
  (forall j m x, known s j m -> keep j -> pval s' j x = pval s j x).

Definition step_post (o : oracle p (gcar (PG1 E))) s hs op s' hs' : Prop :=
  let get i := nth_error hs i in
  match op with
  | OTrack n l => length l = 2 ^ n /\ pushed s s' hs hs' 0 n (value (mkMle n l)) (fun _ => True)
  | OCommit n l => length l = 2 ^ n /\ hs' = hs ++ [mkTp (pt_next s) n] /\ pt_next s' = S (pt_next s) /\ pt_pp s' = pt_pp s /\ same_claims s s' /\
      (exists c, kzg_commit (pt_pp s) (mkMle n l) = Ok c /\ pt_tr s' = append "comm" (PComm c) (pt_tr s) /\ pt_comm s' = mput (pt_comm s) (pt_next s) c) /\
      (exists a, mget (pt_mat s') (pt_next s) = Some (a, mkMle n l)) /\
      (forall x, length x = n -> pval s' (pt_next s) x = value (mkMle n l) x) /\
      (forall j m x, known s j m -> pval s' j x = pval s j x)
  | OAdd i j => exists a b, get i = Some a /\ get j = Some b /\ tp_nv a = tp_nv b /\
      pushed s s' hs hs' 0 (tp_nv a) (fun x => pval s (tp_id a) x + pval s (tp_id b) x)%F (fun _ => True)
  | OSub i j => exists a b, get i = Some a /\ get j = Some b /\ tp_nv a = tp_nv b /\
      pushed s s' hs hs' 0 (tp_nv a) (fun x => pval s (tp_id a) x - pval s (tp_id b) x)%F (fun _ => True)
  | OMul i j => exists a b, get i = Some a /\ get j = Some b /\ tp_nv a = tp_nv b /\
      pushed s s' hs hs' 0 (tp_nv a) (fun x => pval s (tp_id a) x * pval s (tp_id b) x)%F (fun _ => True)
  | OAddS i c => exists a, get i = Some a /\ pushed s s' hs hs' 1 (tp_nv a) (fun x => pval s (tp_id a) x + c)%F (fun _ => True)
  | OMulS i c => exists a, get i = Some a /\ pushed s s' hs hs' 0 (tp_nv a) (fun x => pval s (tp_id a) x * c)%F (fun _ => True)
  | OFront i k => exists a, get i = Some a /\
      pushed s s' hs hs' 0 (tp_nv a + k) (fun x => mlx s (tp_id a) (tp_nv a) (skipn k x)) (fun j => j <> tp_id a) /\
      forall x, pval s' (tp_id a) x = mlx s (tp_id a) (tp_nv a) x
  | OBack i k => exists a, get i = Some a /\
      pushed s s' hs hs' 0 (tp_nv a + k) (fun x => mlx s (tp_id a) (tp_nv a) (firstn (tp_nv a) x)) (fun j => j <> tp_id a) /\
      forall x, pval s' (tp_id a) x = mlx s (tp_id a) (tp_nv a) x
  | OEvals i => exists a, get i = Some a /\ hs' = hs /\ quiet s s' /\
      (forall x, pval s' (tp_id a) x = mlx s (tp_id a) (tp_nv a) x) /\
      (forall j m x, known s j m -> j <> tp_id a -> pval s' j x = pval s j x)
  | OChal l => exists c t, drawT o l (pt_tr s) = Ok (c, t) /\ s' = set_tr s t /\ hs' = hs
  | OAppend l bs => s' = set_tr s (append l (PBytes bs) (pt_tr s)) /\ hs' = hs
  | OSum i c => exists a, get i = Some a /\ s' = add_sumcheck_claim s (tp_id a) c /\ hs' = hs
  | OZero i => exists a, get i = Some a /\ s' = add_zerocheck_claim s (tp_id a) /\ hs' = hs
  end.

Lemma fresh_pushed : forall s (r : res (nat * st)) hs n f w', fresh_spec s r n f ->
  push hs (' (id, s') <- r ;; Ok (mkTp id n, s')) = Ok w' -> pushed s (fst w') hs (snd w') 0 n f (fun _ => True).
Proof.
  intros s r hs n f w' [s' [H1 [H2 [H3 [H4 [H5 [H6 [H7 [H8 H9]]]]]]]]] Hp. subst r. cbn in Hp. inversion Hp; subst. simpl.
  split; [reflexivity|]. split; [exact H7|]. split; [apply H3|]. split; [exact H5|]. split; [exact H6|]. split; [exact H4|].
  split; [intros; apply H9|]. intros j m x K _. apply (proj1 (proj2 (proj2 H3)) j m K).
Qed.

Lemma mat_mlx : forall s s' id n, pinv s' -> known s id n -> ext s s' -> (exists b, mget (pt_mat s') id = Some b) ->
  forall x, pval s' id x = mlx s id n x.
Proof.
  intros s s' id n Hi' Hk He [b Hb] x. pose proof (proj1 (proj1 (proj2 (proj2 He)) id n Hk)) as Hk'.
  assert (Hn : nv (snd b) = n) by (apply (known_unique s' id); [exact Hi'|left; exists b; auto|exact Hk']).
  rewrite <- (mlx_mat s' id b x Hi' Hb), Hn, !mlx_tab, (ptab_ext s s' id n Hk He). reflexivity.
Qed.

Lemma pstep_shape : forall o s hs op s' hs', winv (s, hs) -> pstep o (s, hs) op = Ok (s', hs') -> step_post o s hs op s' hs'.
Proof.
  intros o s hs op s' hs' Hw H. pose proof (w_inv _ Hw) as Hi. simpl in Hi.
  assert (Hh : forall i a, nth_error hs i = Some a -> hknown s a).
  { intros i a Ha. apply nth_error_In in Ha. apply (w_handles _ Hw a Ha). }
  destruct op; cbn [pstep] in H; unfold step_post.
  - apply bind_ok_inv in H. destruct H as [m [Hm H]]. apply from_evaluations_wf in Hm. destruct Hm as [Hm [Hn He]].
    destruct m as [n' l']. simpl in Hn, He. subst n' l'. split; [exact Hm|].
    destruct (track_mat_spec s _ Hi Hm) as [s1 [L1 [L2 [L3 [L4 [L5 [L6 [L7 [L8 [L9 L10]]]]]]]]]].
    unfold tp_track in H. rewrite L1 in H. cbn in H. inversion H; subst. simpl.
    split; [reflexivity|]. split; [exact L6|]. split; [apply L3|]. split; [exact L5|]. split; [exact L7|]. split; [exact L4|].
    split; [intros; apply L10|]. intros j m x K _. apply (proj1 (proj2 (proj2 L3)) j m K).
  - apply bind_ok_inv in H. destruct H as [m [Hm H]]. apply from_evaluations_wf in Hm. destruct Hm as [Hm [Hn He]].
    destruct m as [n' l']. simpl in Hn, He. subst n' l'. split; [exact Hm|].
    assert (Hc : exists c, kzg_commit (pt_pp s) (mkMle n l) = Ok c).
    { unfold tp_commit, track_and_commit_mat_poly in H. destruct (kzg_commit (pt_pp s) (mkMle n l)) as [c| |]; try discriminate. exists c. reflexivity. }
    destruct Hc as [c Hc].
    destruct (track_commit_spec s _ c Hi Hm Hc) as [s1 [L1 [L2 [L3 [L4 [L5 [L6 [L7 [L8 [L9 L10]]]]]]]]]].
    unfold tp_commit in H. rewrite L1 in H. cbn in H. inversion H; subst. simpl.
    split; [reflexivity|]. split; [exact L6|]. split; [apply L3|]. split; [exact L4|].
    split; [exists c; auto|]. split; [eexists; exact L8|]. split; [intros; apply L10|].
    intros j m x K. apply (proj1 (proj2 (proj2 L3)) j m K).
  - apply bind_ok_inv in H. destruct H as [a [Ha H]]. apply bind_ok_inv in H. destruct H as [b [Hb H]].
    apply rnth_inv in Ha. apply rnth_inv in Hb. exists a, b. split; [exact Ha|]. split; [exact Hb|].
    destruct (Nat.eq_dec (tp_nv a) (tp_nv b)) as [Hn|Hn]; [|unfold tp_add in H; rewrite tp_bin_ne in H by exact Hn; discriminate].
    split; [exact Hn|]. pose proof (Hh _ _ Ha) as Ka. pose proof (Hh _ _ Hb) as Kb. unfold hknown in Kb. rewrite <- Hn in Kb.
    unfold tp_add, tp_bin in H. rewrite Hn in H at 1. rewrite Nat.eqb_refl in H. cbn [rassert bind] in H.
    exact (fresh_pushed s _ hs (tp_nv a) _ (s', hs') (add_sub_spec s _ _ _ false Hi Ka Kb) H).
  - apply bind_ok_inv in H. destruct H as [a [Ha H]]. apply bind_ok_inv in H. destruct H as [b [Hb H]].
    apply rnth_inv in Ha. apply rnth_inv in Hb. exists a, b. split; [exact Ha|]. split; [exact Hb|].
    destruct (Nat.eq_dec (tp_nv a) (tp_nv b)) as [Hn|Hn]; [|unfold tp_sub in H; rewrite tp_bin_ne in H by exact Hn; discriminate].
    split; [exact Hn|]. pose proof (Hh _ _ Ha) as Ka. pose proof (Hh _ _ Hb) as Kb. unfold hknown in Kb. rewrite <- Hn in Kb.
    unfold tp_sub, tp_bin in H. rewrite Hn in H at 1. rewrite Nat.eqb_refl in H. cbn [rassert bind] in H.
    exact (fresh_pushed s _ hs (tp_nv a) _ (s', hs') (add_sub_spec s _ _ _ true Hi Ka Kb) H).
  - apply bind_ok_inv in H. destruct H as [a [Ha H]]. apply bind_ok_inv in H. destruct H as [b [Hb H]].
    apply rnth_inv in Ha. apply rnth_inv in Hb. exists a, b. split; [exact Ha|]. split; [exact Hb|].
    destruct (Nat.eq_dec (tp_nv a) (tp_nv b)) as [Hn|Hn]; [|unfold tp_mul in H; rewrite tp_bin_ne in H by exact Hn; discriminate].
    split; [exact Hn|]. pose proof (Hh _ _ Ha) as Ka. pose proof (Hh _ _ Hb) as Kb. unfold hknown in Kb. rewrite <- Hn in Kb.
    unfold tp_mul, tp_bin in H. rewrite Hn in H at 1. rewrite Nat.eqb_refl in H. cbn [rassert bind] in H.
    exact (fresh_pushed s _ hs (tp_nv a) _ (s', hs') (mul_spec s _ _ _ Hi Ka Kb) H).
  - apply bind_ok_inv in H. destruct H as [a [Ha H]]. apply rnth_inv in Ha. exists a. split; [exact Ha|].
    destruct (add_scalar_spec s _ _ c Hi (Hh _ _ Ha)) as [s1 [L1 [L2 [L3 [L4 [L5 [L6 [L7 [L8 L9]]]]]]]]].
    unfold tp_add_scalar in H. rewrite L1 in H. cbn in H. inversion H; subst. simpl.
    split; [reflexivity|]. split; [exact L7|]. split; [apply L3|]. split; [exact L5|]. split; [exact L6|]. split; [exact L4|].
    split; [exact L9|]. intros j m x K _. apply (proj1 (proj2 (proj2 L3)) j m K).
  - apply bind_ok_inv in H. destruct H as [a [Ha H]]. apply rnth_inv in Ha. exists a. split; [exact Ha|].
    exact (fresh_pushed s _ hs (tp_nv a) _ (s', hs') (mul_scalar_spec s _ _ c Hi (Hh _ _ Ha)) H).
  - apply bind_ok_inv in H. destruct H as [a [Ha H]]. apply rnth_inv in Ha. exists a. split; [exact Ha|].
    pose proof (Hh _ _ Ha) as Ka.
    destruct (increase_spec true s _ _ k Hi Ka) as [s1 [L1 [L2 [L3 [L4 [L5 [L6 [L7 [L8 [L9 [L10 [L11 L12]]]]]]]]]]]].
    unfold tp_front in H. rewrite L1 in H. cbn in H. inversion H; subst. split.
    + split; [reflexivity|]. split; [exact L7|]. split; [apply L3|]. split; [exact L5|]. split; [exact L6|]. split; [exact L4|].
      split; [|intros j m x K Hj; apply (L12 j m x Hj K)].
      intros x Hx. simpl. rewrite <- (L9 (skipn k x) (firstn k x)); [rewrite firstn_skipn; reflexivity|rewrite skipn_length; lia|rewrite firstn_length; lia].
    + exact (mat_mlx s s' (tp_id a) (tp_nv a) L2 Ka L3 L11).
  - apply bind_ok_inv in H. destruct H as [a [Ha H]]. apply rnth_inv in Ha. exists a. split; [exact Ha|].
    pose proof (Hh _ _ Ha) as Ka.
    destruct (increase_spec false s _ _ k Hi Ka) as [s1 [L1 [L2 [L3 [L4 [L5 [L6 [L7 [L8 [L9 [L10 [L11 L12]]]]]]]]]]]].
    unfold tp_back in H. rewrite L1 in H. cbn in H. inversion H; subst. split.
    + split; [reflexivity|]. split; [exact L7|]. split; [apply L3|]. split; [exact L5|]. split; [exact L6|]. split; [exact L4|].
      split; [|intros j m x K Hj; apply (L12 j m x Hj K)].
      intros x Hx. simpl. rewrite <- (L9 (firstn (tp_nv a) x) (skipn (tp_nv a) x)); [rewrite firstn_skipn; reflexivity|rewrite firstn_length; lia|rewrite skipn_length; lia].
    + exact (mat_mlx s s' (tp_id a) (tp_nv a) L2 Ka L3 L11).
  - apply bind_ok_inv in H. destruct H as [a [Ha H]]. apply rnth_inv in Ha. exists a. split; [exact Ha|].
    pose proof (Hh _ _ Ha) as Ka.
    destruct (evaluations_spec s _ _ Hi Ka) as [s1 [L1 [L2 [L3 [L4 [L5 [L6 L7]]]]]]].
    unfold tp_evaluations in H. rewrite L1 in H. cbn in H. inversion H; subst. split; [reflexivity|]. split; [exact L4|]. split.
    + apply mat_mlx; [exact L2|exact Ka|exact L3|]. destruct L5 as [b [Hb _]]. exists b. exact Hb.
    + intros j m x K Hj. apply (L6 j m Hj K).
  - apply bind_ok_inv in H. destruct H as [[c s1] [H1 H2]]. unfold pt_challenge in H1. apply bind_ok_inv in H1.
    destruct H1 as [[c' t] [H3 H4]]. inversion H4; subst. inversion H2; subst. exists c, t. auto.
  - inversion H; subst. auto.
  - apply bind_ok_inv in H. destruct H as [a [Ha H]]. apply rnth_inv in Ha. inversion H; subst. exists a. auto.
  - apply bind_ok_inv in H. destruct H as [a [Ha H]]. apply rnth_inv in Ha. inversion H; subst. exists a. auto.
Qed.

(** ** Denotations *)
Definition agrees s (pts : nat -> list (F p) -> Prop) (h : tpoly) (d : den) : Prop :=
  tp_nv h = fst d /\ forall x, pts (tp_nv h) x -> pval s (tp_id h) x = snd d x.
Definition all_points (n : nat) (x : list (F p)) : Prop := length x = n.
Definition cube_points (n : nat) (x : list (F p)) : Prop := exists k, k < 2 ^ n /\ x = bpoint n k.

Lemma agrees_cube : forall s h d, agrees s all_points h d -> agrees s cube_points h d.
Proof. intros s h d [H1 H2]. split; [exact H1|]. intros x [k [_ ->]]. apply H2. unfold all_points. apply bpoint_length. Qed.

Lemma Forall2_nth : forall A B (R : A -> B -> Prop) l m i a d0, Forall2 R l m -> nth_error l i = Some a ->
  nth_error m i = Some (nth i m d0) /\ R a (nth i m d0).
Proof.
  intros A B R l m i a d0 H. revert i. induction H as [|x y l m Hxy H IH]; intros [|i] Hn; simpl in *; try discriminate.
  - inversion Hn; subst. auto.
  - apply IH. exact Hn.
Qed.
Lemma Forall2_snoc : forall A B (R : A -> B -> Prop) l m a b, Forall2 R l m -> R a b -> Forall2 R (l ++ [a]) (m ++ [b]).
Proof. intros. apply Forall2_app; [assumption|]. constructor; [assumption|constructor]. Qed.

Lemma mlx_den_cube : forall s h d x, pinv s -> agrees s cube_points h d -> cube_points (tp_nv h) x -> mlx s (tp_id h) (tp_nv h) x = snd d x.
Proof.
  intros s h d x Hi [Hn Hv] Hc. pose proof Hc as [k [Hk ->]]. rewrite mlx_bool by exact Hk. apply Hv. exact Hc.
Qed.
Lemma mlx_den_lin : forall s h d x, agrees s cube_points h d -> multilinear d -> length x = tp_nv h ->
  mlx s (tp_id h) (tp_nv h) x = snd d x.
Proof.
  intros s h d x [Hn Hv] Hm Hx. rewrite Hm by congruence. rewrite mlx_tab, <- Hn. apply mle_ext_ext. intros k Hk.
  rewrite ptab_tab by exact Hk. unfold tab, corners. rewrite <- Hn. rewrite (nth_map_seq (fun k => snd d (bpoint (tp_nv h) k))) by exact Hk.
  apply Hv. exists k. auto.
Qed.

(** One step, for both kinds of agreement. *)
Definition points (b : bool) : nat -> list (F p) -> Prop := if b then all_points else cube_points.
Lemma points_length : forall b n x, points b n x -> length x = n.
Proof. intros [|] n x H; [exact H|]. destruct H as [k [_ ->]]. apply bpoint_length. Qed.
Lemma points_skipn : forall b n k x, points b (n + k) x -> points b n (skipn k x).
Proof.
  intros [|] n k x H; simpl in *; unfold all_points in *.
  - rewrite skipn_length. lia.
  - destruct H as [j [Hj ->]]. exists (j / 2 ^ k). split; [|apply bpoint_skipn].
    apply Nat.div_lt_upper_bound; [apply Nat.pow_nonzero; lia|]. rewrite <- Nat.pow_add_r, Nat.add_comm. exact Hj.
Qed.
Lemma points_firstn : forall b n k x, points b (n + k) x -> points b n (firstn n x).
Proof.
  intros [|] n k x H; simpl in *; unfold all_points in *.
  - rewrite firstn_length. lia.
  - destruct H as [j [Hj ->]]. exists (j mod 2 ^ n). split; [|apply bpoint_firstn].
    apply Nat.mod_upper_bound. apply Nat.pow_nonzero. lia.
Qed.

Lemma den_step_ok : forall o s hs op s' hs' ds b, winv (s, hs) -> pstep o (s, hs) op = Ok (s', hs') ->
  (b = true -> linear_call ds op) ->
  Forall2 (agrees s (points b)) hs ds -> Forall2 (agrees s' (points b)) hs' (den_step ds op).
Proof.
  intros o s hs op s' hs' ds b Hw H Hp HF. pose proof (pstep_shape o s hs op s' hs' Hw H) as P.
  pose proof (w_inv _ Hw) as Hi. simpl in Hi.
  assert (Hh : forall h, In h hs -> hknown s h) by (intros h Hin; apply (w_handles _ Hw h Hin)).
  assert (Hkeep : (forall h d, In h hs -> agrees s (points b) h d -> In (h, d) (combine hs ds) -> agrees s' (points b) h d) -> Forall2 (agrees s' (points b)) hs ds).
  { clear - HF. induction HF as [|h d hs ds R HF IH]; intros Hk; [constructor|]. constructor.
    - apply Hk; [left; reflexivity|exact R|left; reflexivity].
    - apply IH. intros h' d' Hin Ha Hc. apply Hk; [right; exact Hin|exact Ha|right; exact Hc]. }
  assert (Hall : (forall j m x, known s j m -> pval s' j x = pval s j x) -> Forall2 (agrees s' (points b)) hs ds).
  { intros Hv. apply Hkeep. intros h d Hin [R1 R2] _. split; [exact R1|]. intros x Hx. rewrite (Hv _ _ x (Hh h Hin)). apply R2. exact Hx. }
  assert (Hop : forall i a d0, nth_error hs i = Some a -> agrees s (points b) a (nth i ds d0) /\ nth_error ds i = Some (nth i ds d0)).
  { intros i a d0 Hn. destruct (Forall2_nth _ _ _ hs ds i a d0 HF Hn) as [A B]. split; [exact B|exact A]. }
  assert (Hml : forall i a d0 x, nth_error hs i = Some a -> (b = true -> forall d, nth_error ds i = Some d -> multilinear d) ->
      points b (tp_nv a) x -> mlx s (tp_id a) (tp_nv a) x = snd (nth i ds d0) x).
  { intros i a d0 x Hn Hm Hx. destruct (Hop i a d0 Hn) as [Ag En]. destruct b.
    - apply mlx_den_lin; [apply agrees_cube; exact Ag|apply Hm; [reflexivity|exact En]|exact Hx].
    - apply mlx_den_cube; assumption. }
  assert (Hmat : forall i a, nth_error hs i = Some a -> (b = true -> forall d, nth_error ds i = Some d -> multilinear d) ->
      (forall x, pval s' (tp_id a) x = mlx s (tp_id a) (tp_nv a) x) ->
      (forall j m x, known s j m -> j <> tp_id a -> pval s' j x = pval s j x) -> Forall2 (agrees s' (points b)) hs ds).
  { intros i a Hn Hm Hv Ho. apply Hkeep. intros h d Hin [R1 R2] Hc. split; [exact R1|]. intros x Hx.
    destruct (Nat.eq_dec (tp_id h) (tp_id a)) as [Heq|Hne].
    - apply In_nth_error in Hc. destruct Hc as [k Hc].
      assert (Hk : nth_error hs k = Some h /\ nth_error ds k = Some d).
      { clear - Hc. revert ds k Hc. induction hs as [|x hs IH]; intros [|y ds] [|k] Hc; simpl in *; try discriminate.
        - inversion Hc; auto.
        - apply IH. exact Hc. }
      destruct Hk as [Hk Hd].
      assert (k = i).
      { pose proof (w_fresh _ Hw) as Hf. simpl in Hf. apply (proj1 (NoDup_nth_error _) Hf k i).
        - rewrite map_length. apply nth_error_Some. congruence.
        - rewrite !nth_error_map, Hk, Hn. simpl. congruence. }
      subst k. assert (h = a) by congruence. subst h. rewrite Hv, (Hml i a d x Hn Hm Hx). f_equal. apply nth_error_nth. exact Hd.
    - rewrite (Ho _ _ x (Hh h Hin) Hne). apply R2. exact Hx. }
  pose proof (points_length b) as Hlen.
  destruct op; cbn [den_step]; simpl in P.
  - destruct P as [Hl [-> [_ [_ [_ [_ [_ [Hv Ho]]]]]]]]. apply Forall2_snoc; [apply Hall; intros; eapply Ho; eauto|].
    split; [reflexivity|]. intros x Hx. simpl. rewrite Hv by (apply Hlen in Hx; exact Hx). reflexivity.
  - destruct P as [Hl [-> [_ [_ [_ [_ [_ [Hv Ho]]]]]]]]. apply Forall2_snoc; [apply Hall; intros; eapply Ho; eauto|].
    split; [reflexivity|]. intros x Hx. simpl. rewrite Hv by (apply Hlen in Hx; exact Hx). reflexivity.
  - destruct P as [a [c [Ha [Hb [Hn [-> [_ [_ [_ [_ [_ [Hv Ho]]]]]]]]]]]]. apply Forall2_snoc; [apply Hall; intros; eapply Ho; eauto|].
    destruct (Hop i a (0, fun _ => F0) Ha) as [[A1 A2] _]. destruct (Hop j c (0, fun _ => F0) Hb) as [[B1 B2] _].
    split; [exact A1|]. intros x Hx. simpl in Hx |- *. rewrite Hv by (apply Hlen in Hx; exact Hx).
    rewrite A2 by exact Hx. rewrite B2 by (rewrite <- Hn; exact Hx). reflexivity.
  - destruct P as [a [c [Ha [Hb [Hn [-> [_ [_ [_ [_ [_ [Hv Ho]]]]]]]]]]]]. apply Forall2_snoc; [apply Hall; intros; eapply Ho; eauto|].
    destruct (Hop i a (0, fun _ => F0) Ha) as [[A1 A2] _]. destruct (Hop j c (0, fun _ => F0) Hb) as [[B1 B2] _].
    split; [exact A1|]. intros x Hx. simpl in Hx |- *. rewrite Hv by (apply Hlen in Hx; exact Hx).
    rewrite A2 by exact Hx. rewrite B2 by (rewrite <- Hn; exact Hx). reflexivity.
  - destruct P as [a [c [Ha [Hb [Hn [-> [_ [_ [_ [_ [_ [Hv Ho]]]]]]]]]]]]. apply Forall2_snoc; [apply Hall; intros; eapply Ho; eauto|].
    destruct (Hop i a (0, fun _ => F0) Ha) as [[A1 A2] _]. destruct (Hop j c (0, fun _ => F0) Hb) as [[B1 B2] _].
    split; [exact A1|]. intros x Hx. simpl in Hx |- *. rewrite Hv by (apply Hlen in Hx; exact Hx).
    rewrite A2 by exact Hx. rewrite B2 by (rewrite <- Hn; exact Hx). reflexivity.
  - destruct P as [a [Ha [-> [_ [_ [_ [_ [_ [Hv Ho]]]]]]]]]. apply Forall2_snoc; [apply Hall; intros; eapply Ho; eauto|].
    destruct (Hop i a (0, fun _ => F0) Ha) as [[A1 A2] _].
    split; [exact A1|]. intros x Hx. simpl in Hx |- *. simpl in Hv. rewrite Hv by (apply Hlen in Hx; exact Hx). rewrite A2 by exact Hx. reflexivity.
  - destruct P as [a [Ha [-> [_ [_ [_ [_ [_ [Hv Ho]]]]]]]]]. apply Forall2_snoc; [apply Hall; intros; eapply Ho; eauto|].
    destruct (Hop i a (0, fun _ => F0) Ha) as [[A1 A2] _].
    split; [exact A1|]. intros x Hx. simpl in Hx |- *. simpl in Hv. rewrite Hv by (apply Hlen in Hx; exact Hx). rewrite A2 by exact Hx. reflexivity.
  - destruct P as [a [Ha [[-> [_ [_ [_ [_ [_ [Hv Ho]]]]]]] Hop']]].
    assert (Hm : b = true -> forall d, nth_error ds i = Some d -> multilinear d) by (intros Hb; exact (Hp Hb)).
    apply Forall2_snoc; [apply (Hmat i a Ha Hm Hop'); intros; eapply Ho; eauto|].
    destruct (Hop i a (0, fun _ => F0) Ha) as [[A1 A2] _].
    split; [simpl; rewrite A1; reflexivity|]. intros x Hx. simpl in Hx |- *. simpl in Hv. rewrite Hv by (apply Hlen in Hx; exact Hx).
    apply (Hml i a); [exact Ha|exact Hm|]. apply points_skipn. exact Hx.
  - destruct P as [a [Ha [[-> [_ [_ [_ [_ [_ [Hv Ho]]]]]]] Hop']]].
    assert (Hm : b = true -> forall d, nth_error ds i = Some d -> multilinear d) by (intros Hb; exact (Hp Hb)).
    apply Forall2_snoc; [apply (Hmat i a Ha Hm Hop'); intros; eapply Ho; eauto|].
    destruct (Hop i a (0, fun _ => F0) Ha) as [[A1 A2] _].
    split; [simpl; rewrite A1; reflexivity|]. intros x Hx. simpl in Hx |- *. simpl in Hv. rewrite Hv by (apply Hlen in Hx; exact Hx).
    rewrite <- A1. apply (Hml i a); [exact Ha|exact Hm|]. eapply points_firstn. exact Hx.
  - destruct P as [a [Ha [-> [_ [Hv Ho]]]]].
    assert (Hm : b = true -> forall d, nth_error ds i = Some d -> multilinear d) by (intros Hb; exact (Hp Hb)).
    apply (Hmat i a Ha Hm Hv Ho).
  - destruct P as [c [t [_ [-> ->]]]]. apply Hall. reflexivity.
  - destruct P as [-> ->]. apply Hall. reflexivity.
  - destruct P as [a [_ [-> ->]]]. apply Hall. reflexivity.
  - destruct P as [a [_ [-> ->]]]. apply Hall. reflexivity.
Qed.

Lemma den_steps_ok : forall o ops s hs s' hs' ds b, winv (s, hs) -> foldM (pstep o) (s, hs) ops = Ok (s', hs') ->
  (b = true -> linear_calls ds ops) ->
  Forall2 (agrees s (points b)) hs ds -> Forall2 (agrees s' (points b)) hs' (fold_left den_step ops ds).
Proof.
  intros o ops. induction ops as [|op ops IH]; intros s hs s' hs' ds b Hw H Hp HF.
  - inversion H; subst. exact HF.
  - cbn [foldM] in H. apply bind_ok_inv in H. destruct H as [[s1 hs1] [H1 H2]]. cbn [fold_left].
    assert (Hw1 : winv (s1, hs1)) by (apply (pstep_inv o s hs op _ Hw H1)).
    eapply IH; [exact Hw1|exact H2| |].
    + intros Hb. apply (Hp Hb).
    + eapply den_step_ok; [exact Hw|exact H1| |exact HF]. intros Hb. apply (Hp Hb).
Qed.

Lemma prun_den : forall o (pp : pparam E) ops s hs b, prun o pp ops = Ok (s, hs) -> (b = true -> linear_calls [] ops) ->
  Forall2 (agrees s (points b)) hs (denote ops).
Proof.
  intros o pp ops s hs b H Hp. eapply (den_steps_ok o ops _ _ s hs [] b (winv_new pp) H Hp). constructor.
Qed.
End S.
