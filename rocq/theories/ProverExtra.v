(** Histories of prover-tracker calls: freshness, stability, arithmetic. *)
From Coq Require Import String List Arith Lia Bool ZArith.
Import ListNotations.
From Verif Require Import Res ResLemmas Fp FSum SpecMle SpecKzg ModelMle MleLemmas MleProofs MleExtra ModelVp ModelTranscript Pairing ModelKzg ModelBatch
  ModelProver ProverHist TmapLemmas ProverProofs.
Local Open Scope string_scope.
Local Open Scope list_scope.
Local Open Scope nat_scope.

Section S.
Context {p : positive} {E : pairing p}.
Add Ring Fr : (@F_ring p).
Local Notation st := (ptrk E).
Implicit Types s : ptrk E.

Definition hknown s (h : tpoly) : Prop := known s (tp_id h) (tp_nv h).

Record winv (w : st * list tpoly) : Prop := {
  w_inv : pinv (fst w);
  w_handles : forall h, In h (snd w) -> hknown (fst w) h;
  w_fresh : NoDup (map tp_id (snd w));
  w_sc : forall cl, In cl (pt_sc (fst w)) -> fst cl < pt_next (fst w);
  w_zc : forall cl, In cl (pt_zc (fst w)) -> cl < pt_next (fst w) }.

Lemma winv_new : forall pp : pparam E, winv (pt_new pp, []).
Proof. intros pp. constructor; simpl; try contradiction; [apply pinv_new|constructor]. Qed.

Lemma hknown_ext : forall s s' h, ext s s' -> hknown s h -> hknown s' h.
Proof. intros s s' h [_ [_ [H _]]] Hk. apply (H _ _ Hk). Qed.

Lemma handle_lt : forall w h, winv w -> In h (snd w) -> tp_id h < pt_next (fst w).
Proof. intros w h Hw Hin. eapply known_lt; [apply (w_inv w Hw)|apply (w_handles w Hw h Hin)]. Qed.

(** A call that returns one new handle. *)
Lemma push_inv : forall s hs h s', winv (s, hs) -> pinv s' -> ext s s' -> same_claims s s' ->
  pt_next s <= tp_id h -> hknown s' h -> winv (s', hs ++ [h]).
Proof.
  intros s hs h s' Hw Hi He [Hsc Hzc] Hlt Hk. constructor; simpl.
  - exact Hi.
  - intros h' Hin. apply in_app_or in Hin. destruct Hin as [Hin|[<-|[]]]; [|exact Hk].
    eapply hknown_ext; [exact He|]. apply (w_handles _ Hw h' Hin).
  - rewrite map_app. simpl.
    assert (Hn : ~ In (tp_id h) (map tp_id hs)).
    { intros Hin. apply in_map_iff in Hin. destruct Hin as [h' [He' Hin]].
      pose proof (handle_lt _ h' Hw Hin) as Hl. simpl in Hl. lia. }
    pose proof (w_fresh _ Hw) as Hf. simpl in Hf. clear - Hn Hf.
    induction (map tp_id hs) as [|x l IH]; simpl; [constructor; [intros []|constructor]|].
    inversion Hf; subst. simpl in Hn. constructor; [|apply IH; tauto].
    intros Hin. apply in_app_or in Hin. destruct Hin as [Hin|[<-|[]]]; tauto.
  - rewrite Hsc. intros cl Hcl. pose proof (w_sc _ Hw cl Hcl) as X. cbn [fst] in X. pose proof (proj1 (proj2 He)). lia.
  - rewrite Hzc. intros cl Hcl. pose proof (w_zc _ Hw cl Hcl) as X. cbn [fst] in X. pose proof (proj1 (proj2 He)). lia.
Qed.

(** A call that returns no handle and keeps the claims. *)
Lemma quiet_inv : forall s hs s', winv (s, hs) -> pinv s' -> ext s s' -> same_claims s s' -> winv (s', hs).
Proof.
  intros s hs s' Hw Hi He [Hsc Hzc]. constructor; simpl.
  - exact Hi.
  - intros h' Hin. eapply hknown_ext; [exact He|]. apply (w_handles _ Hw h' Hin).
  - apply (w_fresh _ Hw).
  - rewrite Hsc. intros cl Hcl. pose proof (w_sc _ Hw cl Hcl) as X. cbn [fst] in X. pose proof (proj1 (proj2 He)). lia.
  - rewrite Hzc. intros cl Hcl. pose proof (w_zc _ Hw cl Hcl) as X. cbn [fst] in X. pose proof (proj1 (proj2 He)). lia.
Qed.

Lemma pinv_set_tr : forall s t, pinv s -> pinv (set_tr s t) /\ sext s (set_tr s t).
Proof.
  intros s t Hi. split; [destruct Hi; constructor; assumption|]. apply grow_sext; simpl; auto.
Qed.
Lemma pinv_sc : forall s id c, pinv s -> pinv (add_sumcheck_claim s id c) /\ sext s (add_sumcheck_claim s id c).
Proof. intros s id c Hi. split; [destruct Hi; constructor; assumption|]. apply grow_sext; simpl; auto. Qed.
Lemma pinv_zc : forall s id, pinv s -> pinv (add_zerocheck_claim s id) /\ sext s (add_zerocheck_claim s id).
Proof. intros s id Hi. split; [destruct Hi; constructor; assumption|]. apply grow_sext; simpl; auto. Qed.

(** The calls, through handles. *)
Definition call_spec s (r : res (tpoly * st)) (n : nat) (bool_only : bool) (f : list (F p) -> F p) : Prop :=
  exists h s', r = Ok (h, s') /\ pinv s' /\ (if bool_only then ext s s' else sext s s') /\ same_claims s s' /\
    pt_tr s' = pt_tr s /\ pt_comm s' = pt_comm s /\
    pt_next s <= tp_id h < pt_next s' /\ tp_nv h = n /\ hknown s' h /\
    (forall x, length x = n -> pval s' (tp_id h) x = f x).

Lemma tp_bin_spec : forall s a b f g, pinv s -> hknown s a -> hknown s b -> tp_nv a = tp_nv b ->
  (forall n, known s (tp_id a) n -> known s (tp_id b) n -> fresh_spec s (f s (tp_id a) (tp_id b)) n g) ->
  call_spec s (tp_bin f s a b) (tp_nv a) false g.
Proof.
  intros s a b f g Hi Ha Hb Hn Hf. unfold hknown in Hb. rewrite <- Hn in Hb.
  destruct (Hf (tp_nv a) Ha Hb) as [s' [H1 [H2 [H3 [H4 [H5 [H6 [H7 [H8 H9]]]]]]]]].
  unfold tp_bin. rewrite Hn at 1. rewrite Nat.eqb_refl. cbn [rassert bind]. rewrite H1. cbn [bind].
  exists (mkTp (pt_next s) (tp_nv a)), s'. simpl.
  split; [reflexivity|]. split; [exact H2|]. split; [exact H3|]. split; [exact H4|]. split; [exact H5|]. split; [exact H6|]. split; [lia|].
  split; [reflexivity|]. split; [exact H8|]. intros x _. apply H9.
Qed.

Lemma tp_add_spec : forall s a b, pinv s -> hknown s a -> hknown s b -> tp_nv a = tp_nv b ->
  call_spec s (tp_add s a b) (tp_nv a) false (fun x => pval s (tp_id a) x + pval s (tp_id b) x)%F.
Proof. intros s a b Hi Ha Hb Hn. apply tp_bin_spec; try assumption. intros n Ka Kb. exact (add_sub_spec s _ _ n false Hi Ka Kb). Qed.
Lemma tp_sub_spec : forall s a b, pinv s -> hknown s a -> hknown s b -> tp_nv a = tp_nv b ->
  call_spec s (tp_sub s a b) (tp_nv a) false (fun x => pval s (tp_id a) x - pval s (tp_id b) x)%F.
Proof. intros s a b Hi Ha Hb Hn. apply tp_bin_spec; try assumption. intros n Ka Kb. exact (add_sub_spec s _ _ n true Hi Ka Kb). Qed.
Lemma tp_mul_spec : forall s a b, pinv s -> hknown s a -> hknown s b -> tp_nv a = tp_nv b ->
  call_spec s (tp_mul s a b) (tp_nv a) false (fun x => pval s (tp_id a) x * pval s (tp_id b) x)%F.
Proof. intros s a b Hi Ha Hb Hn. apply tp_bin_spec; try assumption. intros n Ka Kb. exact (mul_spec s _ _ n Hi Ka Kb). Qed.
Lemma tp_bin_ne : forall s a b (f : st -> nat -> nat -> res (nat * st)), tp_nv a <> tp_nv b -> tp_bin f s a b = Panic.
Proof. intros s a b f Hn. unfold tp_bin. rewrite (proj2 (Nat.eqb_neq _ _) Hn). reflexivity. Qed.
Lemma tp_add_scalar_spec : forall s a c, pinv s -> hknown s a ->
  call_spec s (tp_add_scalar s a c) (tp_nv a) false (fun x => pval s (tp_id a) x + c)%F.
Proof.
  intros s a c Hi Ha. destruct (add_scalar_spec s _ _ c Hi Ha) as [s' [H1 [H2 [H3 [H4 [H5 [H6 [H7 [H8 H9]]]]]]]]].
  unfold tp_add_scalar. rewrite H1. cbn [bind]. exists (mkTp (S (pt_next s)) (tp_nv a)), s'. simpl.
  split; [reflexivity|]. split; [exact H2|]. split; [exact H3|]. split; [exact H4|]. split; [exact H5|]. split; [exact H6|]. split; [lia|].
  split; [reflexivity|]. split; [exact H8|exact H9].
Qed.
Lemma tp_mul_scalar_spec : forall s a c, pinv s -> hknown s a ->
  call_spec s (tp_mul_scalar s a c) (tp_nv a) false (fun x => pval s (tp_id a) x * c)%F.
Proof.
  intros s a c Hi Ha. destruct (mul_scalar_spec s _ _ c Hi Ha) as [s' [H1 [H2 [H3 [H4 [H5 [H6 [H7 [H8 H9]]]]]]]]].
  unfold tp_mul_scalar. rewrite H1. cbn [bind]. exists (mkTp (pt_next s) (tp_nv a)), s'. simpl.
  split; [reflexivity|]. split; [exact H2|]. split; [exact H3|]. split; [exact H4|]. split; [exact H5|]. split; [exact H6|]. split; [lia|].
  split; [reflexivity|]. split; [exact H8|]. intros x _. apply H9.
Qed.
Lemma tp_track_spec : forall s m, pinv s -> wf_mle m ->
  call_spec s (Ok (tp_track s m)) (nv m) false (value m).
Proof.
  intros s m Hi Hw. destruct (track_mat_spec s m Hi Hw) as [s' [H1 [H2 [H3 [H4 [H5 [H6 [H7 [H8 [H9 H10]]]]]]]]]].
  unfold tp_track. rewrite H1. exists (mkTp (pt_next s) (nv m)), s'. simpl.
  split; [reflexivity|]. split; [exact H2|]. split; [exact H3|]. split; [exact H4|]. split; [exact H5|]. split; [exact H7|]. split; [lia|].
  split; [reflexivity|]. split; [exact H9|]. intros x _. apply H10.
Qed.
Lemma tp_inc_spec : forall (front : bool) s a k, pinv s -> hknown s a ->
  call_spec s (if front then tp_front s a k else tp_back s a k) (tp_nv a + k) true
    (fun z => mlx s (tp_id a) (tp_nv a) (if front then skipn k z else firstn (tp_nv a) z)).
Proof.
  intros front s a k Hi Ha.
  destruct (increase_spec front s _ _ k Hi Ha) as [s' [H1 [H2 [H3 [H4 [H5 [H6 [H7 [H8 [H9 _]]]]]]]]]].
  exists (mkTp (pt_next s) (tp_nv a + k)), s'. simpl.
  split; [unfold tp_front, tp_back; destruct front; rewrite H1; reflexivity|].
  split; [exact H2|]. split; [exact H3|]. split; [exact H4|]. split; [exact H5|]. split; [exact H6|]. split; [lia|].
  split; [reflexivity|]. split; [exact H8|].
  intros z Hz. destruct front.
  - rewrite <- (H9 (skipn k z) (firstn k z)).
    + rewrite firstn_skipn. reflexivity.
    + rewrite skipn_length. lia.
    + rewrite firstn_length. lia.
  - rewrite <- (H9 (firstn (tp_nv a) z) (skipn (tp_nv a) z)).
    + rewrite firstn_skipn. reflexivity.
    + rewrite firstn_length. lia.
    + rewrite skipn_length. lia.
Qed.

Lemma call_push : forall s hs r n b f w', winv (s, hs) -> call_spec s r n b f -> push hs r = Ok w' ->
  winv w' /\ ext s (fst w') /\ exists h, snd w' = hs ++ [h].
Proof.
  intros s hs r n b f w' Hw [h [s' [H1 [H2 [H3 [H4 [H5 [H6 [H7 [H8 [H9 H10]]]]]]]]]]] Hp.
  assert (He : ext s s') by (destruct b; [exact H3|apply sext_ext; exact H3]).
  subst r. unfold push in Hp. cbn in Hp. inversion Hp; subst w'. simpl.
  split; [|split; [exact He|exists h; reflexivity]]. eapply push_inv; try eassumption. lia.
Qed.

Lemma pstep_inv : forall (o : oracle p (gcar (PG1 E))) s hs op w', winv (s, hs) -> pstep o (s, hs) op = Ok w' ->
  winv w' /\ ext s (fst w') /\ exists suf, snd w' = hs ++ suf.
Proof.
  intros o s hs op w' Hw H.
  pose proof (w_inv _ Hw) as Hi. simpl in Hi.
  assert (Hh : forall i a, rnth hs i = Ok a -> hknown s a).
  { intros i a Ha. apply rnth_inv in Ha. apply nth_error_In in Ha. apply (w_handles _ Hw a Ha). }
  assert (Hcp : forall r n b f, call_spec s r n b f -> push hs r = Ok w' -> winv w' /\ ext s (fst w') /\ exists suf, snd w' = hs ++ suf).
  { intros r n b f Hc Hp. destruct (call_push s hs r n b f w' Hw Hc Hp) as [A1 [A2 [h A3]]]. split; [exact A1|]. split; [exact A2|]. exists [h]. exact A3. }
  assert (Hq : forall s', pinv s' -> ext s s' -> same_claims s s' -> Ok (s', hs) = Ok w' -> winv w' /\ ext s (fst w') /\ exists suf, snd w' = hs ++ suf).
  { intros s' A B C D. inversion D; subst w'. simpl. split; [eapply quiet_inv; eassumption|]. split; [exact B|]. exists []. rewrite app_nil_r. reflexivity. }
  destruct op; cbn [pstep] in H.
  - apply bind_ok_inv in H. destruct H as [m [Hm H]]. apply from_evaluations_wf in Hm. destruct Hm as [Hm _].
    eapply Hcp; [apply (tp_track_spec s m Hi Hm)|exact H].
  - apply bind_ok_inv in H. destruct H as [m [Hm H]]. apply from_evaluations_wf in Hm. destruct Hm as [Hm _].
    unfold push in H. apply bind_ok_inv in H. destruct H as [[h s'] [H1 H2]]. inversion H2; subst w'. clear H2. unfold tp_commit in H1.
    apply bind_ok_inv in H1. destruct H1 as [[id s1] [H1 H2]]. inversion H2; subst.
    assert (Hc : exists c, kzg_commit (pt_pp s) m = Ok c).
    { unfold track_and_commit_mat_poly in H1. apply bind_ok_inv in H1. destruct H1 as [c [Hc _]]. exists c. exact Hc. }
    destruct Hc as [c Hc]. destruct (track_commit_spec s m c Hi Hm Hc) as [s2 [L1 [L2 [L3 [L4 [L5 [L6 [L7 [L8 [L9 L10]]]]]]]]]].
    rewrite H1 in L1. inversion L1; subst. simpl.
    split; [|split; [apply sext_ext; exact L3|eexists; reflexivity]].
    eapply push_inv; try eassumption; [apply sext_ext; exact L3|simpl; lia].
  - apply bind_ok_inv in H. destruct H as [a [Ha H]]. apply bind_ok_inv in H. destruct H as [b [Hb H]].
    destruct (Nat.eq_dec (tp_nv a) (tp_nv b)) as [Hn|Hn]; [|unfold tp_add in H; rewrite tp_bin_ne in H by exact Hn; discriminate].
    eapply Hcp; [apply (tp_add_spec s a b Hi (Hh _ _ Ha) (Hh _ _ Hb) Hn)|exact H].
  - apply bind_ok_inv in H. destruct H as [a [Ha H]]. apply bind_ok_inv in H. destruct H as [b [Hb H]].
    destruct (Nat.eq_dec (tp_nv a) (tp_nv b)) as [Hn|Hn]; [|unfold tp_sub in H; rewrite tp_bin_ne in H by exact Hn; discriminate].
    eapply Hcp; [apply (tp_sub_spec s a b Hi (Hh _ _ Ha) (Hh _ _ Hb) Hn)|exact H].
  - apply bind_ok_inv in H. destruct H as [a [Ha H]]. apply bind_ok_inv in H. destruct H as [b [Hb H]].
    destruct (Nat.eq_dec (tp_nv a) (tp_nv b)) as [Hn|Hn]; [|unfold tp_mul in H; rewrite tp_bin_ne in H by exact Hn; discriminate].
    eapply Hcp; [apply (tp_mul_spec s a b Hi (Hh _ _ Ha) (Hh _ _ Hb) Hn)|exact H].
  - apply bind_ok_inv in H. destruct H as [a [Ha H]]. eapply Hcp; [apply (tp_add_scalar_spec s a c Hi (Hh _ _ Ha))|exact H].
  - apply bind_ok_inv in H. destruct H as [a [Ha H]]. eapply Hcp; [apply (tp_mul_scalar_spec s a c Hi (Hh _ _ Ha))|exact H].
  - apply bind_ok_inv in H. destruct H as [a [Ha H]]. eapply Hcp; [apply (tp_inc_spec true s a k Hi (Hh _ _ Ha))|exact H].
  - apply bind_ok_inv in H. destruct H as [a [Ha H]]. eapply Hcp; [apply (tp_inc_spec false s a k Hi (Hh _ _ Ha))|exact H].
  - apply bind_ok_inv in H. destruct H as [a [Ha H]].
    destruct (evaluations_spec s _ _ Hi (Hh _ _ Ha)) as [s' [H1 [H2 [H3 [H4 _]]]]].
    unfold tp_evaluations in H. rewrite H1 in H. cbn [bind] in H. eapply Hq; [exact H2|exact H3|apply H4|exact H].
  - apply bind_ok_inv in H. destruct H as [[c s'] [H1 H2]]. unfold pt_challenge in H1. apply bind_ok_inv in H1.
    destruct H1 as [[c' t] [H3 H4]]. inversion H4; subst. destruct (pinv_set_tr s t Hi) as [A B].
    eapply Hq; [exact A|apply sext_ext; exact B|split; reflexivity|exact H2].
  - destruct (pinv_set_tr s (append l (PBytes bs) (pt_tr s)) Hi) as [A B].
    eapply Hq; [exact A|apply sext_ext; exact B|split; reflexivity|exact H].
  - apply bind_ok_inv in H. destruct H as [a [Ha H]]. inversion H; subst w'. simpl.
    destruct (pinv_sc s (tp_id a) c Hi) as [A B].
    split; [|split; [apply sext_ext; exact B|exists []; rewrite app_nil_r; reflexivity]].
    constructor; simpl.
    + exact A.
    + intros h Hin. eapply hknown_ext; [apply sext_ext; exact B|]. apply (w_handles _ Hw h Hin).
    + apply (w_fresh _ Hw).
    + intros cl Hcl. apply in_app_or in Hcl. destruct Hcl as [Hcl|[<-|[]]]; [apply (w_sc _ Hw cl Hcl)|].
      simpl. apply rnth_inv in Ha. apply (handle_lt _ a Hw). eapply nth_error_In; exact Ha.
    + apply (w_zc _ Hw).
  - apply bind_ok_inv in H. destruct H as [a [Ha H]]. inversion H; subst w'. simpl.
    destruct (pinv_zc s (tp_id a) Hi) as [A B].
    split; [|split; [apply sext_ext; exact B|exists []; rewrite app_nil_r; reflexivity]].
    constructor; simpl.
    + exact A.
    + intros h Hin. eapply hknown_ext; [apply sext_ext; exact B|]. apply (w_handles _ Hw h Hin).
    + apply (w_fresh _ Hw).
    + apply (w_sc _ Hw).
    + intros cl Hcl. apply in_app_or in Hcl. destruct Hcl as [Hcl|[<-|[]]]; [apply (w_zc _ Hw cl Hcl)|].
      simpl. apply rnth_inv in Ha. apply (handle_lt _ a Hw). eapply nth_error_In; exact Ha.
Qed.

Lemma steps_inv : forall (o : oracle p (gcar (PG1 E))) ops w w', winv w -> foldM (pstep o) w ops = Ok w' ->
  winv w' /\ ext (fst w) (fst w') /\ exists suf, snd w' = snd w ++ suf.
Proof.
  intros o ops. induction ops as [|op ops IH]; intros w w' Hw H.
  - inversion H; subst. split; [exact Hw|]. split; [apply ext_refl|]. exists []. rewrite app_nil_r. reflexivity.
  - cbn [foldM] in H. apply bind_ok_inv in H. destruct H as [w1 [H1 H2]]. destruct w as [s hs].
    destruct (pstep_inv o s hs op w1 Hw H1) as [A1 [A2 [suf A3]]].
    destruct (IH w1 w' A1 H2) as [B1 [B2 [suf' B3]]]. split; [exact B1|]. split; [eapply ext_trans; eassumption|].
    exists (suf ++ suf'). rewrite B3, A3, app_assoc. reflexivity.
Qed.

Lemma prun_inv : forall (o : oracle p (gcar (PG1 E))) pp ops w, prun o pp ops = Ok w -> winv w.
Proof. intros o pp ops w H. apply (steps_inv o ops (pt_new pp, []) w (winv_new pp) H). Qed.

(** ** The statements *)
Lemma hist_fresh : forall (o : oracle p (gcar (PG1 E))) pp ops s hs, prun o pp ops = Ok (s, hs) ->
  NoDup (map tp_id hs) /\ (forall h, In h hs -> tp_id h < get_next_id s) /\
  (forall op s' hs', pstep o (s, hs) op = Ok (s', hs') ->
     hs' = hs \/ exists h, hs' = hs ++ [h] /\ get_next_id s <= tp_id h < get_next_id s').
Proof.
  intros o pp ops s hs H. pose proof (prun_inv o pp ops _ H) as Hw. split; [apply (w_fresh _ Hw)|].
  split; [intros h Hin; apply (handle_lt _ h Hw Hin)|].
  intros op s' hs' Hs. destruct (pstep_inv o s hs op _ Hw Hs) as [Hw' [_ [suf Hsuf]]]. simpl in Hsuf. subst hs'.
  assert (Hlen : length suf <= 1).
  { clear - Hs. unfold pstep in Hs. destruct op;
    repeat match goal with
    | H : bind _ _ = Ok _ |- _ => apply bind_ok_inv in H; destruct H as [? [? H]]
    | H : push _ _ = Ok _ |- _ => unfold push in H
    | H : (let '(_, _) := ?x in _) = Ok _ |- _ => destruct x
    | H : Ok _ = Ok _ |- _ => inversion H; clear H; subst
    end;
    match goal with
    | H : hs = hs ++ suf |- _ => rewrite <- (app_nil_r hs) in H at 1; apply app_inv_head in H; subst; simpl; lia
    | H : hs ++ suf = hs |- _ => rewrite <- (app_nil_r hs) in H at 2; apply app_inv_head in H; subst; simpl; lia
    | H : hs ++ _ = hs ++ suf |- _ => apply app_inv_head in H; subst; simpl; lia
    end. }
  destruct suf as [|h [|h2 suf]]; [left; apply app_nil_r| |simpl in Hlen; lia].
  right. exists h. split; [reflexivity|]. split.
  - assert (Hn := w_fresh _ Hw'). simpl in Hn. rewrite map_app in Hn.
    destruct (Nat.le_gt_cases (get_next_id s) (tp_id h)) as [Hle|Hgt]; [exact Hle|exfalso].
    clear - Hs Hgt Hw. pose proof (w_inv _ Hw) as Hi. simpl in Hi.
    assert (Hh : forall i a, rnth hs i = Ok a -> hknown s a).
    { intros i a Ha. apply rnth_inv in Ha. apply nth_error_In in Ha. apply (w_handles _ Hw a Ha). }
    assert (Hp : forall r n b f, call_spec s r n b f -> push hs r = Ok (s', hs ++ [h]) -> False).
    { intros r n b f [h' [s1 [H1 [_ [_ [_ [_ [_ [H7 _]]]]]]]]] Hp. subst r. unfold push in Hp. cbn in Hp. inversion Hp as [[Q1 Q2]].
      apply app_inv_head in Q2. inversion Q2; subst. unfold get_next_id in Hgt. lia. }
    assert (Hself : hs = hs ++ [h] -> False).
    { intros Hx. apply (f_equal (@length tpoly)) in Hx. rewrite app_length in Hx. simpl in Hx. lia. }
    destruct op; cbn [pstep] in Hs;
    repeat match goal with
    | H : bind (rnth _ _) _ = Ok _ |- _ => apply bind_ok_inv in H; destruct H as [? [? H]]
    end.
    + apply bind_ok_inv in Hs. destruct Hs as [m [Hm Hs]]. apply from_evaluations_wf in Hm. destruct Hm as [Hm _].
      eapply Hp; [apply (tp_track_spec s m Hi Hm)|exact Hs].
    + apply bind_ok_inv in Hs. destruct Hs as [m [Hm Hs]]. unfold push in Hs. apply bind_ok_inv in Hs. destruct Hs as [[h' s1] [H1 H2]].
      inversion H2 as [[Q1 Q2]]. apply app_inv_head in Q2. inversion Q2; subst. unfold tp_commit in H1. apply bind_ok_inv in H1.
      destruct H1 as [[id s2] [H1 H4]]. inversion H4; subst. unfold track_and_commit_mat_poly in H1. apply bind_ok_inv in H1.
      destruct H1 as [c [_ H1]]. cbn in H1. inversion H1; subst. simpl in Hgt. unfold get_next_id in Hgt. lia.
    + destruct (Nat.eq_dec (tp_nv x) (tp_nv x0)) as [Hn|Hn]; [|unfold tp_add in Hs; rewrite tp_bin_ne in Hs by exact Hn; discriminate].
      eapply Hp; [apply (tp_add_spec s x x0 Hi (Hh _ _ H) (Hh _ _ H0) Hn)|exact Hs].
    + destruct (Nat.eq_dec (tp_nv x) (tp_nv x0)) as [Hn|Hn]; [|unfold tp_sub in Hs; rewrite tp_bin_ne in Hs by exact Hn; discriminate].
      eapply Hp; [apply (tp_sub_spec s x x0 Hi (Hh _ _ H) (Hh _ _ H0) Hn)|exact Hs].
    + destruct (Nat.eq_dec (tp_nv x) (tp_nv x0)) as [Hn|Hn]; [|unfold tp_mul in Hs; rewrite tp_bin_ne in Hs by exact Hn; discriminate].
      eapply Hp; [apply (tp_mul_spec s x x0 Hi (Hh _ _ H) (Hh _ _ H0) Hn)|exact Hs].
    + eapply Hp; [apply (tp_add_scalar_spec s x c Hi (Hh _ _ H))|exact Hs].
    + eapply Hp; [apply (tp_mul_scalar_spec s x c Hi (Hh _ _ H))|exact Hs].
    + eapply Hp; [apply (tp_inc_spec true s x k Hi (Hh _ _ H))|exact Hs].
    + eapply Hp; [apply (tp_inc_spec false s x k Hi (Hh _ _ H))|exact Hs].
    + apply bind_ok_inv in Hs. destruct Hs as [[? ?] [_ Hs]]. inversion Hs. auto.
    + apply bind_ok_inv in Hs. destruct Hs as [[? ?] [_ Hs]]. inversion Hs. auto.
    + inversion Hs. auto.
    + inversion Hs. auto.
    + inversion Hs. auto.
  - apply (handle_lt _ h Hw'). simpl. apply in_or_app. right. left. reflexivity.
Qed.

Lemma hist_invariants : forall (o : oracle p (gcar (PG1 E))) pp ops s hs, prun o pp ops = Ok (s, hs) -> forall id,
  ((get_next_id s <= id -> mget (pt_mat s) id = None /\ mget (pt_virt s) id = None) /\
   (id < get_next_id s -> (exists a, mget (pt_mat s) id = Some a /\ wf_mle (snd a) /\ mget (pt_virt s) id = None) \/
      (exists v n, mget (pt_mat s) id = None /\ mget (pt_virt s) id = Some v /\ v <> [] /\
         forall c pr, In (c, pr) v -> pr <> [] /\ forall i, In i pr -> exists a, mget (pt_mat s) i = Some a /\ nv (snd a) = n))).
Proof.
  intros o pp ops s hs H id. pose proof (w_inv _ (prun_inv o pp ops _ H)) as Hi. simpl in Hi. split.
  - apply fresh_none. exact Hi.
  - intros Hlt. apply (i_known s Hi) in Hlt.
    destruct (mget (pt_mat s) id) as [a|] eqn:Ea.
    + left. exists a. split; [reflexivity|]. split; [apply (i_wf s Hi id a Ea)|].
      destruct (mget (pt_virt s) id) as [v|] eqn:Ev; [exfalso; eapply i_disj; eassumption|reflexivity].
    + right. destruct (mget (pt_virt s) id) as [v|] eqn:Ev; [|destruct Hlt; congruence].
      destruct (i_virt s Hi id v Ev) as [n Hn]. exists v, n. split; [reflexivity|]. split; [reflexivity|]. exact Hn.
Qed.

Lemma hist_stable : forall (o : oracle p (gcar (PG1 E))) pp ops ops' s hs s' hs',
  prun o pp ops = Ok (s, hs) -> prun o pp (ops ++ ops') = Ok (s', hs') ->
  (exists suf, hs' = hs ++ suf) /\
  forall h, In h hs -> exists vs s1 s1', length vs = 2 ^ tp_nv h /\
    tp_evaluations s h = Ok (vs, s1) /\ tp_evaluations s' h = Ok (vs, s1').
Proof.
  intros o pp ops ops' s hs s' hs' H H'. unfold prun in H, H'. rewrite foldM_app, H in H'. cbn [bind] in H'.
  pose proof (prun_inv o pp ops _ H) as Hw. destruct (steps_inv o ops' _ _ Hw H') as [Hw' [He Hsuf]].
  split; [exact Hsuf|]. intros h Hin. pose proof (w_handles _ Hw h Hin) as Hk. simpl in Hk, He.
  pose proof (hknown_ext _ _ _ He Hk) as Hk'.
  destruct (evaluations_spec s _ _ (w_inv _ Hw) Hk) as [s1 [H1 _]].
  destruct (evaluations_spec s' _ _ (w_inv _ Hw') Hk') as [s2 [H2 _]].
  exists (ptab s (tp_id h) (tp_nv h)), s1, s2. split; [apply ptab_length|]. split; [exact H1|].
  unfold tp_evaluations. rewrite H2. do 2 f_equal. apply ptab_ext; assumption.
Qed.

(** Values of handles, as seen through [evaluate]. *)
Lemma hist_eval : forall (o : oracle p (gcar (PG1 E))) pp ops s hs h x, prun o pp ops = Ok (s, hs) -> In h hs -> length x = tp_nv h ->
  tp_evaluate s h x = Ok (Some (pval s (tp_id h) x)).
Proof.
  intros o pp ops s hs h x H Hin Hx. pose proof (prun_inv o pp ops _ H) as Hw.
  eapply evaluate_spec; [apply (w_inv _ Hw)|apply (w_handles _ Hw h Hin)|exact Hx].
Qed.

Lemma call_eval : forall s r n b f, pinv s -> call_spec s r n b f ->
  exists h s', r = Ok (h, s') /\ tp_nv h = n /\ forall x, length x = n -> tp_evaluate s' h x = Ok (Some (f x)).
Proof.
  intros s r n b f Hi [h [s' [H1 [H2 [H3 [H4 [H5 [H6 [H7 [H8 [H9 H10]]]]]]]]]]]. exists h, s'. split; [exact H1|]. split; [exact H8|].
  intros x Hx. unfold tp_evaluate. rewrite (evaluate_spec s' _ _ x H2 H9) by congruence. rewrite H10 by exact Hx. reflexivity.
Qed.

Lemma hist_arith : forall (o : oracle p (gcar (PG1 E))) pp ops s hs a b c, prun o pp ops = Ok (s, hs) -> In a hs -> In b hs ->
  exists va vb, (forall x, length x = tp_nv a -> tp_evaluate s a x = Ok (Some (va x))) /\
    (forall x, length x = tp_nv b -> tp_evaluate s b x = Ok (Some (vb x))) /\
  (tp_nv a = tp_nv b ->
    (exists h s', tp_add s a b = Ok (h, s') /\ tp_nv h = tp_nv a /\ forall x, length x = tp_nv a -> tp_evaluate s' h x = Ok (Some (va x + vb x)%F)) /\
    (exists h s', tp_sub s a b = Ok (h, s') /\ tp_nv h = tp_nv a /\ forall x, length x = tp_nv a -> tp_evaluate s' h x = Ok (Some (va x - vb x)%F)) /\
    (exists h s', tp_mul s a b = Ok (h, s') /\ tp_nv h = tp_nv a /\ forall x, length x = tp_nv a -> tp_evaluate s' h x = Ok (Some (va x * vb x)%F))) /\
  (exists h s', tp_add_scalar s a c = Ok (h, s') /\ tp_nv h = tp_nv a /\ forall x, length x = tp_nv a -> tp_evaluate s' h x = Ok (Some (va x + c)%F)) /\
  (exists h s', tp_mul_scalar s a c = Ok (h, s') /\ tp_nv h = tp_nv a /\ forall x, length x = tp_nv a -> tp_evaluate s' h x = Ok (Some (va x * c)%F)) /\
  (tp_nv a <> tp_nv b -> tp_add s a b = Panic /\ tp_sub s a b = Panic /\ tp_mul s a b = Panic).
Proof.
  intros o pp ops s hs a b c H Ha Hb. pose proof (prun_inv o pp ops _ H) as Hw. pose proof (w_inv _ Hw) as Hi. simpl in Hi.
  pose proof (w_handles _ Hw a Ha) as Ka. pose proof (w_handles _ Hw b Hb) as Kb. simpl in Ka, Kb.
  exists (pval s (tp_id a)), (pval s (tp_id b)).
  split; [intros x Hx; eapply hist_eval; eassumption|]. split; [intros x Hx; eapply hist_eval; eassumption|].
  split; [intros Hn; split; [|split]|split; [|split]].
  - exact (call_eval _ _ _ _ _ Hi (tp_add_spec s a b Hi Ka Kb Hn)).
  - exact (call_eval _ _ _ _ _ Hi (tp_sub_spec s a b Hi Ka Kb Hn)).
  - exact (call_eval _ _ _ _ _ Hi (tp_mul_spec s a b Hi Ka Kb Hn)).
  - exact (call_eval _ _ _ _ _ Hi (tp_add_scalar_spec s a c Hi Ka)).
  - exact (call_eval _ _ _ _ _ Hi (tp_mul_scalar_spec s a c Hi Ka)).
  - intros Hn. unfold tp_add, tp_sub, tp_mul. rewrite !tp_bin_ne by exact Hn. auto.
Qed.

(** Appending variables: at every point it is the multilinear extension of the operand's hypercube values. *)
Lemma hist_increase : forall (o : oracle p (gcar (PG1 E))) pp ops s hs a k, prun o pp ops = Ok (s, hs) -> In a hs ->
  exists vs s0, tp_evaluations s a = Ok (vs, s0) /\
  (exists h s', tp_front s a k = Ok (h, s') /\ tp_nv h = tp_nv a + k /\
     forall y x, length y = k -> length x = tp_nv a -> tp_evaluate s' h (y ++ x) = Ok (Some (mle_ext (tp_nv a) (tab vs) x))) /\
  (exists h s', tp_back s a k = Ok (h, s') /\ tp_nv h = tp_nv a + k /\
     forall x y, length y = k -> length x = tp_nv a -> tp_evaluate s' h (x ++ y) = Ok (Some (mle_ext (tp_nv a) (tab vs) x))).
Proof.
  intros o pp ops s hs a k H Ha. pose proof (prun_inv o pp ops _ H) as Hw. pose proof (w_inv _ Hw) as Hi. simpl in Hi.
  pose proof (w_handles _ Hw a Ha) as Ka. simpl in Ka.
  destruct (evaluations_spec s _ _ Hi Ka) as [s0 [H1 _]]. exists (ptab s (tp_id a) (tp_nv a)), s0. split; [exact H1|].
  split.
  - destruct (call_eval _ _ _ _ _ Hi (tp_inc_spec true s a k Hi Ka)) as [h [s' [G1 [G2 G3]]]].
    exists h, s'. split; [exact G1|]. split; [exact G2|]. intros y x Hy Hx. rewrite G3 by (rewrite app_length; lia).
    rewrite skipn_app, skipn_all2 by lia. replace (k - length y) with 0 by lia. simpl. rewrite mlx_tab. reflexivity.
  - destruct (call_eval _ _ _ _ _ Hi (tp_inc_spec false s a k Hi Ka)) as [h [s' [G1 [G2 G3]]]].
    exists h, s'. split; [exact G1|]. split; [exact G2|]. intros x y Hy Hx. rewrite G3 by (rewrite app_length; lia).
    rewrite firstn_app, firstn_all2 by lia. replace (tp_nv a - length x) with 0 by lia. simpl. rewrite app_nil_r, mlx_tab. reflexivity.
Qed.

(** Other handles keep their values at every point under every call except [evaluations] and the two extensions. *)
Lemma unknown_panics : forall (o : oracle p (gcar (PG1 E))) pp ops s hs id id' c k x, prun o pp ops = Ok (s, hs) -> get_next_id s <= id ->
  evaluate s id x = Panic /\ evaluations s id = Panic /\ add_polys s id id' = Panic /\ add_polys s id' id = Panic /\
  sub_polys s id id' = Panic /\ sub_polys s id' id = Panic /\ mul_polys s id id' = Panic /\ mul_polys s id' id = Panic /\
  add_scalar s id c = Panic /\ mul_scalar s id c = Panic /\ increase_nv_front s id k = Panic /\ increase_nv_back s id k = Panic.
Proof.
  intros o pp ops s hs id id' c k x H Hle. pose proof (w_inv _ (prun_inv o pp ops _ H)) as Hi. simpl in Hi.
  destruct (fresh_none s id Hi Hle) as [Hm Hv].
  assert (Hr : get_rep s id = Panic) by (unfold get_rep; rewrite Hm, Hv; reflexivity).
  assert (Hr' : forall r : rep -> res (nat * st), (x <- get_rep s id' ;; r x) = Panic \/ exists y, get_rep s id' = Ok y).
  { intros r. unfold get_rep. destruct (mget (pt_mat s) id'), (mget (pt_virt s) id'); cbn; eauto. }
  assert (Hmat : materialize_poly s id = Panic).
  { unfold materialize_poly. cbn [materialize_loop]. rewrite Hm, Hv. reflexivity. }
  unfold evaluations, increase_nv_front, increase_nv_back, increase_nv, add_scalar, mul_scalar, evaluate, add_polys, sub_polys, add_sub_polys, mul_polys, get_poly_nv.
  cbn [evaluate_loop]. rewrite Hmat, Hm, Hv, Hr.
  assert (Hb : (r1 <- get_rep s id';; Panic) = @Panic (nat * st)) by (unfold get_rep; destruct (mget (pt_mat s) id'), (mget (pt_virt s) id'); reflexivity).
  repeat split; try reflexivity; destruct (get_rep s id'); try reflexivity; discriminate Hb.
Qed.

(** *** Reading the evaluations *)
Lemma evals_boolean : forall (o : oracle p (gcar (PG1 E))) pp ops s hs a b vs s', prun o pp ops = Ok (s, hs) -> In a hs -> In b hs ->
  tp_evaluations s a = Ok (vs, s') ->
  (forall k, k < 2 ^ tp_nv b -> tp_evaluate s' b (bpoint (tp_nv b) k) = tp_evaluate s b (bpoint (tp_nv b) k)) /\
  (forall x, length x = tp_nv b -> tp_id b <> tp_id a -> tp_evaluate s' b x = tp_evaluate s b x).
Proof.
  intros o pp ops s hs a b vs s' H Ha Hb He. pose proof (prun_inv o pp ops _ H) as Hw. pose proof (w_inv _ Hw) as Hi. simpl in Hi.
  pose proof (w_handles _ Hw a Ha) as Ka. pose proof (w_handles _ Hw b Hb) as Kb. simpl in Ka, Kb.
  destruct (evaluations_spec s _ _ Hi Ka) as [s1 [H1 [H2 [H3 [H4 [H5 [H6 H7]]]]]]].
  unfold tp_evaluations in He. rewrite He in H1. inversion H1; subst. split.
  - intros k Hk. unfold tp_evaluate.
    rewrite (evaluate_spec s _ _ _ Hi Kb), (evaluate_spec s1 _ _ _ H2 (hknown_ext _ _ _ H3 Kb)) by apply bpoint_length.
    do 2 f_equal. apply H3; assumption.
  - intros x Hx Hne. destruct (H6 _ _ Hne Kb) as [Kb' Hv]. unfold tp_evaluate.
    rewrite (evaluate_spec s _ _ _ Hi Kb), (evaluate_spec s1 _ _ _ H2 Kb') by exact Hx. rewrite Hv. reflexivity.
Qed.

(** A polynomial all of whose products have one factor is multilinear. *)
Lemma linear_mlx : forall s id v n x, pinv s -> mget (pt_virt s) id = Some v -> vok (pt_mat s) n v ->
  (forall c pr, In (c, pr) v -> length pr = 1) -> mlx s id n x = pval s id x.
Proof.
  intros s id v n x Hi Hv Hok Hlin. unfold mlx.
  destruct (mget (pt_mat s) id) as [a|] eqn:Ea; [exfalso; eapply i_disj; eassumption|].
  unfold pval. rewrite Ea, Hv. destruct Hok as [_ Hok]. clear Hv Ea.
  induction v as [|[c pr] v IH].
  - unfold vval. simpl. apply mle_ext_zero. reflexivity.
  - assert (Hcons : forall y, vval (pt_mat s) ((c, pr) :: v) y = (c * Fprod (map (fun i => mval (pt_mat s) i y) pr) + vval (pt_mat s) v y)%F) by reflexivity.
    rewrite Hcons.
    rewrite (mle_ext_ext n _ (fun k => c * Fprod (map (fun i => mval (pt_mat s) i (bpoint n k)) pr) + vval (pt_mat s) v (bpoint n k))%F) by (intros; apply Hcons).
    rewrite mle_ext_add, mle_ext_scale, IH.
    + f_equal. f_equal. specialize (Hlin c pr (or_introl eq_refl)). destruct (Hok c pr (or_introl eq_refl)) as [_ Hin].
      destruct pr as [|i [|j pr]]; simpl in Hlin; try lia. destruct (Hin i (or_introl eq_refl)) as [a [Ha Hn]].
      cbn [map]. rewrite Fprod_cons, Fprod_nil. unfold mval at 2. rewrite Ha.
      replace (value (snd a) x * F1)%F with (value (snd a) x) by ring. unfold value at 1. rewrite Hn.
      apply mle_ext_ext. intros k Hk. rewrite Fprod_cons, Fprod_nil. unfold mval. rewrite Ha. unfold value. rewrite Hn, mle_ext_bpoint by exact Hk. ring.
    + intros c' pr' Hc'. apply (Hok c' pr'). right. exact Hc'.
    + intros c' pr' Hc'. eapply Hlin. right. exact Hc'.
Qed.

Lemma evals_linear : forall (o : oracle p (gcar (PG1 E))) pp ops s hs a vs s', prun o pp ops = Ok (s, hs) -> In a hs ->
  tp_evaluations s a = Ok (vs, s') ->
  (forall v c pr, mget (pt_virt s) (tp_id a) = Some v -> In (c, pr) v -> length pr = 1) ->
  forall b x, In b hs -> length x = tp_nv b -> tp_evaluate s' b x = tp_evaluate s b x.
Proof.
  intros o pp ops s hs a vs s' H Ha He Hlin b x Hb Hx.
  destruct (Nat.eq_dec (tp_id b) (tp_id a)) as [Hid|Hid]; [|apply (proj2 (evals_boolean o pp ops s hs a b vs s' H Ha Hb He) x Hx Hid)].
  pose proof (prun_inv o pp ops _ H) as Hw. pose proof (w_inv _ Hw) as Hi. simpl in Hi.
  pose proof (w_handles _ Hw a Ha) as Ka. pose proof (w_handles _ Hw b Hb) as Kb. simpl in Ka, Kb. unfold hknown in Ka, Kb. rewrite Hid in Kb.
  assert (Hn : tp_nv b = tp_nv a) by (eapply known_unique; eassumption).
  destruct (evaluations_spec s _ _ Hi Ka) as [s1 [H1 [H2 [H3 [H4 [[m [M1 [M2 M3]]] [H6 H7]]]]]]].
  unfold tp_evaluations in He. rewrite He in H1. inversion H1; subst s1. subst vs. unfold tp_evaluate. rewrite Hid.
  assert (Ka' : known s' (tp_id a) (tp_nv a)) by (left; exists m; auto).
  rewrite (evaluate_spec s _ _ _ Hi Ka), (evaluate_spec s' _ _ _ H2 Ka') by congruence. do 2 f_equal.
  unfold pval at 1. rewrite M1. unfold value. rewrite M2, M3, <- mlx_tab.
  destruct Ka as [[a0 [A1 A2]]|[v [V1 V2]]].
  - rewrite <- A2. apply mlx_mat; assumption.
  - eapply linear_mlx; try eassumption. intros c pr Hc. eapply Hlin; eassumption.
Qed.
End S.

(** Reading the evaluations of x*x changes its value at 2. *)
Section R.
Context {p : positive} {E : pairing p}.
Add Ring Fr2 : (@F_ring p).

Lemma evals_change : (3 <= Zpos p)%Z -> forall (o : oracle p (gcar (PG1 E))) pp,
  exists s hs a vs s' x u u', prun o pp [OTrack 1 [F0; F1]; OMul 0 0] = Ok (s, hs) /\ In a hs /\ length x = tp_nv a /\
    tp_evaluations s a = Ok (vs, s') /\
    tp_evaluate s a x = Ok (Some u) /\ tp_evaluate s' a x = Ok (Some u') /\ u <> u'.
Proof.
  intros H3 o pp.
  assert (Hrun : exists s hs, prun o pp [OTrack 1 [F0; F1]; OMul 0 0] = Ok (s, hs) /\ hs = [mkTp 0 1; mkTp 1 1] /\
    mget (pt_mat s) 1 = None /\ mget (pt_virt s) 1 = Some [(F1, [0; 0])] /\ mget (pt_mat s) 0 = Some (0, mkMle 1 [F0; F1])).
  { eexists. eexists. split; [reflexivity|]. repeat split; reflexivity. }
  destruct Hrun as [s [hs [Hr [Hh [M1 [V1 M0]]]]]].
  pose proof (prun_inv o pp _ _ Hr) as Hw. pose proof (w_inv _ Hw) as Hi. simpl in Hi.
  assert (Hin : In (mkTp 1 1) hs) by (subst hs; right; left; reflexivity).
  pose proof (w_handles _ Hw _ Hin) as Hk. unfold hknown in Hk. simpl in Hk.
  destruct (evaluations_spec s _ _ Hi Hk) as [s' [H1 [H2 [_ [_ [[m [N1 [N2 N3]]] _]]]]]].
  set (x := [(F1 + F1)%F] : list (F p)).
  assert (Hx0 : value (mkMle 1 [F0; F1]) x = (F1 + F1)%F).
  { unfold value, mle_ext, x. cbn -[Fmul Fadd Fsub]. ring. }
  assert (Hv : pval s 1 x = ((F1 + F1) * (F1 + F1))%F).
  { unfold pval. rewrite M1, V1. unfold vval. cbn [map fst snd]. unfold mval. rewrite M0. cbn [snd]. rewrite Hx0.
    rewrite Fsum_cons, Fsum_nil, !Fprod_cons, Fprod_nil. ring. }
  exists s, hs, (mkTp 1 1), (ptab s 1 1), s', x, ((F1 + F1) * (F1 + F1))%F, (F1 + F1)%F.
  split; [exact Hr|]. split; [exact Hin|]. split; [reflexivity|]. split; [exact H1|].
  split; [|split].
  - rewrite <- Hv. apply (hist_eval o pp _ s hs (mkTp 1 1) x Hr Hin eq_refl).
  - unfold tp_evaluate. simpl tp_id. rewrite (evaluate_spec s' 1 1 x H2); [|left; exists m; auto|reflexivity]. do 2 f_equal.
    unfold pval. rewrite N1. unfold value. rewrite N2, N3.
    assert (Ht : ptab s 1 1 = [F0; F1]).
    { unfold ptab. cbn [seq map Nat.pow Nat.mul Nat.add].
      assert (Hb : forall k, k < 2 -> pval s 1 (bpoint 1 k) = tab [F0; F1] k).
      { intros k Hk2. unfold pval. rewrite M1, V1. unfold vval. cbn [map fst snd]. unfold mval. rewrite M0. cbn [snd].
        change 1 with (nv (mkMle 1 [@F0 p; F1])) at 1 2 3. rewrite !value_mat_bool by exact Hk2.
        rewrite Fsum_cons, Fsum_nil, !Fprod_cons, Fprod_nil. destruct k as [|[|k]]; [| |lia]; unfold tab; simpl; ring. }
      rewrite !Hb by lia. reflexivity. }
    rewrite Ht. exact Hx0.
  - intros Heq. assert (Hz : (F1 + F1 = @F0 p)%F).
    { transitivity ((F1 + F1) * (F1 + F1) - (F1 + F1) : F p)%F; [ring|]. rewrite Heq. ring. }
    apply (ofN_neq_0 (p:=p) 2); [lia|simpl; lia|]. rewrite !ofN_S. etransitivity; [|exact Hz]. change (ofN 0) with (@F0 p). ring.
Qed.
End R.
