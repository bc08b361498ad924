(** The zero check: completeness and soundness. *)
From Coq Require Import String List Arith Lia Bool ZArith Znumtheory Field.
Import ListNotations.
From Verif Require Import Res ResLemmas Fp FSum SpecMle SpecVp SpecPoly SpecSumcheck MleLemmas PolyLemmas ModelMle ModelVp VpHist MleProofs MleExtra
  VpProofs VpExtra ModelTranscript ModelSumcheck InterpProofs SumcheckHist SumcheckProofs SumcheckVerify.
Local Open Scope string_scope.
Local Open Scope list_scope.
Local Open Scope nat_scope.

Section S.
Context {p : positive} {C : Type}.
Add Ring Fr : (@F_ring p).
Implicit Types (t : tr p C) (o : oracle p C).

(** n consecutive draws. *)
Fixpoint run_draws o (l : string) (n : nat) t : list (F p) * tr p C :=
  match n with
  | O => ([], t)
  | S k => let c := o (hist t) l in let (cs, t') := run_draws o l k (tdraw l c t) in (c :: cs, t')
  end.

Lemma draw_loop_spec : forall o l n acc t, is_empty t = false ->
  draw_loop o l n acc t = (snd (run_draws o l n t), Ok (acc ++ fst (run_draws o l n t))).
Proof.
  intros o l n. induction n as [|n IH]; intros acc t Ht; cbn [draw_loop run_draws].
  - cbn. rewrite app_nil_r. reflexivity.
  - unfold draw. rewrite Ht. fold (tdraw l (o (hist t) l) t). rewrite IH by reflexivity.
    destruct (run_draws o l n _) as [cs t']. cbn [fst snd]. rewrite <- app_assoc. reflexivity.
Qed.

Lemma draw_vecT_ok : forall o l n t, is_empty t = false -> draw_vecT o l n t = Ok (run_draws o l n t).
Proof.
  intros o l n t Ht. unfold draw_vecT, draw_vec. rewrite Ht, draw_loop_spec by exact Ht. cbn [threaded app].
  destruct (run_draws o l n t). reflexivity.
Qed.
Lemma draw_vecT_empty : forall o l n t, is_empty t = true -> draw_vecT o l n t = Err TranscriptInvalid.
Proof. intros o l n t Ht. unfold draw_vecT, draw_vec. rewrite Ht. reflexivity. Qed.

Lemma run_draws_length : forall o l n t, length (fst (run_draws o l n t)) = n.
Proof.
  intros o l n. induction n as [|n IH]; intros t; [reflexivity|]. cbn [run_draws].
  specialize (IH (tdraw l (o (hist t) l) t)). destruct (run_draws o l n _). simpl in *. lia.
Qed.

Lemma nchal_tdraw : forall l c t, nchal (hist (tdraw l c t)) = S (nchal (hist t)).
Proof. intros. unfold tdraw, append. cbn [hist]. rewrite !nchal_app. unfold nchal. cbn. lia. Qed.

Lemma firstn_skipn_S : forall {A} (d : A) j n l, j < length l -> firstn (S n) (skipn j l) = nth j l d :: firstn n (skipn (S j) l).
Proof.
  intros A d. induction j as [|j IH]; intros n [|a l] H; simpl in *; try lia; [reflexivity|]. rewrite <- IH by lia. reflexivity.
Qed.

Lemma run_draws_script : forall (ch : list (F p)) l k0 n t j, nchal (hist t) = k0 + j -> j + n <= length ch ->
  fst (run_draws (script k0 ch) l n t) = firstn n (skipn j ch) /\
  nchal (hist (snd (run_draws (script k0 ch) l n t))) = k0 + j + n.
Proof.
  intros ch l k0. induction n as [|n IH]; intros t j Hn Hl; cbn [run_draws].
  - cbn. split; [reflexivity|lia].
  - set (c := script k0 ch (hist t) l).
    specialize (IH (tdraw l c t) (S j)). destruct (run_draws (script k0 ch) l n (tdraw l c t)) as [cs t']. cbn [fst snd] in *.
    destruct IH as [I1 I2]; [rewrite nchal_tdraw; lia|lia|].
    split; [|lia]. rewrite I1, (firstn_skipn_S F0) by lia. f_equal. unfold c, script. f_equal. lia.
Qed.

Section Prime.
Hypothesis Hp : prime (Zpos p).
Add Field Ff : (F_field Hp).

Lemma eqf_affine : forall n (r : list (F p)) pre post, length r = n -> length pre + 1 + length post = n ->
  polyfun 1 (fun x => eqf (pre ++ x :: post) r).
Proof.
  intros n r pre post Hr Hl.
  destruct (mle_coord Hp n (fun k => eqf (bpoint n k) r) pre post Hl) as [a [b E]].
  apply (polyfun_ext 1 (fun x => a + x * b)%F); [|apply polyfun_linear]. intros x. rewrite <- E.
  rewrite (mle_ext_ext n _ (fun k => eqk (bits n k) r)) by (intros k _; symmetry; apply eqk_eqf).
  apply mle_ext_eqk; [exact Hr|rewrite app_length; simpl; lia].
Qed.

Lemma hat_degree : forall n d (f : list (F p) -> F p) r, length r = n -> ind_degree n d f ->
  ind_degree n (d + 1) (fun x => f x * eqf x r)%F.
Proof.
  intros n d f r Hr Hf pre post Hl.
  apply (polyfun_mul d 1 (fun x => f (pre ++ x :: post)) (fun x => eqf (pre ++ x :: post) r)); [apply Hf; exact Hl|].
  apply (eqf_affine n); assumption.
Qed.

(** ** Completeness *)
Lemma pden_degree : forall (v : vp p) e, built v e -> ind_degree (num_variables v) (max_degree v) (pden e).
Proof.
  intros v e Hb pre post Hl. destruct (built_inv v e Hb) as [Hi [_ He]].
  apply (polyfun_ext _ (fun x => vp_val v (pre ++ x :: post))).
  - intros x. apply He. rewrite app_length. simpl. lia.
  - apply (vp_val_degree Hp v Hi). exact Hl.
Qed.

Lemma cube_sum_ext : forall n (f g : list (F p) -> F p), (forall x, length x = n -> f x = g x) -> cube_sum n f = cube_sum n g.
Proof. intros n f g H. unfold cube_sum. apply sumN_ext. intros k _. apply H. apply bpoint_length. Qed.

Lemma zc_complete : forall o sc (v : vp p) e a t, built v e -> (forall m, In m (flat v) -> fst m <> a) ->
  max_degree v + 1 < fsize p -> 0 < num_variables v -> is_empty t = false ->
  (forall k, k < 2 ^ num_variables v -> pden e (bpoint (num_variables v) k) = F0) ->
  exists r t1 pf t', draw_vecT o "0check r" (num_variables v) t = Ok (r, t1) /\ length r = num_variables v /\ zc_prove o sc v a t = Ok (pf, t') /\ length (pf_point pf) = num_variables v /\
    ((forall c, In c (pf_point pf) -> nonnode (max_degree v + 2) c) ->
     zc_verify o pf (max_degree v) (num_variables v) t =
     if Feqb (eqf (pf_point pf) r) F0 then Panic else Ok (mkZsub (pf_point pf) (pden e (pf_point pf)) r, t')).
Proof.
  intros o sc v e a t Hb Hfr Hd Hn Ht Hz. unfold zc_prove, zc_verify. rewrite draw_vecT_ok by exact Ht. cbn [bind].
  pose proof (run_draws_length o "0check r" (num_variables v) t) as Hr.
  destruct (run_draws o "0check r" (num_variables v) t) as [r t1]. cbn [fst] in Hr.
  destruct (built_fhat v e r a Hb Hfr Hr) as [u [U1 [U2 [U3 [U4 [U5 _]]]]]]; [intros ->; simpl in Hr; lia|].
  destruct (built_inv u _ U4) as [Hui [_ Hue]].
  assert (Huv : forall x, length x = num_variables v -> vp_val u x = (pden e x * eqf x r)%F).
  { intros x Hx. pose proof (vp_evaluate_spec u x Hui) as E. rewrite U2 in E. specialize (E Hx). rewrite U5 in E by exact Hx.
    inversion E. reflexivity. }
  destruct (sc_complete Hp o sc u t1 Hui) as [pf [t' [E1 [E2 [E3 E4]]]]]; [lia|lia|lia|].
  rewrite U1. cbn [bind]. exists r, t1, pf, t'. split; [reflexivity|]. split; [exact Hr|]. split; [exact E1|]. rewrite U2 in *.
  split; [exact E2|]. intros Hc.
  assert (Hs : cube_sum (num_variables v) (vp_val u) = F0).
  { rewrite (cube_sum_ext _ _ (fun x => pden e x * eqf x r)%F) by exact Huv. rewrite fhat_sum by exact Hr.
    apply mle_ext_zero. exact Hz. }
  rewrite Hs in E3, E4. rewrite E3. cbn [bind]. rewrite Feqb_refl. cbn [ensure bind].
  rewrite U3 in E4. rewrite E4 by (replace (max_degree v + 1 + 1) with (max_degree v + 2) by lia; exact Hc).
  cbn [bind sub_point sub_eval]. destruct (eq_eval_all (pf_point pf) r ltac:(lia)) as [-> _]. cbn [bind].
  unfold fdiv. destruct (Feqb (eqf (pf_point pf) r) F0) eqn:E0; [reflexivity|]. cbn [bind]. do 3 f_equal.
  rewrite Huv by exact E2. apply Feqb_neq in E0. field. exact E0.
Qed.

Lemma zc_empty : forall o sc (v : vp p) a t, is_empty t = true -> zc_prove o sc v a t = Err TranscriptInvalid.
Proof. intros. unfold zc_prove. rewrite draw_vecT_empty by assumption. reflexivity. Qed.

(** ** Soundness *)
Lemma zc_verify_inv : forall o pf d n t z t', d + 2 <= fsize p -> zc_verify o pf d n t = Ok (z, t') ->
  exists r t1 s, draw_vecT o "0check r" n t = Ok (r, t1) /\ z_init z = r /\ length r = n /\ is_empty t = false /\ sc_verify o F0 pf (d + 1) n t1 = Ok (s, t') /\ z_point z = sub_point s /\ length (sub_point s) = n /\
    sub_eval s = (z_eval z * eqf (z_point z) r)%F /\ eqf (z_point z) r <> F0.
Proof.
  intros o pf d n t z t' Hd H. unfold zc_verify in H.
  apply bind_ok_inv in H. destruct H as [s0 [_ H]]. apply bind_ok_inv in H. destruct H as [u [_ H]].
  apply bind_ok_inv in H. destruct H as [[r t1] [D H]]. apply bind_ok_inv in H. destruct H as [[s t2] [V H]].
  apply bind_ok_inv in H. destruct H as [e [Ee H]]. apply bind_ok_inv in H. destruct H as [q [Q H]]. inversion H; subst z t2.
  cbn [z_init z_point z_eval].
  destruct (is_empty t) eqn:Et; [rewrite draw_vecT_empty in D by exact Et; discriminate|].
  assert (Hr : length r = n).
  { rewrite draw_vecT_ok in D by exact Et. pose proof (run_draws_length o "0check r" n t) as L. inversion D as [D']. rewrite D' in L. exact L. }
  assert (Hs : length (sub_point s) = n).
  { apply (sc_verify_ok Hp) in V; [|lia|lia]. destruct V as [Hn [Hl [R _]]].
    pose proof (run_msgs_length o (firstn n (pf_msgs pf)) (append "aux info" (PAux (d + 1) n) t1)) as L. rewrite R in L. cbn [fst] in L.
    rewrite L, firstn_length. lia. }
  exists r, t1, s. destruct (eq_eval_all (sub_point s) r ltac:(lia)) as [Ee' _]. rewrite Ee' in Ee. inversion Ee; subst e.
  unfold fdiv in Q. destruct (Feqb (eqf (sub_point s) r) F0) eqn:E0; [discriminate|]. apply Feqb_neq in E0. inversion Q; subst q.
  repeat split; auto. field. exact E0.
Qed.

Lemma zc_sound : forall o pf n d t z t' (f : list (F p) -> F p), ind_degree n d f -> d + 1 < fsize p ->
  zc_verify o pf d n t = Ok (z, t') -> z_eval z = f (z_point z) ->
  (forall k, k < 2 ^ n -> f (bpoint n k) = F0) \/ unlucky_r n f (z_init z) \/
  exists j, j < n /\ lucky n (d + 1) (fun x => f x * eqf x (z_init z))%F (nth j (pf_msgs pf) []) (firstn j (z_point z)) (nth j (z_point z) F0).
Proof.
  intros o pf n d t z t' f Hf Hd H He. apply zc_verify_inv in H; [|lia].
  destruct H as [r [t1 [s [_ [Hz [Hr [_ [V [Hpt [Hl [Hs _]]]]]]]]]]]. rewrite Hz. rewrite Hpt in *.
  destruct (sc_sound Hp o F0 pf n (d + 1) t1 s t' (fun x => f x * eqf x r)%F) as [E|L]; auto.
  - apply hat_degree; assumption.
  - lia.
  - rewrite Hs, He. reflexivity.
  - rewrite fhat_sum in E by exact Hr. destruct (forallb (fun k => Feqb (f (bpoint n k)) F0) (seq 0 (2 ^ n))) eqn:A.
    + left. intros k Hk. rewrite forallb_forall in A. apply Feqb_eq. apply A. apply in_seq. lia.
    + right. left. split; [symmetry; exact E|]. apply (mle_zero_count Hp).
      destruct (existsb (fun k => negb (Feqb (f (bpoint n k)) F0)) (seq 0 (2 ^ n))) eqn:B.
      * apply existsb_exists in B. destruct B as [k [Hk Hne]]. apply in_seq in Hk. apply negb_true_iff, Feqb_neq in Hne. exists k. split; [lia|exact Hne].
      * exfalso. apply not_true_iff_false in A. apply A. apply forallb_forall. intros k Hk.
        apply not_true_iff_false in B. destruct (Feqb (f (bpoint n k)) F0) eqn:Ek; [reflexivity|]. exfalso. apply B.
        apply existsb_exists. exists k. split; [exact Hk|]. rewrite Ek. reflexivity.
Qed.

(** Counting over two phases. *)
Lemma count_split : forall m n (Q : list (F p) -> bool),
  count Q (allV p (m + n)) = list_sum (map (fun x => count (fun y => Q (x ++ y)) (allV p n)) (allV p m)).
Proof.
  induction m as [|m IH]; intros n Q; cbn [Nat.add].
  - cbn. rewrite Nat.add_0_r. reflexivity.
  - rewrite count_allV_S. cbn [allV]. rewrite flat_map_concat_map, concat_map, map_map.
    assert (G : forall l, list_sum (concat l) = list_sum (map list_sum l)).
    { induction l as [|x l IHl]; [reflexivity|]. cbn [concat map]. rewrite list_sum_app, IHl. reflexivity. }
    rewrite G, map_map. f_equal. apply map_ext. intros a. rewrite IH, map_map. reflexivity.
Qed.

Lemma count_two_phase : forall m n B K (bad : list (F p) -> bool) Q, count bad (allV p m) <= K ->
  (forall x, In x (allV p m) -> bad x = false -> count (fun y => Q (x ++ y)) (allV p n) <= B) ->
  count Q (allV p (m + n)) <= K * fsize p ^ n + fsize p ^ m * B.
Proof.
  intros m n B K bad Q HK HB. rewrite count_split.
  assert (G : forall l, (forall x, In x l -> In x (allV p m)) ->
    list_sum (map (fun x => count (fun y => Q (x ++ y)) (allV p n)) l) <= count bad l * fsize p ^ n + length l * B).
  { induction l as [|x l IHl]; intros Hin; [cbn; lia|]. cbn [map length]. rewrite count_cons.
    change (list_sum (?a :: ?b)) with (a + list_sum b).
    specialize (IHl (fun y Hy => Hin y (or_intror Hy))).
    destruct (bad x) eqn:Eb.
    - pose proof (count_allV_bound n (fun y => Q (x ++ y))). lia.
    - pose proof (HB x (Hin x (or_introl eq_refl)) Eb). lia. }
  specialize (G (allV p m) (fun x H => H)). rewrite allV_length in G.
  eapply Nat.le_trans; [exact G|]. apply Nat.add_le_mono_r. apply Nat.mul_le_mono_r. exact HK.
Qed.

Lemma zc_sound_count : forall n d (f : list (F p) -> F p) st pt t, ind_degree n d f -> d + 1 < fsize p ->
  (exists k, k < 2 ^ n /\ f (bpoint n k) <> F0) ->
  count (zc_accepts n d f st pt t) (allV p (n + n)) <= (n + n * (d + 1)) * fsize p ^ (2 * n - 1).
Proof.
  intros n d f st pt t Hf Hd Hne.
  eapply Nat.le_trans.
  - apply (count_two_phase n n (n * (d + 1) * fsize p ^ (n - 1)) (n * fsize p ^ (n - 1))
      (fun r => Feqb (mle_ext n (fun k => f (bpoint n k)) r) F0)).
    + apply (mle_zero_count Hp). exact Hne.
    + intros r Hr Hg. apply allV_in_length in Hr. apply Feqb_neq in Hg.
      eapply Nat.le_trans; [|apply (final_count Hp n (d + 1) (fun x => f x * eqf x r)%F (hat_degree n d f r Hr Hf) ltac:(lia) ltac:(lia) n [] (st r) F0 eq_refl)].
      * apply count_le. intros ch Hch H. apply allV_in_length in Hch. unfold zc_accepts in H.
        assert (Hf1 : firstn n (r ++ ch) = r) by (rewrite <- Hr, firstn_app, firstn_all, Nat.sub_diag; cbn; apply app_nil_r).
        assert (Hs1 : skipn n (r ++ ch) = ch) by (rewrite <- Hr, skipn_app, skipn_all, Nat.sub_diag; reflexivity).
        rewrite Hf1, Hs1 in H.
        destruct (zc_verify _ _ _ _ _) as [[z t']| |] eqn:E; try discriminate. apply Feqb_eq in H.
        apply zc_verify_inv in E; [|lia]. destruct E as [r' [t1 [s [D [Hz [Hr' [Het [V [Hpt [Hl [Hse _]]]]]]]]]]].
        rewrite draw_vecT_ok in D by exact Het.
        destruct (run_draws_script (r ++ ch) "0check r" (nchal (hist t)) n t 0) as [R1 R2]; [lia|rewrite app_length; lia|].
        cbn [skipn] in R1. rewrite Hf1 in R1. inversion D as [D']. rewrite D' in R1, R2. cbn [fst snd] in R1, R2. subst r'.
        apply (sc_verify_ok Hp) in V; [|lia|lia]. cbn [pf_msgs] in V. destruct V as [Hn [_ [R F]]].
        rewrite firstn_all2 in R, F by (rewrite play_length; lia).
        pose proof (run_msgs_script (C:=C) (play (st r) ch) (r ++ ch) (nchal (hist t)) (append "aux info" (PAux (d + 1) n) t1) n) as Ep.
        rewrite R in Ep. cbn [fst] in Ep. rewrite play_length, Hs1, Hch in Ep.
        assert (Ep2 : sub_point s = ch).
        { rewrite Ep; [rewrite <- Hch; apply firstn_all| |rewrite app_length; lia].
          unfold append. cbn [hist]. rewrite nchal_app. unfold nchal at 2. cbn. lia. }
        rewrite Ep2 in F. rewrite F. cbn [opt_is app]. apply Feqb_eq. rewrite Hse, H, Hpt, Ep2, R1. reflexivity.
      * cbn [app]. rewrite fhat_sum by exact Hr. intros E. apply Hg. symmetry. exact E.
  - destruct n as [|n]; [cbn; lia|]. replace (S n - 1) with n by lia. replace (2 * S n - 1) with (n + S n) by lia.
    rewrite (Nat.pow_add_r (fsize p) n (S n)). nia.
Qed.
End Prime.
End S.
