(** What the verifier evaluates on the cross product of two tables. *)
From Coq Require Import String List Arith Lia Bool ZArith Znumtheory.
Import ListNotations.
From Verif Require Import Res ResLemmas Fp ModelTranscript Pairing ModelKzg ModelProver ModelVerifier ModelAdvice ModelIop VerifierHist TmapLemmas LockProofs IopVer SessProofs CrossProofs.
Local Open Scope list_scope.
Local Open Scope nat_scope.

Section S.
Context {p : positive} {E : pairing p}.
Implicit Types (v : vtrk E).

Lemma loop_more : forall (q : list ((nat * list (F p)) * F p)) m fuel fuel' id x y, fuel <= fuel' -> eval_loop fuel m q id x = Ok y -> eval_loop fuel' m q id x = Ok y.
Proof.
  intros q m fuel. induction fuel as [|fuel IH]; intros fuel' id x y Hf H; [discriminate|]. destruct fuel' as [|fuel']; [lia|].
  cbn [eval_loop] in *. apply bind_ok_inv in H. destruct H as [e [He H]]. rewrite He. cbn [bind].
  assert (IH' : forall id x y, eval_loop fuel m q id x = Ok y -> eval_loop fuel' m q id x = Ok y) by (intros; apply IH; [lia|assumption]).
  destruct e as [j|f|a b|a b|a b|a c|a c|a k|a k]; cbn [run_vexp] in *; try exact H;
    repeat (apply bind_ok_inv in H; let z := fresh "z" in let Hz := fresh "Hz" in destruct H as [z [Hz H]]; try rewrite (IH' _ _ _ Hz); try rewrite Hz; cbn [bind]);
    try exact H; apply IH'; exact H.
Qed.
Lemma len_virtual : forall v e, vready v -> length (vt_virt (snd (track_virtual v e))) = S (length (vt_virt v)) /\ vt_query (snd (track_virtual v e)) = vt_query v.
Proof. intros v e R. split; [|reflexivity]. unfold track_virtual, v_gen_id, put_virt. cbn [snd vt_virt]. apply LockProofs.mput_length. cbn [vt_virt]. apply R. cbn. lia. Qed.
Lemma len_each : forall (f : nat -> vexp p) l v, vready v -> let r := snd (each_comm (fun v c => track_virtual v (f c)) v l) in
  length (vt_virt r) = length (vt_virt v) + length l /\ vt_query r = vt_query v.
Proof.
  intros f l. induction l as [|c l IH]; intros v R; cbn [each_comm length]; [cbn; split; [lia|reflexivity]|]. pose proof (len_virtual v (f c) R) as [L Q]. destruct (track_virtual v (f c)) as [h v1] eqn:E1.
  destruct (go_virtual v (f c) h v1 R E1) as [_ [_ [_ G1]]]. specialize (IH v1 (y_ready _ _ _ G1)). destruct (each_comm _ v1 l) as [hs v2]. cbn [fst snd] in *. destruct IH as [I1 I2]. split; [lia|congruence].
Qed.

Lemma cross_evaluates : forall v, vready v -> forall a b t v', cross_verify v a b = (t, v') -> forall x, tc_nv a <= length x -> tc_nv b <= length x ->
  (forall i c y, nth_error (tc_cols a) i = Some c -> eval_virtual_comm v c (skipn (tc_nv b) x) = Ok y -> exists id, nth_error (tc_cols t) i = Some id /\ eval_virtual_comm v' id x = Ok y) /\
  (forall i c y, nth_error (tc_cols b) i = Some c -> eval_virtual_comm v c (firstn (tc_nv a) x) = Ok y -> exists id, nth_error (tc_cols t) (length (tc_cols a) + i) = Some id /\ eval_virtual_comm v' id x = Ok y) /\
  (forall y z, eval_virtual_comm v (tc_sel a) (skipn (tc_nv b) x) = Ok y -> eval_virtual_comm v (tc_sel b) (firstn (tc_nv a) x) = Ok z -> eval_virtual_comm v' (tc_sel t) x = Ok (y * z)%F).
Proof.
  intros v R a b t v' H x Ha Hb. unfold cross_verify in H.
  change (fun v c => v_increase_nv_front v c (tc_nv b)) with (fun v c => track_virtual (E:=E) v (VFront c (tc_nv b))) in H. change (fun v c => v_increase_nv_back v c (tc_nv a)) with (fun v c => track_virtual (E:=E) v (VBack c (tc_nv a))) in H.
  pose proof (len_each (fun c => VFront c (tc_nv b)) (tc_cols a) v R) as L1. cbv zeta in L1.
  destruct (each_comm _ v (tc_cols a)) as [ia v1] eqn:E1. destruct (each_comm_go _ _ _ _ _ R E1) as [G1 M1]. clear E1.
  pose proof (len_each (fun c => VBack c (tc_nv a)) (tc_cols b) v1 (y_ready _ _ _ G1)) as L2. cbv zeta in L2.
  destruct (each_comm _ v1 (tc_cols b)) as [ib v2] eqn:E2. destruct (each_comm_go _ _ _ _ _ (y_ready _ _ _ G1) E2) as [G2 M2]. clear E2.
  unfold v_increase_nv_front, v_increase_nv_back, mul_comms in H.
  pose proof (len_virtual v2 (VFront (tc_sel a) (tc_nv b)) (y_ready _ _ _ G2)) as L3. destruct (track_virtual v2 _) as [xa v3] eqn:E3. destruct (go_virtual _ _ _ _ (y_ready _ _ _ G2) E3) as [_ [_ [M3 G3]]]. clear E3.
  pose proof (len_virtual v3 (VBack (tc_sel b) (tc_nv a)) (y_ready _ _ _ G3)) as L4. destruct (track_virtual v3 _) as [xb v4] eqn:E4. destruct (go_virtual _ _ _ _ (y_ready _ _ _ G3) E4) as [_ [_ [M4 G4]]]. clear E4.
  pose proof (len_virtual v4 (VMul xa xb) (y_ready _ _ _ G4)) as L5. destruct (track_virtual v4 _) as [xs v5] eqn:E5. destruct (go_virtual _ _ _ _ (y_ready _ _ _ G4) E5) as [_ [_ [M5 G5]]]. clear E5. injection H as <- <-. cbn [tc_cols tc_sel snd] in *.
  pose proof (y_sub _ _ _ G1) as S1. pose proof (y_sub _ _ _ G2) as S2. pose proof (y_sub _ _ _ G3) as S3. pose proof (y_sub _ _ _ G4) as S4. pose proof (y_sub _ _ _ G5) as S5.
  assert (S15 : sub_map (vt_virt v1) (vt_virt v5)) by (intros i e X; apply S5, S4, S3, S2, X). assert (S05 : sub_map (vt_virt v) (vt_virt v5)) by (intros i e X; apply S15, S1, X).
  assert (S25 : sub_map (vt_virt v2) (vt_virt v5)) by (intros i e X; apply S5, S4, S3, X).
  assert (Q5 : vt_query v5 = vt_query v) by (repeat match goal with K : _ /\ vt_query _ = _ |- _ => destruct K end; congruence).
  assert (N5 : length (vt_virt v) + 3 <= length (vt_virt v5)) by (repeat match goal with K : _ /\ vt_query _ = _ |- _ => destruct K end; lia).
  clear L1 L2 L3 L4 L5 S1 S2 S3 S4. set (W := length (vt_virt v)) in *.
  assert (B : forall q c y k, length q <= length x -> k <= 2 -> eval_virtual_comm v c q = Ok y -> eval_loop (S (length (vt_virt v5)) * S (length x) - k) (vt_virt v5) (vt_query v5) c q = Ok y).
  { intros q c y k Hq Hk X. rewrite Q5. apply (eval_loop_ext _ _ (vt_virt v)); [exact S05|]. eapply loop_more; [|exact X]. fold W. cut (S W * S (length q) <= (S W) * S (length x)); [intros X1|apply Nat.mul_le_mono_l; lia].
    cut ((S W + 3) * S (length x) <= S (length (vt_virt v5)) * S (length x)); [intros X2; lia|apply Nat.mul_le_mono_r; lia]. }
  assert (Z : exists n, S (length (vt_virt v5)) * S (length x) = S (S n)) by (destruct (length (vt_virt v5)); [lia|cbn; eexists; f_equal; rewrite Nat.add_succ_r; reflexivity]). destruct Z as [n Z].
  assert (L1 : length (skipn (tc_nv b) x) <= length x) by (rewrite skipn_length; lia). assert (L2 : length (firstn (tc_nv a) x) <= length x) by (rewrite firstn_length; lia).
  assert (FA : forall k id c y, k <= 1 -> mget (vt_virt v5) id = Some (VFront c (tc_nv b)) -> eval_virtual_comm v c (skipn (tc_nv b) x) = Ok y -> eval_loop (S (length (vt_virt v5)) * S (length x) - k) (vt_virt v5) (vt_query v5) id x = Ok y).
  { intros k id c y Hk X Y. pose proof (B _ _ _ (S k) L1 ltac:(lia) Y) as Y'. replace (S (length (vt_virt v5)) * S (length x) - k) with (S (S (length (vt_virt v5)) * S (length x) - S k)) by (rewrite Z; lia). cbn [eval_loop]. rewrite X. cbn [ounwrap bind run_vexp].
    unfold slice_from. rewrite (proj2 (Nat.leb_le _ _) Hb). cbn [bind]. exact Y'. }
  assert (FB : forall k id c y, k <= 1 -> mget (vt_virt v5) id = Some (VBack c (tc_nv a)) -> eval_virtual_comm v c (firstn (tc_nv a) x) = Ok y -> eval_loop (S (length (vt_virt v5)) * S (length x) - k) (vt_virt v5) (vt_query v5) id x = Ok y).
  { intros k id c y Hk X Y. pose proof (B _ _ _ (S k) L2 ltac:(lia) Y) as Y'. replace (S (length (vt_virt v5)) * S (length x) - k) with (S (S (length (vt_virt v5)) * S (length x) - S k)) by (rewrite Z; lia). cbn [eval_loop]. rewrite X. cbn [ounwrap bind run_vexp].
    unfold slice_to. rewrite (proj2 (Nat.leb_le _ _) Ha). cbn [bind]. exact Y'. }
  assert (Fth : forall (f : nat -> vexp p) m l l' i c, Forall2 (fun c c' => mget m c' = Some (f c)) l l' -> nth_error l i = Some c -> exists c', nth_error l' i = Some c' /\ mget m c' = Some (f c)).
  { intros f m l l' i c X. revert i. induction X; intros [|i] Y; try discriminate; cbn in *; [injection Y as ->; eexists; split; [reflexivity|assumption]|auto]. }
  assert (La : length ia = length (tc_cols a)) by (clear -M1; induction M1; cbn; congruence).
  split; [|split].
  - intros i c y Hi Hy. destruct (Fth _ _ _ _ _ _ M1 Hi) as [id [X Y]]. exists id. split; [rewrite nth_error_app1; [exact X|apply nth_error_Some; congruence]|]. unfold eval_virtual_comm. rewrite <- (Nat.sub_0_r (S _ * S _)). eapply FA; [lia|apply S15; exact Y|exact Hy].
  - intros i c y Hi Hy. destruct (Fth _ _ _ _ _ _ M2 Hi) as [id [X Y]]. exists id. split; [rewrite nth_error_app2 by lia; rewrite La, Nat.add_comm, Nat.add_sub; exact X|]. unfold eval_virtual_comm. rewrite <- (Nat.sub_0_r (S _ * S _)). eapply FB; [lia|apply S25; exact Y|exact Hy].
  - intros y z Hy Hz. unfold eval_virtual_comm. pose proof (FA 1 xa _ _ ltac:(lia) (S5 _ _ (y_sub _ _ _ G4 _ _ M3)) Hy) as X. pose proof (FB 1 xb _ _ ltac:(lia) (S5 _ _ M4) Hz) as Y. rewrite Z in *. cbn [eval_loop]. rewrite M5. cbn [ounwrap bind run_vexp].
    replace (S (S n) - 1) with (S n) in X, Y by lia. cbn [eval_loop] in X, Y. rewrite X. cbn [bind]. rewrite Y. reflexivity.
Qed.
End S.
