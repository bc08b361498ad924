(** Logarithmic derivatives of weighted bags: equal bags have equal ones, and different bags have equal ones at few points only. *)
From Coq Require Import List Arith Lia Bool ZArith Znumtheory Permutation.
Import ListNotations.
From Verif Require Import Res ResLemmas Fp FSum SpecMle MleLemmas SpecPoly PolyLemmas SpecTracker SpecIop ModelMle ModelTranscript Pairing ModelKzg ModelBatch ModelProver ModelVerifier.
Local Open Scope list_scope.
Local Open Scope nat_scope.

Section L.
Context {p : positive}.
Notation F := (F p).
Add Ring Fr : (@F_ring p).
Implicit Types (a b w : wbag (p:=p)) (x g : F).

Lemma weight_cons : forall r w x, weight (r :: w) x = ((if Feqb (fst r) x then snd r else F0) + weight w x)%F.
Proof. intros r w x. unfold weight. cbn [filter]. destruct (Feqb (fst r) x); cbn [map]; [apply Fsum_cons|ring]. Qed.
Lemma weight_app : forall a b x, weight (a ++ b) x = (weight a x + weight b x)%F.
Proof.
  intros a b x. induction a as [|r a IH]; [cbn [app]; change (weight [] x) with (@F0 p); ring|]. cbn [app]. rewrite !weight_cons, IH. ring.
Qed.
Lemma weight_neg : forall w x, weight (wneg w) x = (- weight w x)%F.
Proof.
  intros w x. induction w as [|r w IH]; [change (weight (wneg []) x) with (@F0 p); change (weight [] x) with (@F0 p); ring|]. cbn [wneg map]. fold (wneg w). rewrite !weight_cons, IH. cbn [fst snd]. destruct (Feqb (fst r) x); ring.
Qed.
Lemma weight_notin : forall w x, ~ In x (map fst w) -> weight w x = F0.
Proof.
  intros w x. induction w as [|r w IH]; intros H; [reflexivity|]. rewrite weight_cons, IH by (intros Hx; apply H; right; exact Hx).
  destruct (Feqb (fst r) x) eqn:Hr; [|ring]. apply Feqb_eq in Hr. exfalso. apply H. left. exact Hr.
Qed.
Lemma logd_cons : forall r w g, logd (r :: w) g = (snd r / (fst r - g) + logd w g)%F.
Proof. intros. unfold logd. cbn [map]. apply Fsum_cons. Qed.
Lemma logd_app : forall a b g, logd (a ++ b) g = (logd a g + logd b g)%F.
Proof. intros. unfold logd. rewrite map_app. apply Fsum_app. Qed.
Lemma logd_neg : forall w g, logd (wneg w) g = (- logd w g)%F.
Proof.
  intros w g. induction w as [|r w IH]; [change (logd (wneg []) g) with (@F0 p); change (logd [] g) with (@F0 p); ring|]. cbn [wneg map]. fold (wneg w). rewrite !logd_cons, IH. cbn [fst snd]. unfold Fdiv. ring.
Qed.
(** Summing over the distinct values. *)
Lemma Fsum_pick : forall (f : F -> F) x c l, NoDup l -> In x l -> Fsum (map (fun y => (if Feqb x y then c else F0) * f y)%F l) = (c * f x)%F.
Proof.
  intros f x c l Hn. induction Hn as [|y l Hy Hn IH]; intros Hx; [contradiction|]. cbn [map]. rewrite Fsum_cons. destruct Hx as [->|Hx].
  - rewrite Feqb_refl. rewrite Fsum_map_0; [ring|]. intros z Hz. destruct (Feqb x z) eqn:Hq; [|ring]. apply Feqb_eq in Hq. subst z. contradiction.
  - rewrite IH by exact Hx. destruct (Feqb x y) eqn:Hq; [|ring]. apply Feqb_eq in Hq. subst y. contradiction.
Qed.
Lemma logd_weights : forall w g l, NoDup l -> (forall x, In x (map fst w) -> In x l) -> logd w g = Fsum (map (fun x => weight w x / (x - g))%F l).
Proof.
  intros w g l Hn. induction w as [|r w IH]; intros Hi.
  - symmetry. apply Fsum_map_0. intros x _. change (weight [] x) with (@F0 p). unfold Fdiv. ring.
  - rewrite logd_cons, IH by (intros x Hx; apply Hi; right; exact Hx). unfold Fdiv at 1.
    rewrite <- (Fsum_pick (fun y => Finv (y - g)) (fst r) (snd r) l Hn) by (apply Hi; left; reflexivity). rewrite <- Fsum_map_add. apply Fsum_map_ext.
    intros y _. rewrite weight_cons. unfold Fdiv. destruct (Feqb (fst r) y); ring.
Qed.
Lemma same_bag_logd : forall a b, same_bag a b -> forall g, logd a g = logd b g.
Proof.
  intros a b H g. set (l := nodup F_dec (map fst (a ++ b))).
  assert (Hn : NoDup l) by apply NoDup_nodup.
  assert (Hl : forall x, In x (map fst (a ++ b)) -> In x l) by (intros x; apply nodup_In).
  rewrite (logd_weights a g l Hn), (logd_weights b g l Hn).
  - apply Fsum_map_ext. intros x _. rewrite H. reflexivity.
  - intros x Hx. apply Hl. rewrite map_app. apply in_or_app. auto.
  - intros x Hx. apply Hl. rewrite map_app. apply in_or_app. auto.
Qed.
Lemma same_bag_refl : forall a, same_bag a a. Proof. intros a x. reflexivity. Qed.
Lemma same_bag_sym : forall a b, same_bag a b -> same_bag b a. Proof. intros a b H x. symmetry. apply H. Qed.
Lemma same_bag_trans : forall a b c, same_bag a b -> same_bag b c -> same_bag a c. Proof. intros a b c H G x. rewrite H. apply G. Qed.
Lemma same_bag_dec : forall a b, same_bag a b \/ ~ same_bag a b.
Proof.
  intros a b. destruct (forallb (fun x => Feqb (weight a x) (weight b x)) (allF p)) eqn:H.
  - left. intros x. rewrite forallb_forall in H. specialize (H x (allF_complete p x)). apply Feqb_eq. exact H.
  - right. intros G. assert (forallb (fun x => Feqb (weight a x) (weight b x)) (allF p) = true) as X; [|congruence].
    apply forallb_forall. intros x _. apply Feqb_eq. apply G.
Qed.

Hypothesis Hp : prime (Zpos p).
(** The numerator: the sum of each weight times the other differences. *)
Fixpoint numer (W : F -> F) (l : list F) (g : F) : F :=
  match l with
  | [] => F0
  | x :: r => (W x * Fprod (map (fun y => y - g) r) + (x - g) * numer W r g)%F
  end.
Lemma numer_poly : forall W l, polyfun (length l - 1) (numer W l).
Proof.
  intros W l. induction l as [|x r IH]; [apply polyfun_const|]. cbn [numer length]. rewrite Nat.sub_succ, Nat.sub_0_r.
  apply polyfun_add.
  - apply polyfun_scale. apply (polyfun_mono (length r)); [lia|]. apply (polyfun_Fprod (fun y g => (y - g)%F)). intros y _. apply polyfun_sub; [apply polyfun_const|apply polyfun_id; lia].
  - destruct r as [|y r].
    + cbn [numer length]. eapply polyfun_ext; [|apply polyfun_const]. intros g. cbn. instantiate (1 := F0). ring.
    + apply (polyfun_mono (1 + (length (y :: r) - 1))); [cbn; lia|]. apply polyfun_mul; [|exact IH]. apply polyfun_sub; [apply polyfun_const|apply polyfun_id; lia].
Qed.
Lemma numer_logd : forall W l g, ~ In g l -> (Fsum (map (fun x => W x / (x - g)) l) * Fprod (map (fun y => y - g) l))%F = numer W l g.
Proof.
  intros W l g. induction l as [|x r IH]; intros H; [cbn [map numer]; rewrite Fsum_nil; ring|]. cbn [map numer]. rewrite Fsum_cons, Fprod_cons, <- IH by (intros Hx; apply H; right; exact Hx).
  assert (Hx : (x - g)%F <> F0) by (intros Hx; apply H; left; apply sub_eq_0; exact Hx).
  pose proof (Finv_l Hp (x - g)%F Hx) as Hi. unfold Fdiv. set (P := Fprod (map (fun y => (y - g)%F) r)). set (A := Fsum _). set (i := Finv (x - g)%F) in *.
  transitivity (W x * (i * (x - g)) * P + (x - g) * (A * P))%F; [ring|]. rewrite Hi. ring.
Qed.
Lemma numer_at : forall W l x, NoDup l -> In x l -> numer W l x = F0 -> W x = F0.
Proof.
  intros W l x Hn. induction Hn as [|y r Hy Hn IH]; intros Hx H0; [contradiction|]. cbn [numer] in H0. destruct Hx as [->|Hx].
  - assert (H1 : (W x * Fprod (map (fun y => y - x) r))%F = F0) by (rewrite <- H0; ring). apply (Fmul_integral Hp) in H1. destruct H1 as [H1|H1]; [exact H1|].
    apply (Fprod_0_in Hp) in H1. apply in_map_iff in H1. destruct H1 as [y [H1 H2]]. apply sub_eq_0 in H1. subst y. contradiction.
  - rewrite (Fprod_in_0 (map (fun y => y - x)%F r)) in H0 by (apply in_map_iff; exists x; split; [ring|exact Hx]).
    assert (H1 : ((y - x) * numer W r x)%F = F0) by (rewrite <- H0; ring). apply (Fmul_integral Hp) in H1. destruct H1 as [H1|H1]; [|auto].
    apply sub_eq_0 in H1. subst y. contradiction.
Qed.

Lemma unlucky_few : forall a b gs, NoDup gs -> Forall (unlucky a b) gs -> length gs = 0 \/ length gs < length (nodup F_dec (map fst (a ++ b))).
Proof.
  intros a b gs Hg Hu. destruct gs as [|g0 gs0]; [auto|]. right. set (gs := g0 :: gs0) in *.
  set (l := nodup F_dec (map fst (a ++ b))). assert (Hn : NoDup l) by apply NoDup_nodup.
  destruct (Nat.lt_ge_cases (length gs) (length l)) as [Hlt|Hge]; [exact Hlt|]. exfalso.
  assert (H0 : unlucky a b g0) by (inversion Hu; assumption). destruct H0 as [_ [_ [_ Hns]]]. apply Hns.
  set (W := weight (a ++ wneg b)).
  assert (Hin : forall x, In x (map fst (a ++ wneg b)) -> In x l).
  { intros x Hx. apply nodup_In. rewrite map_app in *. apply in_app_or in Hx. apply in_or_app. destruct Hx as [Hx|Hx]; [auto|]. right. unfold wneg in Hx. rewrite map_map in Hx. exact Hx. }
  assert (Hz : forall g, In g gs -> numer W l g = F0).
  { intros g Hgi. rewrite Forall_forall in Hu. destruct (Hu g Hgi) as [U1 [U2 [U3 _]]]. rewrite <- numer_logd.
    - unfold W. rewrite <- (logd_weights (a ++ wneg b) g l Hn Hin), logd_app, logd_neg, U3. ring.
    - intros Hx. apply nodup_In in Hx. rewrite map_app in Hx. apply in_app_or in Hx. tauto. }
  assert (HW : forall x, W x = F0).
  { intros x. destruct (in_dec F_dec x l) as [Hx|Hx].
    - apply (numer_at W l x Hn Hx). destruct l as [|y r] eqn:El; [contradiction|]. apply (polyfun_roots Hp (length (y :: r) - 1) (numer W (y :: r)) gs); [apply numer_poly|exact Hg|exact Hz|]. cbn [length] in *. lia.
    - apply weight_notin. intros Hy. apply Hx. apply Hin. exact Hy. }
  intros x. specialize (HW x). unfold W in HW. rewrite weight_app, weight_neg in HW. apply sub_eq_0. rewrite <- HW. ring.
Qed.
End L.
