(** Columns as weighted bags and as lists of rows. *)
From Coq Require Import List Arith Lia Bool ZArith Znumtheory Permutation.
Import ListNotations.
From Verif Require Import Res ResLemmas Fp FSum SpecMle MleLemmas SpecPoly PolyLemmas SpecTracker SpecIop ModelMle ModelVp ModelTranscript ModelSumcheck Pairing ModelKzg ModelBatch ModelProver ModelVerifier
  ModelAdvice ModelIop ProverProofs IopBasic LogDeriv.
Local Open Scope list_scope.
Local Open Scope nat_scope.

Section B.
Context {p : positive}.
Notation F := (F p).
Add Ring Fr : (@F_ring p).
Implicit Types (l sl m : list F) (x g : F).

Lemma zipw_cons : forall (f : F -> F -> F) a l b m, zipw f (a :: l) (b :: m) = f a b :: zipw f l m.
Proof. reflexivity. Qed.
Lemma wcol_cons : forall a l s sl y m, wcol (a :: l) (s :: sl) (y :: m) = (a, (s * y)%F) :: wcol l sl m.
Proof. reflexivity. Qed.
Definition phis (g : F) l : list F := map (fun x => Finv (x - g)%F) l.
Lemma logd_wcol : forall g l sl m, length sl = length l -> length m = length l ->
  Fsum (zipw Fmul (zipw Fmul (phis g l) m) sl) = logd (wcol l sl m) g.
Proof.
  intros g l. induction l as [|a l IH]; intros [|s sl] [|y m] H1 H2; cbn in H1, H2; try discriminate; [reflexivity|].
  cbn [phis map]. rewrite !zipw_cons, wcol_cons, logd_cons, Fsum_cons. fold (phis g l). rewrite IH by lia. cbn [fst snd]. unfold Fdiv. ring.
Qed.
Lemma wcol_fst : forall l sl m, length sl = length l -> length m = length l -> map fst (wcol l sl m) = l.
Proof.
  intros l. induction l as [|a l IH]; intros [|s sl] [|y m] H1 H2; cbn in H1, H2; try discriminate; [reflexivity|]. rewrite wcol_cons. cbn [map fst]. f_equal. apply IH; lia.
Qed.
Lemma rows_cons : forall a l s sl, rows (a :: l) (s :: sl) = (if Feqb s F0 then [] else [a]) ++ rows l sl.
Proof. intros. unfold rows. cbn [combine filter snd]. destruct (Feqb s F0); reflexivity. Qed.
Lemma rows_length : forall l sl, length (rows l sl) <= length l.
Proof.
  intros l. induction l as [|a l IH]; intros [|s sl]; try (cbn; lia). rewrite rows_cons, app_length. cbn [length]. specialize (IH sl). destruct (Feqb s F0); cbn; lia.
Qed.
Lemma rows_In : forall l sl x, length l = length sl -> (In x (rows l sl) <-> exists k, k < length l /\ nth k l F0 = x /\ nth k sl F0 <> F0).
Proof.
  intros l. induction l as [|a l IH]; intros [|s sl] x H; cbn in H; try discriminate.
  - split; [intros []|intros [k [Hk _]]; cbn in Hk; lia].
  - rewrite rows_cons, in_app_iff, IH by lia. split.
    + intros [Hx|[k [H1 [H2 H3]]]].
      * destruct (Feqb s F0) eqn:Hs; [destruct Hx|]. apply Feqb_neq in Hs. destruct Hx as [Hx|[]]. exists 0. cbn [length nth]. split; [lia|]. auto.
      * exists (S k). cbn [length nth]. split; [lia|]. auto.
    + intros [[|k] [H1 [H2 H3]]]; cbn [length nth] in *.
      * left. apply Feqb_neq in H3. rewrite H3. left. exact H2.
      * right. exists k. split; [lia|]. auto.
Qed.
Lemma boolean_cons : forall s sl, boolean (s :: sl) <-> (s = F0 \/ s = F1) /\ boolean sl.
Proof. intros. unfold boolean. split; [intros H; inversion H; auto|intros [? ?]; constructor; auto]. Qed.

(** One in every row. *)
Lemma weight_rows : forall l sl x, length l = length sl -> boolean sl -> @F1 p <> F0 ->
  weight (wcol l sl (repeat F1 (length l))) x = ofN (count_occ F_dec (rows l sl) x).
Proof.
  intros l. induction l as [|a l IH]; intros [|s sl] x H Hb H1; cbn in H; try discriminate; [reflexivity|].
  apply boolean_cons in Hb. destruct Hb as [Hs Hb]. cbn [length repeat]. rewrite wcol_cons, weight_cons, rows_cons, IH by (auto; lia). cbn [fst snd].
  destruct Hs as [-> | ->].
  - rewrite Feqb_refl. cbn [app]. destruct (Feqb a x); ring.
  - apply Feqb_neq in H1. rewrite H1. cbn [app count_occ]. destruct (F_dec a x) as [->|Hn].
    + rewrite Feqb_refl, ofN_S. ring.
    + apply Feqb_neq in Hn. rewrite Hn. ring.
Qed.
Hypothesis Hp : prime (Zpos p).
Lemma count_rows_lt : forall l sl x, length l < fsize p -> (Z.of_nat (count_occ F_dec (rows l sl) x) < Zpos p)%Z.
Proof.
  intros l sl x H. pose proof (rows_length l sl). assert (count_occ F_dec (rows l sl) x <= length (rows l sl)) by apply count_occ_bound. unfold fsize in H. lia.
Qed.
Lemma same_bag_rows : forall l sl l' sl', length l = length sl -> length l' = length sl' -> boolean sl -> boolean sl' -> length l < fsize p -> length l' < fsize p ->
  (same_bag (wcol l sl (repeat F1 (length l))) (wcol l' sl' (repeat F1 (length l'))) <-> Permutation (rows l sl) (rows l' sl')).
Proof.
  intros l sl l' sl' H1 H2 B1 B2 L1 L2. pose proof (F1_neq_0 Hp) as H10. rewrite (Permutation_count_occ F_dec). unfold same_bag. split; intros H x; specialize (H x).
  - rewrite !weight_rows in H by assumption. apply ofN_inj in H; [exact H|apply count_rows_lt; assumption|apply count_rows_lt; assumption].
  - rewrite !weight_rows by assumption. rewrite H. reflexivity.
Qed.
(** A nonzero weight needs a selected row. *)
Lemma weight_in : forall l sl m x, length sl = length l -> length m = length l -> weight (wcol l sl m) x <> F0 -> In x (rows l sl).
Proof.
  intros l. induction l as [|a l IH]; intros [|s sl] [|y m] x H1 H2 H; cbn in H1, H2; try discriminate; [exfalso; apply H; reflexivity|].
  rewrite wcol_cons, weight_cons in H. cbn [fst snd] in H. rewrite rows_cons. apply in_or_app. destruct (F_dec (weight (wcol l sl m) x) F0) as [H0|H0]; [|right; apply (IH sl m); auto].
  left. rewrite H0 in H. destruct (Feqb a x) eqn:Ha; [|exfalso; apply H; ring]. apply Feqb_eq in Ha. subst a. destruct (Feqb s F0) eqn:Hs; [|left; reflexivity].
  apply Feqb_eq in Hs. subst s. exfalso. apply H. ring.
Qed.
Lemma rows_weight : forall l sl x, length l = length sl -> boolean sl -> length l < fsize p -> In x (rows l sl) -> weight (wcol l sl (repeat F1 (length l))) x <> F0.
Proof.
  intros l sl x H Hb Hl Hx. rewrite weight_rows by (auto; apply (F1_neq_0 Hp)). apply (count_occ_In F_dec) in Hx. apply ofN_neq_0; [lia|]. apply count_rows_lt. exact Hl.
Qed.
Lemma inclusion_rows : forall l sl l' sl' m, length l = length sl -> length l' = length sl' -> length m = length l' -> boolean sl -> length l < fsize p ->
  same_bag (wcol l sl (repeat F1 (length l))) (wcol l' sl' m) -> incl (rows l sl) (rows l' sl').
Proof.
  intros l sl l' sl' m H1 H2 H3 Hb Hl Hs x Hx. apply (weight_in _ _ m); [lia|exact H3|]. rewrite <- Hs. apply rows_weight; auto.
Qed.
End B.
