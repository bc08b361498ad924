(** The prime field Z/pZ. Scalar fields of pairing curves (ark-ff [PrimeField])
    are of this form; nothing else about ark-ff is used. *)
From Coq Require Import ZArith Znumtheory List Lia Bool Field Eqdep_dec.
Import ListNotations.
Local Open Scope Z_scope.

Record F (p : positive) : Type := mkF {
  val : Z;
  val_ok : ((0 <=? val) && (val <? Zpos p))%bool = true
}.
Arguments mkF {p} val val_ok.
Arguments val {p} f.

Lemma mod_ok : forall (p : positive) z,
  ((0 <=? z mod Zpos p) && (z mod Zpos p <? Zpos p))%bool = true.
Proof.
  intros p z. apply andb_true_iff. pose proof (Z.mod_pos_bound z (Zpos p) eq_refl) as H.
  split; [apply Z.leb_le | apply Z.ltb_lt]; lia.
Qed.

(** Replaces a proof of [b = true] by one that computes to [eq_refl] when [b] does to [true]. *)
Definition norm_true (b : bool) : b = true -> b = true :=
  match b as b' return (b' = true -> b' = true) with
  | true => fun _ => eq_refl
  | false => fun h => h
  end.

(** [F::from(z)] *)
Definition ofZ {p} (z : Z) : F p :=
  let m := z mod Zpos p in mkF m (norm_true _ (mod_ok p z)).
Definition ofN {p} (n : nat) : F p := ofZ (Z.of_nat n).

Definition F0 {p} : F p := ofZ 0.
Definition F1 {p} : F p := ofZ 1.
Definition Fadd {p} (x y : F p) : F p := ofZ (val x + val y).
Definition Fmul {p} (x y : F p) : F p := ofZ (val x * val y).
Definition Fopp {p} (x : F p) : F p := ofZ (- val x).
Definition Fsub {p} (x y : F p) : F p := ofZ (val x - val y).
Definition Feqb {p} (x y : F p) : bool := val x =? val y.

(** Multiplicative inverse; 0 for 0. The search makes the definition obviously
    total and computable for small p; it stands for ark-ff's [inverse]. *)
Definition Finv {p} (x : F p) : F p :=
  match find (fun y => (val x * y) mod Zpos p =? 1) (map Z.of_nat (seq 0 (Pos.to_nat p))) with
  | Some y => ofZ y
  | None => F0
  end.
Definition Fdiv {p} (x y : F p) : F p := Fmul x (Finv y).

Declare Scope F_scope.
Delimit Scope F_scope with F.
Bind Scope F_scope with F.
Notation "0" := F0 : F_scope.
Notation "1" := F1 : F_scope.
Infix "+" := Fadd : F_scope.
Infix "*" := Fmul : F_scope.
Infix "-" := Fsub : F_scope.
Notation "- x" := (Fopp x) : F_scope.
Infix "/" := Fdiv : F_scope.
Infix "=?" := Feqb : F_scope.

Fixpoint Fpow {p} (x : F p) (n : nat) : F p :=
  match n with O => F1 | S k => Fmul x (Fpow x k) end.

Section Laws.
Context {p : positive}.
Local Notation P := (Zpos p).

Lemma val_range : forall x : F p, 0 <= val x < P.
Proof.
  intros [v H]. simpl. apply andb_true_iff in H. destruct H as [H1 H2].
  apply Z.leb_le in H1. apply Z.ltb_lt in H2. lia.
Qed.

Lemma val_inj : forall x y : F p, val x = val y -> x = y.
Proof.
  intros [v1 H1] [v2 H2]. simpl. intros E. subst v2. f_equal.
  apply UIP_dec. apply bool_dec.
Qed.

Lemma val_ofZ : forall z, val (ofZ (p:=p) z) = z mod P.
Proof. reflexivity. Qed.

Lemma val_mod : forall x : F p, val x mod P = val x.
Proof. intros x. apply Z.mod_small. apply val_range. Qed.

Lemma ofZ_val : forall x : F p, ofZ (val x) = x.
Proof. intros x. apply val_inj. rewrite val_ofZ. apply val_mod. Qed.

Lemma ofZ_eq_iff : forall a b, ofZ (p:=p) a = ofZ b <-> a mod P = b mod P.
Proof.
  intros a b. split; intros H.
  - apply (f_equal val) in H. exact H.
  - apply val_inj. exact H.
Qed.

Lemma ofZ_add : forall a b, ofZ (p:=p) (a + b) = Fadd (ofZ a) (ofZ b).
Proof. intros. unfold Fadd. apply ofZ_eq_iff. rewrite !val_ofZ. apply Zplus_mod. Qed.
Lemma ofZ_mul : forall a b, ofZ (p:=p) (a * b) = Fmul (ofZ a) (ofZ b).
Proof. intros. unfold Fmul. apply ofZ_eq_iff. rewrite !val_ofZ. apply Zmult_mod. Qed.
Lemma ofZ_sub : forall a b, ofZ (p:=p) (a - b) = Fsub (ofZ a) (ofZ b).
Proof. intros. unfold Fsub. apply ofZ_eq_iff. rewrite !val_ofZ. apply Zminus_mod. Qed.
Lemma ofZ_opp : forall a, ofZ (p:=p) (- a) = Fopp (ofZ a).
Proof.
  intros. unfold Fopp. apply ofZ_eq_iff. rewrite val_ofZ.
  replace (- a) with (0 - a) by lia. replace (- (a mod P)) with (0 - (a mod P)) by lia.
  rewrite (Zminus_mod 0 a). rewrite (Zminus_mod 0 (a mod P)). rewrite Zmod_mod. reflexivity.
Qed.

Lemma F_ring : ring_theory (@F0 p) F1 Fadd Fmul Fsub Fopp eq.
Proof.
  constructor; intros;
    repeat match goal with x : F p |- _ => rewrite <- (ofZ_val x); generalize (val x); clear x; intro end;
    unfold F0, F1; rewrite <- ?ofZ_opp, <- ?ofZ_sub, <- ?ofZ_add, <- ?ofZ_mul, <- ?ofZ_add, <- ?ofZ_mul, <- ?ofZ_add, <- ?ofZ_opp;
    rewrite <- ?ofZ_add;
    f_equal; ring.
Qed.

Lemma Feqb_eq : forall x y : F p, Feqb x y = true <-> x = y.
Proof.
  intros x y. unfold Feqb. rewrite Z.eqb_eq. split; [apply val_inj | intros ->; reflexivity].
Qed.

Lemma Feqb_refl : forall x : F p, Feqb x x = true.
Proof. intros x. apply Feqb_eq. reflexivity. Qed.

Lemma Feqb_neq : forall x y : F p, Feqb x y = false <-> x <> y.
Proof.
  intros x y. split; intros H.
  - intros E. apply Feqb_eq in E. congruence.
  - destruct (Feqb x y) eqn:E; [|reflexivity]. apply Feqb_eq in E. contradiction.
Qed.

Lemma F_dec : forall x y : F p, {x = y} + {x <> y}.
Proof.
  intros x y. destruct (Feqb x y) eqn:E.
  - left. apply Feqb_eq. exact E.
  - right. apply Feqb_neq. exact E.
Qed.

Section Prime.
Hypothesis Hp : prime P.

Lemma P_gt1 : 1 < P.
Proof. destruct Hp as [H _]. exact H. Qed.

Lemma F1_neq_0 : @F1 p <> F0.
Proof.
  intros H. apply (f_equal val) in H. unfold F1, F0 in H. rewrite !val_ofZ in H.
  pose proof P_gt1. rewrite !Z.mod_small in H by lia. lia.
Qed.

Lemma Finv_l : forall x : F p, x <> F0 -> Fmul (Finv x) x = F1.
Proof.
  intros x Hx. unfold Finv.
  pose proof (val_range x) as Hr. pose proof P_gt1 as Hg.
  assert (Hv : val x <> 0).
  { intros E. apply Hx. apply val_inj. rewrite E. reflexivity. }
  destruct (find _ _) as [y|] eqn:E.
  - apply find_some in E. destruct E as [_ E]. apply Z.eqb_eq in E.
    apply val_inj. unfold Fmul, F1. rewrite !val_ofZ.
    rewrite Zmult_mod_idemp_l, Z.mul_comm, E. rewrite Z.mod_small; lia.
  - exfalso.
    assert (Hrel : rel_prime (val x) P).
    { apply rel_prime_le_prime; [exact Hp | lia]. }
    apply rel_prime_bezout in Hrel. destruct Hrel as [u v Huv].
    pose proof (find_none _ _ E (u mod P)) as Hn. simpl in Hn.
    assert (Hin : In (u mod P) (map Z.of_nat (seq 0 (Pos.to_nat p)))).
    { pose proof (Z.mod_pos_bound u P eq_refl) as Hb.
      apply in_map_iff. exists (Z.to_nat (u mod P)). split; [lia|].
      apply in_seq. lia. }
    specialize (Hn Hin). apply Z.eqb_neq in Hn. apply Hn.
    rewrite Zmult_mod_idemp_r.
    replace (val x * u) with (1 + (- v) * P) by lia.
    rewrite Z_mod_plus_full. apply Z.mod_small. lia.
Qed.

Lemma F_field : field_theory (@F0 p) F1 Fadd Fmul Fsub Fopp Fdiv Finv eq.
Proof.
  constructor.
  - apply F_ring.
  - apply F1_neq_0.
  - intros x y. reflexivity.
  - intros x Hx. apply Finv_l. exact Hx.
Qed.

Lemma Finv_0 : Finv (@F0 p) = F0.
Proof.
  unfold Finv. destruct (find _ _) as [y|] eqn:E; [|reflexivity].
  apply find_some in E. destruct E as [_ E]. apply Z.eqb_eq in E.
  change (val (@F0 p)) with 0 in E. cbn in E. discriminate.
Qed.

Add Field Ff : F_field.

Lemma Fmul_integral : forall x y : F p, Fmul x y = F0 -> x = F0 \/ y = F0.
Proof.
  intros x y H. destruct (F_dec x F0) as [E|E]; [left; exact E|]. right.
  replace y with (Fmul (Finv x) (Fmul x y)).
  - rewrite H. ring.
  - field. exact E.
Qed.

Lemma Finv_neq_0 : forall x : F p, x <> F0 -> Finv x <> F0.
Proof.
  intros x Hx E. pose proof (Finv_l x Hx) as H. rewrite E in H.
  apply F1_neq_0. rewrite <- H. ring.
Qed.

Lemma ofN_inj : forall a b, Z.of_nat a < P -> Z.of_nat b < P -> ofN (p:=p) a = ofN b -> a = b.
Proof.
  intros a b Ha Hb H. apply (f_equal val) in H. unfold ofN in H. rewrite !val_ofZ in H.
  rewrite !Z.mod_small in H by lia. lia.
Qed.

Lemma ofN_neq_0 : forall a, (0 < a)%nat -> Z.of_nat a < P -> ofN (p:=p) a <> F0.
Proof.
  intros a Ha Hb H. change F0 with (ofN (p:=p) 0) in H. apply ofN_inj in H; lia.
Qed.
End Prime.

Lemma ofN_0 : ofN (p:=p) 0 = F0. Proof. reflexivity. Qed.
Lemma ofN_1 : ofN (p:=p) 1 = F1. Proof. reflexivity. Qed.
Lemma ofN_add : forall a b, ofN (p:=p) (a + b) = Fadd (ofN a) (ofN b).
Proof. intros. unfold ofN. rewrite Nat2Z.inj_add. apply ofZ_add. Qed.
Lemma ofN_S : forall a, ofN (p:=p) (S a) = Fadd F1 (ofN a).
Proof. intros. change (S a) with (1 + a)%nat. apply ofN_add. Qed.
Lemma ofN_mul : forall a b, ofN (p:=p) (a * b) = Fmul (ofN a) (ofN b).
Proof. intros. unfold ofN. rewrite Nat2Z.inj_mul. apply ofZ_mul. Qed.
Lemma ofN_sub : forall a b, (b <= a)%nat -> ofN (p:=p) (a - b) = Fsub (ofN a) (ofN b).
Proof. intros. unfold ofN. rewrite Nat2Z.inj_sub by exact H. apply ofZ_sub. Qed.
End Laws.

(** All field elements, in order. *)
Definition allF (p : positive) : list (F p) := map ofN (seq 0 (Pos.to_nat p)).

Lemma allF_complete : forall p (x : F p), In x (allF p).
Proof.
  intros p x. unfold allF. apply in_map_iff. pose proof (val_range x).
  exists (Z.to_nat (val x)). split.
  - unfold ofN. rewrite Z2Nat.id by lia. apply ofZ_val.
  - apply in_seq. lia.
Qed.

Lemma NoDup_map_inj' : forall {A B} (f : A -> B) l,
  (forall x y, In x l -> In y l -> f x = f y -> x = y) -> NoDup l -> NoDup (map f l).
Proof.
  intros A B f l. induction l as [|a l IH]; intros Hf Hn; simpl; [constructor|].
  inversion Hn; subst. constructor.
  - intros Hin. apply in_map_iff in Hin. destruct Hin as [y [Hy Hy']].
    assert (y = a).
    { apply Hf; [right; exact Hy' | left; reflexivity | exact Hy]. }
    subst. contradiction.
  - apply IH; [|assumption]. intros x y Hx Hy. apply Hf; right; assumption.
Qed.

Lemma allF_NoDup : forall p, NoDup (allF p).
Proof.
  intros p. unfold allF. apply NoDup_map_inj'; [|apply seq_NoDup].
  intros x y Hx Hy H. apply in_seq in Hx. apply in_seq in Hy.
  apply (f_equal val) in H. unfold ofN in H. rewrite !val_ofZ in H.
  rewrite !Z.mod_small in H by lia. lia.
Qed.

Lemma allF_length : forall p, length (allF p) = Pos.to_nat p.
Proof. intros p. unfold allF. rewrite map_length, seq_length. reflexivity. Qed.

Global Arguments F0 : simpl never.
Global Arguments F1 : simpl never.
Global Arguments Fadd : simpl never.
Global Arguments Fmul : simpl never.
Global Arguments Fsub : simpl never.
Global Arguments Fopp : simpl never.
Global Arguments Finv : simpl never.
Global Arguments Fdiv : simpl never.
Global Arguments Feqb : simpl never.
Global Arguments ofN : simpl never.
Global Arguments ofZ : simpl never.

(** A concrete prime used by the non-vacuity examples. *)
Lemma prime_13 : prime 13.
Proof.
  apply prime_intro; [lia|]. intros n Hn. apply Zgcd_1_rel_prime.
  assert (H : n = 1 \/ n = 2 \/ n = 3 \/ n = 4 \/ n = 5 \/ n = 6 \/ n = 7 \/ n = 8
              \/ n = 9 \/ n = 10 \/ n = 11 \/ n = 12) by lia.
  repeat (destruct H as [->|H]; [reflexivity|]). subst n. reflexivity.
Qed.

Lemma prime_101 : prime 101.
Proof.
  apply prime_intro; [lia|]. intros n Hn. apply Zgcd_1_rel_prime.
  assert (Hall : forallb (fun k => Z.gcd k 101 =? 1) (map Z.of_nat (seq 1 100)) = true) by (vm_compute; reflexivity).
  rewrite forallb_forall in Hall. apply Z.eqb_eq. apply Hall.
  apply in_map_iff. exists (Z.to_nat n). split; [lia|]. apply in_seq. lia.
Qed.
