(** Pairing-friendly groups (ark-ec [Pairing], an external trait): three groups on which the scalar field
    F p acts and a bilinear map. Operations and laws are kept apart, so that a theorem which uses the laws
    says so. GT is written additively. *)
From Coq Require Import List Arith Bool ZArith Znumtheory.
Import ListNotations.
From Verif Require Import Fp.

Record grp (p : positive) : Type := mkGrp {
  gcar : Type;
  gadd : gcar -> gcar -> gcar;
  gzero : gcar;
  gopp : gcar -> gcar;
  gmul : F p -> gcar -> gcar;
  geqb : gcar -> gcar -> bool
}.
Arguments mkGrp {p} gcar gadd gzero gopp gmul geqb.
Arguments gcar {p} g.
Arguments gadd {p g} _ _.
Arguments gzero {p g}.
Arguments gopp {p g} _.
Arguments gmul {p g} _ _.
Arguments geqb {p g} _ _.

(** A module over F p with decidable equality: every group of order p is one. *)
Record grp_laws {p} (G : grp p) : Prop := mkGrpLaws {
  gl_comm : forall a b : gcar G, gadd a b = gadd b a;
  gl_assoc : forall a b c : gcar G, gadd a (gadd b c) = gadd (gadd a b) c;
  gl_zero : forall a : gcar G, gadd gzero a = a;
  gl_opp : forall a : gcar G, gadd a (gopp a) = gzero;
  gl_add_l : forall x y (a : gcar G), gmul (x + y)%F a = gadd (gmul x a) (gmul y a);
  gl_add_r : forall x (a b : gcar G), gmul x (gadd a b) = gadd (gmul x a) (gmul x b);
  gl_mul : forall x y (a : gcar G), gmul (x * y)%F a = gmul x (gmul y a);
  gl_one : forall a : gcar G, gmul F1 a = a;
  gl_eqb : forall a b : gcar G, geqb a b = true <-> a = b
}.

Record pairing (p : positive) : Type := mkPairing {
  PG1 : grp p;
  PG2 : grp p;
  PGT : grp p;
  pair : gcar PG1 -> gcar PG2 -> gcar PGT
}.
Arguments mkPairing {p} PG1 PG2 PGT pair.
Arguments PG1 {p} _.
Arguments PG2 {p} _.
Arguments PGT {p} _.
Arguments pair {p} _ _ _.

(** Bilinear and without zero divisors (non-degenerate on groups of prime order). *)
Record pairing_laws {p} (E : pairing p) : Prop := mkPairingLaws {
  pl_1 : grp_laws (PG1 E);
  pl_2 : grp_laws (PG2 E);
  pl_T : grp_laws (PGT E);
  pl_add_l : forall a b c, pair E (gadd a b) c = gadd (pair E a c) (pair E b c);
  pl_add_r : forall a b c, pair E a (gadd b c) = gadd (pair E a b) (pair E a c);
  pl_mul_l : forall x a b, pair E (gmul x a) b = gmul x (pair E a b);
  pl_mul_r : forall x a b, pair E a (gmul x b) = gmul x (pair E a b);
  pl_nondeg : forall a b, pair E a b = gzero -> a = gzero \/ b = gzero
}.

(** The groups in which discrete logarithms are given: every element is its exponent. *)
Definition exp_grp (p : positive) : grp p := mkGrp (F p) Fadd F0 Fopp Fmul Feqb.
Definition exp_pairing (p : positive) : pairing p := mkPairing (exp_grp p) (exp_grp p) (exp_grp p) Fmul.

Section S.
Context {p : positive}.
Add Ring Fr : (@F_ring p).

Lemma exp_grp_laws : grp_laws (exp_grp p).
Proof. split; simpl; intros; try ring. apply Feqb_eq. Qed.

Lemma exp_pairing_laws : prime (Zpos p) -> pairing_laws (exp_pairing p).
Proof.
  intros Hp. split; simpl; try apply exp_grp_laws; intros; try ring. apply (Fmul_integral Hp). exact H.
Qed.
End S.
