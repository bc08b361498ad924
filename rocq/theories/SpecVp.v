(** Specification of virtual polynomials: polynomial expressions over multilinear tables,
    independent of how the code stores them. *)
From Coq Require Import List Arith Bool ZArith.
Import ListNotations.
From Verif Require Import Fp FSum SpecMle.

Inductive pexpr (p : positive) : Type :=
| PZero
| PMle (n : nat) (t : list (F p))          (* the multilinear extension of a table of 2^n values *)
| PScale (c : F p) (e : pexpr p)
| PAdd (e1 e2 : pexpr p)
| PMul (e1 e2 : pexpr p).
Arguments PZero {p}.
Arguments PMle {p} n t.
Arguments PScale {p} c e.
Arguments PAdd {p} e1 e2.
Arguments PMul {p} e1 e2.

(** Value of an expression at a point. *)
Fixpoint pden {p} (e : pexpr p) (x : list (F p)) : F p :=
  match e with
  | PZero => F0
  | PMle n t => mle_ext n (tab t) x
  | PScale c e => (c * pden e x)%F
  | PAdd a b => (pden a x + pden b x)%F
  | PMul a b => (pden a x * pden b x)%F
  end.

(** Product of a list of tables. *)
Definition PProd {p} (l : list (nat * list (F p))) : pexpr p :=
  fold_right (fun t e => PMul (PMle (fst t) (snd t)) e) (PMle 0 [F1]) l.
