(** Histories of a virtual polynomial in which every call succeeded, for C10. Nothing here stands for code in /repo. *)
From Coq Require Import List Arith.
Import ListNotations.
From Verif Require Import Res Fp ModelMle ModelVp.

(** No call was rejected, and only polynomials with terms were multiplied. *)
Inductive grown {p} : vp p -> Prop :=
| G_new : forall n, grown (vp_new n)
| G_from : forall m c, grown (vp_new_from_mle m c)
| G_add : forall v l c v', grown v -> add_mle_list v l c = (v', Ok tt) -> grown v'
| G_mul : forall v m c v', grown v -> products v <> [] -> mul_by_mle v m c = Ok v' -> grown v'
| G_plus : forall v w u, grown v -> grown w -> vp_add v w = Ok u -> grown u
| G_fhat : forall v r a u, grown v -> products v <> [] -> build_f_hat v r a = Ok u -> grown u.
(** The number of factors of the longest term. *)
Definition longest {p} (v : vp p) : nat := list_max (map (fun t => length (snd t)) (products v)).
