(** Vocabulary of the batch-opening properties. *)
From Coq Require Import List Arith Bool ZArith.
Import ListNotations.
From Verif Require Import Fp FSum SpecMle SpecKzg ModelMle.
Local Open Scope nat_scope.

(** The true values f_i(z_i). *)
Definition open_values {p} (polys : list (mle p)) (points : list (list (F p))) : list (F p) :=
  map (fun fz => value (fst fz) (snd fz)) (combine polys points).

(** Random combination of a vector of values (padded by zeros) by the challenges ts: its multilinear extension at ts. *)
Definition combination {p} (ts vs : list (F p)) : F p := mle_ext (length ts) (tab vs) ts.

(** All polynomials have n variables and all points n coordinates. *)
Definition batch_wf {p} (n : nat) (polys : list (mle p)) (points : list (list (F p))) : Prop :=
  length points = length polys /\ (forall f, In f polys -> wf_mle f /\ nv f = n) /\ (forall z, In z points -> length z = n).

(** Different calls of the allocator return different addresses. *)
Definition distinct_addresses (addr : nat -> nat) : Prop := forall i j, addr i = addr j -> i = j.

(** The batched polynomial: the combination of the f_i(x) * eq(x, z_i). *)
Definition batch_poly {p} (polys : list (mle p)) (points : list (list (F p))) (ts x : list (F p)) : F p :=
  combination ts (map (fun fz => value (fst fz) x * eqf x (snd fz))%F (combine polys points)).
