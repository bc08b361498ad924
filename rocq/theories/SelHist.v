(** What the theorems on selectors and on the verifier's closures are about. Nothing here stands for code in /repo. *)
From Coq Require Import List Arith ZArith.
Import ListNotations.
From Verif Require Import Res Fp FSum SpecMle ModelTranscript Pairing ModelKzg ModelBatch ModelProver ModelVerifier ModelIop.
Local Open Scope list_scope.
Local Open Scope nat_scope.

Section H.
Context {p : positive} {E : pairing p}.
Notation F := (F p).

(** The bag with another selector. *)
Definition selecting (b : bag) (sel : tpoly) : bag := mkBag (b_poly b) sel.
Definition selecting_comm (b : bagc) (sel : nat) : bagc := mkBagc (bc_poly b) sel (bc_nv b).

(** The verifier, holding other query results. *)
Definition answered (v : vtrk E) (q : list ((nat * list F) * F)) : vtrk E :=
  mkVtrk (vt_vk v) (vt_tr v) (vt_next v) (vt_mat v) (vt_virt v) q (vt_sc v) (vt_zc v) (vt_proof v).

(** [uses m id i]: the virtual commitment [id] is computed from [i]. *)
Inductive uses (m : tmap (vexp p)) : nat -> nat -> Prop :=
| us_here : forall id, uses m id id
| us_add : forall id a b i, mget m id = Some (VAdd a b) -> uses m a i \/ uses m b i -> uses m id i
| us_sub : forall id a b i, mget m id = Some (VSub a b) -> uses m a i \/ uses m b i -> uses m id i
| us_mul : forall id a b i, mget m id = Some (VMul a b) -> uses m a i \/ uses m b i -> uses m id i
| us_adds : forall id a c i, mget m id = Some (VAddS a c) -> uses m a i -> uses m id i
| us_muls : forall id a c i, mget m id = Some (VMulS a c) -> uses m a i -> uses m id i
| us_front : forall id a k i, mget m id = Some (VFront a k) -> uses m a i -> uses m id i
| us_back : forall id a k i, mget m id = Some (VBack a k) -> uses m a i -> uses m id i.

(** The column (0, 1, 2, ..) with [n] variables as a polynomial of points with at least that many coordinates. *)
Definition index_poly (n : nat) (x : list F) : F := mle_ext n (fun j => ofN j) (firstn n x).
End H.
