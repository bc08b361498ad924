(** Results of Rust calls: [Ok] and [Err] are the two cases of [Result];
    [Panic] stands for every unwinding exit (assert, index out of bounds,
    unwrap on None/Err, panic!, todo!, division by zero). *)
From Coq Require Import List Arith Lia.
Import ListNotations.

(** Error variants of the crate, without their messages.
    /repo/src/arithmetic/errors.rs 12-27, /repo/src/transcript/errors.rs 11-25,
    /repo/src/subroutines/pcs/errors.rs 14-50, /repo/src/subroutines/poly_iop/errors.rs 13-62,
    /repo/src/tracker/errors.rs 13-64. *)
Inductive err : Type :=
| ArithInvalidParameters
| TranscriptInvalid
| PCSInvalidParameters
| PCSInvalidProver
| PCSInvalidVerifier
| PCSInvalidProof
| IOPInvalidParameters
| IOPInvalidProver
| IOPInvalidVerifier
| IOPInvalidProof
| IOPWrongChallenges
| IOPOther.

Inductive res (A : Type) : Type :=
| Ok (a : A)
| Err (e : err)
| Panic.
Arguments Ok {A} a.
Arguments Err {A} e.
Arguments Panic {A}.

(** The [?] operator and sequencing. *)
Definition bind {A B} (r : res A) (f : A -> res B) : res B :=
  match r with Ok a => f a | Err e => Err e | Panic => Panic end.

Declare Scope res_scope.
Notation "x <- r ;; k" := (bind r (fun x => k))
  (at level 61, r at next level, right associativity) : res_scope.
Notation "' pat <- r ;; k" := (bind r (fun x => match x with pat => k end))
  (at level 61, pat pattern, r at next level, right associativity) : res_scope.
Open Scope res_scope.

(** [assert!(b)] *)
Definition rassert (b : bool) : res unit := if b then Ok tt else Panic.

(** [if !b { return Err(e) }] *)
Definition ensure (b : bool) (e : err) : res unit := if b then Ok tt else Err e.

(** [r.unwrap()] / [r.expect(..)] on a [Result]: an error becomes a panic. *)
Definition unwrap {A} (r : res A) : res A :=
  match r with Ok a => Ok a | Err _ => Panic | Panic => Panic end.

(** [o.unwrap()] on an [Option]. *)
Definition ounwrap {A} (o : option A) : res A :=
  match o with Some a => Ok a | None => Panic end.

(** [.map_err(|_| e)] *)
Definition map_err {A} (r : res A) (e : err) : res A :=
  match r with Err _ => Err e | x => x end.

(** [v[i]] on a slice: panics out of bounds. *)
Definition rnth {A} (l : list A) (i : nat) : res A := ounwrap (nth_error l i).

(** Element-wise fallible map, stopping at the first failure. *)
Fixpoint mapM {A B} (f : A -> res B) (l : list A) : res (list B) :=
  match l with
  | [] => Ok []
  | x :: r => y <- f x ;; ys <- mapM f r ;; Ok (y :: ys)
  end.

(** Loop with a fallible body. *)
Fixpoint foldM {S A} (f : S -> A -> res S) (s : S) (l : list A) : res S :=
  match l with
  | [] => Ok s
  | x :: r => s' <- f s x ;; foldM f s' r
  end.

Definition is_ok {A} (r : res A) : bool := match r with Ok _ => true | _ => false end.

(** Vector update [v[i] = x] (no effect out of bounds; callers check). *)
Fixpoint upd {A} (l : list A) (i : nat) (x : A) : list A :=
  match l, i with
  | [], _ => []
  | _ :: r, O => x :: r
  | a :: r, S j => a :: upd r j x
  end.

(** [v[i] = x], panicking out of bounds. *)
Definition rupd {A} (l : list A) (i : nat) (x : A) : res (list A) :=
  if i <? length l then Ok (upd l i x) else Panic.

(** [&v[..k]] : panics when k is larger than the length. *)
Definition slice_to {A} (l : list A) (k : nat) : res (list A) :=
  if k <=? length l then Ok (firstn k l) else Panic.

(** [&v[k..]] *)
Definition slice_from {A} (l : list A) (k : nat) : res (list A) :=
  if k <=? length l then Ok (skipn k l) else Panic.
