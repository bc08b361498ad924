(** Specification of the sum-check protocol: what an honest round message is, how a run ends, and scripted challenges. *)
From Coq Require Import String List Arith Bool ZArith.
Import ListNotations.
From Verif Require Import Fp FSum SpecMle SpecPoly ModelTranscript.
Local Open Scope nat_scope.

(** Value at t of the round polynomial of [f] (n variables) once the challenges [cs] are fixed:
    the sum over the remaining hypercube of f(cs, t, b). *)
Definition round_poly {p} (n : nat) (f : list (F p) -> F p) (cs : list (F p)) (t : F p) : F p :=
  cube_sum (n - length cs - 1) (fun b => f (cs ++ t :: b)).

(** The honest message: the round polynomial at t = 0, 1, ..., deg. *)
Definition round_msg {p} (n deg : nat) (f : list (F p) -> F p) (cs : list (F p)) : list (F p) :=
  map (fun t => round_poly n f cs (ofN t)) (seq 0 (deg + 1)).

(** f has degree at most d in each variable. *)
Definition ind_degree {p} (n d : nat) (f : list (F p) -> F p) : Prop :=
  forall pre post, length pre + 1 + length post = n -> polyfun d (fun x => f (pre ++ x :: post)).

(** Number of challenges drawn in a history. *)
Definition nchal {p C} (h : list (event p C)) : nat :=
  length (filter (fun e => match e with EChal _ => true | _ => false end) h).

(** The oracle that answers the draws made after [k] earlier draws with the entries of [ch], in order. *)
Definition script {p C} (k : nat) (ch : list (F p)) : oracle p C := fun h _ => nth (nchal h - k) ch F0.

(** The messages a prover strategy sends against the challenge vector [ch]: the j-th depends on the
    first j challenges only. *)
Definition play {p} (st : list (F p) -> list (F p)) (ch : list (F p)) : list (list (F p)) :=
  map (fun j => st (firstn j ch)) (seq 0 (length ch)).
