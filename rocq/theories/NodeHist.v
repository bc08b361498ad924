(** Runs of the honest prover against the verifier when all challenges are given in advance. *)
From Coq Require Import String List Arith Bool ZArith.
Import ListNotations.
From Verif Require Import Res Fp FSum SpecMle SpecPoly SpecSumcheck SpecKzg SpecBatch ModelMle ModelVp ModelTranscript ModelSumcheck SumcheckHist Pairing ModelKzg ModelBatch.
Local Open Scope string_scope.
Local Open Scope list_scope.
Local Open Scope nat_scope.

(** With the challenges [ch], is the honest proof of the claimed sum [c] not accepted? *)
Definition sc_fails {p C} (sc : nat -> nat -> sched) (v : vp p) (c : F p) (t : tr p C) (ch : list (F p)) : bool :=
  let o := script (nchal (hist t)) ch in
  match sc_prove o sc v t with
  | Ok (pf, _) => negb (is_ok (sc_verify o c pf (max_degree v) (num_variables v) t))
  | _ => true
  end.

(** The same for the zero check; [a] is the address of the polynomial eq. *)
Definition zc_fails {p C} (sc : nat -> nat -> sched) (v : vp p) (a : nat) (t : tr p C) (ch : list (F p)) : bool :=
  let o := script (nchal (hist t)) ch in
  match zc_prove o sc v a t with
  | Ok (pf, _) => negb (is_ok (zc_verify o pf (max_degree v) (num_variables v) t))
  | _ => true
  end.

(** The same for the opening of several polynomials, with the true values. *)
Definition batch_fails {p C} {E : pairing p} (sc : nat -> nat -> sched) (addr : nat -> nat) (ck : pparam E) (vk : vparam E) (comms : list (gcar (PG1 E)))
  (polys : list (mle p)) (points : list (list (F p))) (t : tr p C) (ch : list (F p)) : bool :=
  let o := script (nchal (hist t)) ch in
  match multi_open o sc addr ck polys points (open_values polys points) t with
  | Ok (bp, _) => match batch_verify o vk comms points bp t with Ok (b, _) => negb b | _ => true end
  | _ => true
  end.
