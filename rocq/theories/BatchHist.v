(** Acceptance of wrong values by the batch verifier, as a predicate on the challenges. *)
From Coq Require Import List Arith Bool ZArith.
Import ListNotations.
From Verif Require Import Res Fp FSum SpecMle SpecSumcheck ModelMle ModelTranscript ModelSumcheck Pairing ModelKzg ModelBatch.
Local Open Scope nat_scope.

(** The prover batch-opens the polynomials with the values vs; the verifier accepts. The draws are answered by tc. *)
Definition accepts_values {p C} {E : pairing p} (sc : nat -> nat -> sched) (addr : nat -> nat) (ck : pparam E) (vk : vparam E)
  (comms : list (gcar (PG1 E))) (polys : list (mle p)) (points : list (list (F p))) (vs : list (F p)) (t : tr p C) (tc : list (F p)) : bool :=
  let o := script (nchal (hist t)) tc in
  match multi_open o sc addr ck polys points vs t with
  | Ok (bp, _) => match batch_verify o vk comms points bp t with Ok (b, _) => b | _ => false end
  | _ => false
  end.
