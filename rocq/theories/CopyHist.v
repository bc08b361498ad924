(** Interleaved calls on a tracker and its deep copy. *)
From Coq Require Import List Arith Bool ZArith.
Import ListNotations.
From Verif Require Import Res Fp ModelTranscript Pairing ModelKzg ModelProver ModelVerifier ProverHist VerifierHist.
Local Open Scope nat_scope.

Section H.
Context {p : positive} {E : pairing p}.
(** A call [(true, op)] goes to the copy, [(false, op)] to the original. [alias a b] is what the tracker [b] has become
    after a call on the other one ended in [a]. *)
Definition two_step {W O} (step : W -> O -> res W) (alias : W -> W -> W) (w : W * W) (c : bool * O) : res (W * W) :=
  if fst c then b <- step (snd w) (snd c) ;; Ok (alias b (fst w), b)
  else a <- step (fst w) (snd c) ;; Ok (a, alias a (snd w)).

(** prover_wrapper.rs 128-132 with the derived Clone (prover_tracker.rs 48-51): no field of the tracker is a reference
    to a mutable value, so nothing is shared. The copy starts as the value of the original. *)
Definition prun2 (o : oracle p (gcar (PG1 E))) (s : ptrk E) (hs : list tpoly) (calls : list (bool * pop p)) :=
  foldM (two_step (pstep o) (fun _ b => b)) ((s, hs), (s, hs)) calls.

(** verifier_wrapper.rs 159-163: the copies share two maps ([share], ModelVerifier.v). *)
Definition vrun2 (o : oracle p (gcar (PG1 E))) (debug : bool) (v : vtrk E) (hs : list nat) (calls : list (bool * vop E)) :=
  foldM (two_step (vstep o debug) (fun a b => (share (fst a) (fst b), snd b))) ((v, hs), (v, hs)) calls.

(** The calls that go to one of the two. *)
Definition calls_of {O} (side : bool) (calls : list (bool * O)) : list O :=
  map snd (filter (fun c => Bool.eqb (fst c) side) calls).
End H.
