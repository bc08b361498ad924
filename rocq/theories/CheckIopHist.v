(** Sessions that depend on the challenge of one protocol, for C67. Nothing here stands for code in /repo. *)
From Coq Require Import List Arith Bool ZArith.
Import ListNotations.
From Verif Require Import Res Fp SpecTracker SpecIop ModelTranscript Pairing ModelKzg ModelBatch ModelProver ModelVerifier SessHist CheckHist.
Local Open Scope list_scope.
Local Open Scope nat_scope.

Section H.
Context {p : positive} {E : pairing p}.
Notation F := (F p).

(** [u] is the last tracker of a session in which the verifier made the call [call] on the tracker [v], with the result [v'], drew
    the challenges [gs] in that call, and any calls followed. *)
Definition after_call (call : oracle p (gcar (PG1 E)) -> vtrk E -> res (vtrk E)) (gs : list F) (v v' u : vtrk E) : Prop :=
  exists o, in_session o v /\ call o v = Ok v' /\ SpecIop.drawn (vt_tr v) (vt_tr v') = gs /\ vcalls o v' u.
(** What C60 asks of a tracker: its proof is about [N] variables and degree [d], the verifier draws [m] challenges before the
    sum-check, and its claims are polynomials of degree at most [D], which the reading [A] values. *)
Definition checkable (A : reading) (N d D m : nat) (u : vtrk E) : Prop :=
  cp_nv (vt_proof u) = N /\ cp_deg (vt_proof u) = d /\ drawn_before N u = m /\ (exists f, valued A N u f) /\
  (forall id, In id (claimed_ids u) -> degree_le (vt_virt u) id D) /\ closures_true A N u.
(** The polynomials that the verifier received from the prover between two trackers, in order. *)
Definition received_ids (v v' : vtrk E) : list nat :=
  filter (fun id => match mget (vt_virt v') id with Some (VQuery i) => i =? id | _ => false end) (seq (vt_next v) (vt_next v' - vt_next v)).
(** The first [k] challenges are the ones of the protocol, the others are those of the last check, made with the comparison.
    [last gs] is the last tracker of the session in which the protocol drew [gs], if the verifier came that far. *)
Definition passes_after (k : nat) (st : list F -> list F -> list F) (q : list F -> list F -> list ((nat * list F) * F)) (last : list F -> option (vtrk E)) (ch : list F) : bool :=
  let gs := firstn k ch in
  match last gs with Some u => passes (st gs) (q gs) u (skipn k ch) | None => false end.
End H.
