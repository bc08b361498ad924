(** Histories of calls on one prover tracker through its handles. *)
From Coq Require Import String List Arith Bool ZArith.
Import ListNotations.
From Verif Require Import Res Fp FSum ModelMle ModelVp ModelTranscript Pairing ModelKzg ModelBatch ModelProver.
Local Open Scope string_scope.
Local Open Scope list_scope.
Local Open Scope nat_scope.

(** One call; operands are positions in the list of handles returned so far. A table is given by its number of
    variables and entries, and is built with ark's asserting constructor. *)
Inductive pop (p : positive) : Type :=
| OTrack (n : nat) (l : list (F p))
| OCommit (n : nat) (l : list (F p))
| OAdd (i j : nat)
| OSub (i j : nat)
| OMul (i j : nat)
| OAddS (i : nat) (c : F p)
| OMulS (i : nat) (c : F p)
| OFront (i k : nat)
| OBack (i k : nat)
| OEvals (i : nat)
| OChal (l : string)
| OAppend (l : string) (bs : list nat)
| OSum (i : nat) (c : F p)
| OZero (i : nat).
Arguments OTrack {p} _ _.
Arguments OCommit {p} _ _.
Arguments OAdd {p} _ _.
Arguments OSub {p} _ _.
Arguments OMul {p} _ _.
Arguments OAddS {p} _ _.
Arguments OMulS {p} _ _.
Arguments OFront {p} _ _.
Arguments OBack {p} _ _.
Arguments OEvals {p} _.
Arguments OChal {p} _.
Arguments OAppend {p} _ _.
Arguments OSum {p} _ _.
Arguments OZero {p} _.

Section H.
Context {p : positive} {E : pairing p}.
Local Notation world := (ptrk E * list tpoly)%type.

Definition push (hs : list tpoly) (r : res (tpoly * ptrk E)) : res world := ' (h, s) <- r ;; Ok (s, hs ++ [h]).

Definition pstep (o : oracle p (gcar (PG1 E))) (w : world) (op : pop p) : res world :=
  let '(s, hs) := w in
  match op with
  | OTrack n l => m <- from_evaluations n l ;; push hs (Ok (tp_track s m))
  | OCommit n l => m <- from_evaluations n l ;; push hs (tp_commit s m)
  | OAdd i j => a <- rnth hs i ;; b <- rnth hs j ;; push hs (tp_add s a b)
  | OSub i j => a <- rnth hs i ;; b <- rnth hs j ;; push hs (tp_sub s a b)
  | OMul i j => a <- rnth hs i ;; b <- rnth hs j ;; push hs (tp_mul s a b)
  | OAddS i c => a <- rnth hs i ;; push hs (tp_add_scalar s a c)
  | OMulS i c => a <- rnth hs i ;; push hs (tp_mul_scalar s a c)
  | OFront i k => a <- rnth hs i ;; push hs (tp_front s a k)
  | OBack i k => a <- rnth hs i ;; push hs (tp_back s a k)
  | OEvals i => a <- rnth hs i ;; ' (_, s') <- tp_evaluations s a ;; Ok (s', hs)
  | OChal l => ' (_, s') <- pt_challenge o l s ;; Ok (s', hs)
  | OAppend l bs => Ok (set_tr s (append l (PBytes bs) (pt_tr s)), hs)
  | OSum i c => a <- rnth hs i ;; Ok (add_sumcheck_claim s (tp_id a) c, hs)
  | OZero i => a <- rnth hs i ;; Ok (add_zerocheck_claim s (tp_id a), hs)
  end.

Definition prun (o : oracle p (gcar (PG1 E))) (pp : pparam E) (ops : list (pop p)) : res world :=
  foldM (pstep o) (pt_new pp, []) ops.
End H.
