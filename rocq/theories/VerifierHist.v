(** Histories of calls on one verifier tracker, and which of them mirror a history of the prover tracker. *)
From Coq Require Import String List Arith Bool ZArith.
Import ListNotations.
From Verif Require Import Res Fp FSum SpecMle SpecTracker ModelMle ModelTranscript Pairing ModelKzg ModelBatch ModelProver ModelVerifier ProverHist.
Local Open Scope string_scope.
Local Open Scope list_scope.
Local Open Scope nat_scope.

(** One call; operands are positions in the list of handles returned so far. [VONext] is get_next_id followed by
    transfer_prover_comm, [VOClaimed] is add_sumcheck_claim with the value of get_prover_claimed_sum. *)
Inductive vop {p} (E : pairing p) : Type :=
| VOFun (f : list (F p) -> res (F p))
| VOComm (c : gcar (PG1 E))
| VONext
| VOAdd (i j : nat)
| VOSub (i j : nat)
| VOMul (i j : nat)
| VOAddS (i : nat) (c : F p)
| VOMulS (i : nat) (c : F p)
| VOFront (i k : nat)
| VOBack (i k : nat)
| VOChal (l : string)
| VOAppend (l : string) (bs : list nat)
| VOSum (i : nat) (c : F p)
| VOClaimed (i : nat)
| VOZero (i : nat)
| VOTransferEvals.
Arguments VOFun {p E} _.
Arguments VOComm {p E} _.
Arguments VONext {p E}.
Arguments VOAdd {p E} _ _.
Arguments VOSub {p E} _ _.
Arguments VOMul {p E} _ _.
Arguments VOAddS {p E} _ _.
Arguments VOMulS {p E} _ _.
Arguments VOFront {p E} _ _.
Arguments VOBack {p E} _ _.
Arguments VOChal {p E} _.
Arguments VOAppend {p E} _ _.
Arguments VOSum {p E} _ _.
Arguments VOClaimed {p E} _.
Arguments VOZero {p E} _.
Arguments VOTransferEvals {p E}.

Section H.
Context {p : positive} {E : pairing p}.
Local Notation world := (vtrk E * list nat)%type.

Definition vpush (hs : list nat) (r : res (nat * vtrk E)) : res world := ' (h, v) <- r ;; Ok (v, hs ++ [h]).

Definition vstep (o : oracle p (gcar (PG1 E))) (debug : bool) (w : world) (op : vop E) : res world :=
  let '(v, hs) := w in
  match op with
  | VOFun f => vpush hs (Ok (track_virtual_comm v f))
  | VOComm c => vpush hs (Ok (track_mat_comm v c))
  | VONext => vpush hs (transfer_prover_comm debug v (v_get_next_id v))
  | VOAdd i j => a <- rnth hs i ;; b <- rnth hs j ;; vpush hs (Ok (add_comms v a b))
  | VOSub i j => a <- rnth hs i ;; b <- rnth hs j ;; vpush hs (Ok (sub_comms v a b))
  | VOMul i j => a <- rnth hs i ;; b <- rnth hs j ;; vpush hs (Ok (mul_comms v a b))
  | VOAddS i c => a <- rnth hs i ;; vpush hs (Ok (v_add_scalar v a c))
  | VOMulS i c => a <- rnth hs i ;; vpush hs (Ok (v_mul_scalar v a c))
  | VOFront i k => a <- rnth hs i ;; vpush hs (Ok (v_increase_nv_front v a k))
  | VOBack i k => a <- rnth hs i ;; vpush hs (Ok (v_increase_nv_back v a k))
  | VOChal l => ' (_, v') <- vt_challenge o l v ;; Ok (v', hs)
  | VOAppend l bs => Ok (set_vtr v (append l (PBytes bs) (vt_tr v)), hs)
  | VOSum i c => a <- rnth hs i ;; Ok (v_add_sumcheck_claim v a c, hs)
  | VOClaimed i => a <- rnth hs i ;; c <- get_prover_claimed_sum v a ;; Ok (v_add_sumcheck_claim v a c, hs)
  | VOZero i => a <- rnth hs i ;; Ok (v_add_zerocheck_claim v a, hs)
  | VOTransferEvals => Ok (transfer_proof_poly_evals v, hs)
  end.

(** A verifier that is given the compiled proof [cp] first. *)
Definition vrun (o : oracle p (gcar (PG1 E))) (debug : bool) (vk : vparam E) (cp : cproof E) (ops : list (vop E)) : res world :=
  foldM (vstep o debug) (set_compiled_proof (vt_new vk) cp, []) ops.

(** The verifier's counterpart of one prover call: the same call on the handles with the same positions. A table that
    the prover tracks without committing is any closure on the verifier's side; a committed one is transferred from the
    proof or given as a commitment to the same table; reading evaluations has no counterpart; a claimed sum is read from
    the proof or given. The verifier may load the query results at any time. With [exact] the closures compute the
    multilinear extensions of the tables they stand for. *)
Definition closure_of (n : nat) (l : list (F p)) (f : list (F p) -> res (F p)) : Prop :=
  forall x, length x = n -> f x = Ok (mle_ext n (tab l) x).
Inductive mirror (exact : bool) (pp : pparam E) : list (pop p) -> list (vop E) -> Prop :=
| m_nil : mirror exact pp [] []
| m_track : forall n l f a b, (exact = true -> closure_of n l f) -> mirror exact pp a b -> mirror exact pp (OTrack n l :: a) (VOFun f :: b)
| m_next : forall n l a b, mirror exact pp a b -> mirror exact pp (OCommit n l :: a) (VONext :: b)
| m_comm : forall n l c a b, kzg_commit pp (mkMle n l) = Ok c -> mirror exact pp a b -> mirror exact pp (OCommit n l :: a) (VOComm c :: b)
| m_add : forall i j a b, mirror exact pp a b -> mirror exact pp (OAdd i j :: a) (VOAdd i j :: b)
| m_sub : forall i j a b, mirror exact pp a b -> mirror exact pp (OSub i j :: a) (VOSub i j :: b)
| m_mul : forall i j a b, mirror exact pp a b -> mirror exact pp (OMul i j :: a) (VOMul i j :: b)
| m_adds : forall i c a b, mirror exact pp a b -> mirror exact pp (OAddS i c :: a) (VOAddS i c :: b)
| m_muls : forall i c a b, mirror exact pp a b -> mirror exact pp (OMulS i c :: a) (VOMulS i c :: b)
| m_front : forall i k a b, mirror exact pp a b -> mirror exact pp (OFront i k :: a) (VOFront i k :: b)
| m_back : forall i k a b, mirror exact pp a b -> mirror exact pp (OBack i k :: a) (VOBack i k :: b)
| m_evals : forall i a b, mirror exact pp a b -> mirror exact pp (OEvals i :: a) b
| m_chal : forall l a b, mirror exact pp a b -> mirror exact pp (OChal l :: a) (VOChal l :: b)
| m_append : forall l bs a b, mirror exact pp a b -> mirror exact pp (OAppend l bs :: a) (VOAppend l bs :: b)
| m_sum : forall i c c' a b, mirror exact pp a b -> mirror exact pp (OSum i c :: a) (VOSum i c' :: b)
| m_claimed : forall i c a b, mirror exact pp a b -> mirror exact pp (OSum i c :: a) (VOClaimed i :: b)
| m_zero : forall i a b, mirror exact pp a b -> mirror exact pp (OZero i :: a) (VOZero i :: b)
| m_load : forall a b, mirror exact pp a b -> mirror exact pp a (VOTransferEvals :: b).

(** The proof holds the commitments and a sum for every sum claim of the prover's state. *)
Definition proof_covers (cp : cproof E) (s : ptrk E) : Prop :=
  (forall id c, mget (pt_comm s) id = Some c -> mget (cp_comms cp) id = Some c) /\
  (forall id c, In (id, c) (pt_sc s) -> mget (cp_sums cp) id <> None).

(** Every extension at the back adds as many variables as its operand has. *)
Definition back_call (ds : list (den (p:=p))) (op : pop p) : Prop :=
  match op with
  | OBack i k => forall d, nth_error ds i = Some d -> fst d = k
  | _ => True
  end.
Fixpoint back_calls (ds : list (den (p:=p))) (ops : list (pop p)) : Prop :=
  match ops with
  | [] => True
  | op :: r => back_call ds op /\ back_calls (den_step ds op) r
  end.

(** The query map [q] holds the values of the committed polynomials at the contiguous pieces of the point [x]; [cs] are
    the ids of the handles and [ds] the polynomials behind them. *)
Definition query_holds (v : vtrk E) (q : list ((nat * list (F p)) * F p)) (cs : list nat) (ds : list (den (p:=p))) (x : list (F p)) : Prop :=
  forall j id d y, nth_error cs j = Some id -> nth_error ds j = Some d -> get_mat_comm v id <> None ->
    (exists z w, x = z ++ y ++ w) -> length y = fst d -> qget q (id, y) = Some (snd d y).
End H.
