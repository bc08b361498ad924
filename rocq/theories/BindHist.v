(** What the transcript fixes of the things that a prover sends. Nothing here models code. *)
From Coq Require Import List Arith ZArith Sorting.Sorted.
Import ListNotations.
From Verif Require Import Res Fp ModelTranscript ModelSumcheck Pairing ModelKzg ModelBatch ModelProver ModelVerifier.

Section B.
Context {p : positive} {E : pairing p}.

(** The commitments that were appended to a transcript, in order. *)
Definition absorbed (h : list (event p (gcar (PG1 E)))) : list (gcar (PG1 E)) :=
  flat_map (fun e => match e with EMsg _ (PComm c) => [c] | _ => [] end) h.
(** The commitments that a verifier holds, in the order of their ids, are those of its transcript. *)
Definition comms_bound (v : vtrk E) : Prop :=
  exists ids, StronglySorted lt ids /\ Forall (fun id => id < vt_next v) ids /\
    Forall2 (fun id c => mget (vt_mat v) id = Some c) ids (absorbed (hist (vt_tr v))) /\
    forall id c, mget (vt_mat v) id = Some c -> In id ids.

(** The same proof with other claimed sums, and the same verifier with other sums in its claims. *)
Definition with_sums (cp : cproof E) (s : tmap (F p)) : cproof E :=
  mkCproof (cp_comms cp) s (cp_sc cp) (cp_deg cp) (cp_nv cp) (cp_query cp) (cp_pcs cp).
Definition claiming (v : vtrk E) (sums : list (F p)) : vtrk E :=
  mkVtrk (vt_vk v) (vt_tr v) (vt_next v) (vt_mat v) (vt_virt v) (vt_query v) (combine (map fst (vt_sc v)) sums) (vt_zc v) (vt_proof v).
End B.
