(** What the last check looks at in a proof. Nothing here stands for code in /repo. *)
From Coq Require Import String List Arith ZArith.
Import ListNotations.
From Verif Require Import Res Fp ModelTranscript ModelSumcheck Pairing ModelKzg ModelBatch ModelProver ModelVerifier RoundHist.
Local Open Scope string_scope.
Local Open Scope list_scope.
Local Open Scope nat_scope.

Section H.
Context {p : positive} {E : pairing p}.

(** Ok, an error or a panic, without the tracker that goes with it. *)
Definition verdict {A} (r : res A) : res unit := _ <- r ;; Ok tt.

(** Two openings of [k] commitments with the same number of coordinates in the point, the same messages for those coordinates and
    the same first [k] values. The coordinates themselves and the group elements of the opening may differ. *)
Definition same_opening (k : nat) (b b' : batch_proof E) : Prop :=
  length (pf_point (bp_sc b)) = length (pf_point (bp_sc b')) /\
  firstn (length (pf_point (bp_sc b))) (pf_msgs (bp_sc b)) = firstn (length (pf_point (bp_sc b))) (pf_msgs (bp_sc b')) /\
  firstn k (bp_evals b) = firstn k (bp_evals b').

(** Two proofs with the same numbers of their commitments, degree, number of variables and messages, and openings as above. The
    commitments themselves, the claimed sums, the query results, the point and every opening but the first may differ. *)
Definition same_read (cp cp' : cproof E) : Prop :=
  map fst (cp_comms cp) = map fst (cp_comms cp') /\ cp_deg cp = cp_deg cp' /\ cp_nv cp = cp_nv cp' /\
  firstn (cp_nv cp) (pf_msgs (cp_sc cp)) = firstn (cp_nv cp) (pf_msgs (cp_sc cp')) /\
  match cp_pcs cp, cp_pcs cp' with
  | [], [] => True
  | b :: _, b' :: _ => same_opening (length (cp_comms cp)) b b'
  | _, _ => False
  end.

(** The messages that make the sum-check panic: fewer than variables, or all constants under degree 0. *)
Definition panicking_messages (ms : list (list (F p))) (d n : nat) : Prop :=
  0 < n /\ (length ms < n \/ n <= length ms /\ d = 0 /\ Forall (fun m => length m = 1) (firstn n ms)).
(** The opening that makes the check of [k] commitments in [n] variables panic: fewer values than commitments or fewer messages
    than variables. *)
Definition panicking_opening (b : batch_proof E) (k n : nat) : Prop :=
  2 <= k /\ length (pf_point (bp_sc b)) = n /\ (length (bp_evals b) < k \/ length (pf_msgs (bp_sc b)) < n).

(** The combined claim and the transcript with which the sum-check of the last check starts (verifier_tracker.rs 367-382). *)
Definition sum_start (o : oracle p (gcar (PG1 E))) (v : vtrk E) : res (F p * tr p (gcar (PG1 E))) :=
  v1 <- v_convert_zerocheck_claims o (cp_nv (vt_proof v)) v ;;
  ' (_, sum, v2) <- v_aggregate_sumcheck_claims o v1 ;;
  Ok (sum, vt_tr v2).
(** The challenges met in the sum-check and, if that passes, in the sum-check of the first opening. *)
Definition sum_challenges (o : oracle p (gcar (PG1 E))) (v : vtrk E) : list (F p) :=
  match sum_start o v with
  | Ok (_, t) => met o (cp_deg (vt_proof v)) (cp_nv (vt_proof v)) (pf_msgs (cp_sc (vt_proof v))) t
  | _ => []
  end.
Definition opening_challenges (o : oracle p (gcar (PG1 E))) (v : vtrk E) : list (F p) :=
  let cp := vt_proof v in
  match (' (sum, t) <- sum_start o v ;;
         ' (_, t) <- sc_verify o sum (cp_sc cp) (cp_deg cp) (cp_nv cp) t ;;
         ' (_, t) <- draw_vecT o "t" (Nat.log2_up (length (cp_comms cp))) t ;;
         b <- rnth (cp_pcs cp) 0 ;;
         Ok (met o 2 (length (pf_point (bp_sc b))) (pf_msgs (bp_sc b)) t)) with
  | Ok l => l
  | _ => []
  end.
End H.
