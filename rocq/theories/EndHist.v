(** Where the sum-check of a proof ends. Nothing here stands for code in /repo: [sc_end] repeats the first half of [verify_claims]
    (verifier_tracker.rs 367-385) and keeps the pair of a point and a value that the code drops. *)
From Coq Require Import String List Arith Bool ZArith.
Import ListNotations.
From Verif Require Import Res Fp FSum SpecMle SpecTracker ModelMle ModelTranscript ModelSumcheck Pairing ModelKzg ModelBatch ModelProver ModelVerifier ProverHist CompileHist.
Local Open Scope list_scope.
Local Open Scope nat_scope.

Section H.
Context {p : positive} {E : pairing p}.
Notation F := (F p).
Notation comm := (gcar (PG1 E)).

(** The point of the challenges and the value that the combined polynomial is left to have there. *)
Definition sc_end (o : oracle p comm) (v : vtrk E) : res (list F * F) :=
  let cp := vt_proof v in
  v1 <- v_convert_zerocheck_claims o (cp_nv cp) v ;;
  ' (_, sum, v2) <- v_aggregate_sumcheck_claims o v1 ;;
  ' (sub, _) <- map_err (sc_verify o sum (cp_sc cp) (cp_deg cp) (cp_nv cp) (vt_tr v2)) IOPInvalidVerifier ;;
  Ok (sub_point sub, sub_eval sub).

(** The polynomial behind handle [i], as a function of points with at least its number of variables. *)
Definition at_point (ops : list (pop p)) (x : list F) (i : nat) : F := snd (poly_at ops i) (firstn (fst (poly_at ops i)) x).
(** The multilinear polynomial in [n] variables with the same corners. *)
Definition flat_point (ops : list (pop p)) (n : nat) (x : list F) (i : nat) : F := mle_ext n (fun k => corner_at ops k i) x.

(** The combination of all claimed polynomials of a history with the challenges: [zs] for the zero claims, [r] for the
    polynomial that turns them into a sum claim, [cs] for the sum claims. *)
Definition combination (sums zeros : list F) (zs r cs x : list F) : F := weighted cs (sums ++ [(weighted zs zeros * eqf x r)%F]).
(** What the verifier combines; the same with each sum-claimed polynomial replaced by the multilinear one with its corners; and
    the multilinear polynomial that has the corners of the combination. *)
Definition end_true (ops : list (pop p)) (zs r cs x : list F) : F :=
  combination (map (at_point ops x) (sum_calls ops)) (map (at_point ops x) (zero_calls ops)) zs r cs x.
Definition end_release (ops : list (pop p)) (n : nat) (zs r cs x : list F) : F :=
  combination (map (flat_point ops n x) (sum_calls ops)) (map (at_point ops x) (zero_calls ops)) zs r cs x.
Definition end_debug (ops : list (pop p)) (n : nat) (zs r cs x : list F) : F :=
  mle_ext n (fun k => combination (map (corner_at ops k) (sum_calls ops)) (map (corner_at ops k) (zero_calls ops)) zs r cs (bpoint n k)) x.

(** The proof with other query results. *)
Definition with_queries (cp : cproof E) (q : list (nat * list F * F)) : cproof E :=
  mkCproof (cp_comms cp) (cp_sums cp) (cp_sc cp) (cp_deg cp) (cp_nv cp) q (cp_pcs cp).
End H.
