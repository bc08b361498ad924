(** What a history claims, read off its calls, and runs of the compiled proof system. *)
From Coq Require Import String List Arith Bool ZArith.
Import ListNotations.
From Verif Require Import Res Fp FSum SpecMle SpecPoly SpecSumcheck SpecTracker ModelMle ModelTranscript ModelSumcheck Pairing ModelKzg ModelBatch ModelProver ModelVerifier
  ProverHist VerifierHist.
Local Open Scope list_scope.
Local Open Scope nat_scope.

(** The handles the calls of a history put zero-check and sum-check claims on, and the number of its commitments. *)
Definition zero_calls {p} (ops : list (pop p)) : list nat := flat_map (fun op => match op with OZero i => [i] | _ => [] end) ops.
Definition sum_calls {p} (ops : list (pop p)) : list nat := flat_map (fun op => match op with OSum i _ => [i] | _ => [] end) ops.
Definition commit_calls {p} (ops : list (pop p)) : nat := length (flat_map (fun op => match op with OCommit _ _ => [tt] | _ => [] end) ops).

(** The polynomial behind handle [i] of a history. *)
Definition poly_at {p} (ops : list (pop p)) (i : nat) : den (p:=p) := nth i (denote ops) (0, fun _ => F0).

(** The sum over the hypercube of the polynomial extended to [n] variables. *)
Definition sum_at {p} (ops : list (pop p)) (n i : nat) : F p :=
  (ofN (2 ^ (n - fst (poly_at ops i))) * Fsum (corners (poly_at ops i)))%F.

(** Corner [k] of the polynomial extended to more variables: the new variables are ignored. *)
Definition corner_at {p} (ops : list (pop p)) (k i : nat) : F p :=
  nth (k mod 2 ^ fst (poly_at ops i)) (corners (poly_at ops i)) F0.

(** All zero-check claims of the history are true. *)
Definition zeros_hold {p} (ops : list (pop p)) : Prop :=
  forall i, In i (zero_calls ops) -> Forall (fun y => y = F0) (corners (poly_at ops i)).

(** The largest number of variables of a handle. *)
Definition max_nv (hs : list tpoly) : nat := list_max (map tp_nv hs).

Section H.
Context {p : positive} {E : pairing p}.
(** No challenge that the prover met, stored as the end points of the sum checks of the proof, is one of the small numbers
    at which the round messages are sampled: [0 .. degree] for the claims, [0 .. 2] for the opening. *)
Definition off_nodes (cp : cproof E) : Prop :=
  (forall c, In c (pf_point (cp_sc cp)) -> nonnode (cp_deg cp + 1) c) /\
  (forall b c, In b (cp_pcs cp) -> In c (pf_point (bp_sc b)) -> nonnode 3 c).
(** Compile with the challenges [ch], hand the proof to a verifier that makes the calls [vops] with the oracle of the
    history, and verify with the same challenges [ch]. *)
Definition compile_verify (oh : oracle p (gcar (PG1 E))) (sc sc' : nat -> nat -> sched) (addr : nat -> nat) (debug vdebug : bool) (vk : vparam E)
  (vops : list (vop E)) (s : ptrk E) (ch : list (F p)) : bool :=
  let o := script (nchal (hist (pt_tr s))) ch in
  match compile_proof o sc sc' addr debug s with
  | Ok (cp, _) => match vrun oh vdebug vk cp vops with
                  | Ok (v, _) => match verify_claims o v with Ok _ => true | _ => false end
                  | _ => false
                  end
  | _ => false
  end.
Definition compiles (sc sc' : nat -> nat -> sched) (addr : nat -> nat) (debug : bool) (s : ptrk E) (ch : list (F p)) : bool :=
  match compile_proof (script (nchal (hist (pt_tr s))) ch) sc sc' addr debug s with Ok _ => true | _ => false end.
End H.
