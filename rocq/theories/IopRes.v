(** Verifiers that return a table: run as one that insists on a given result. *)
From Coq Require Import List Arith ZArith.
Import ListNotations.
From Verif Require Import Res Fp Pairing ModelTranscript ModelKzg ModelProver ModelVerifier ModelIop.

(** Tables of the verifier are compared by their ids and numbers of variables. *)
Definition tablec_dec : forall a b : tablec, {a = b} + {a <> b}.
Proof. decide equality; apply Nat.eq_dec || apply (list_eq_dec Nat.eq_dec). Defined.
(** The state after a call that returned the table [t]; any other result counts as a panic. *)
Definition returning {p : positive} {E : pairing p} (t : tablec) (r : res (tablec * vtrk E)) : res (vtrk E) :=
  bind r (fun tv => if tablec_dec (fst tv) t then Ok (snd tv) else Panic).

(** The verifier's form of a grouping instruction: the ids of the prover's handles. *)
Definition gb_ids (l : list (nat * agg * tpoly)) : list (nat * agg * nat) := map (fun i => (fst i, tp_id (snd i))) l.
Definition gp_ids (gi : gb_prove_instr) : gb_verify_instr := mkGv (gp_cols gi) (map tp_id (gp_supp gi)) (tp_id (gp_sel gi)) (tp_id (gp_mult gi)) (gb_ids (gp_agg gi)).
