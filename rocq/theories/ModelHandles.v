(** Several trackers in one program. The handles hold a reference to their tracker (Rc<RefCell<..>>); here a reference
    is a position in the list of all trackers of the program.
    tracker/prover_wrapper.rs, tracker/verifier_wrapper.rs, tracker/bag.rs. *)
From Coq Require Import String List Arith Bool ZArith.
Import ListNotations.
From Verif Require Import Res Fp FSum ModelMle ModelVp ModelTranscript ModelSumcheck Pairing ModelKzg ModelBatch ModelProver ModelVerifier.
Local Open Scope string_scope.
Local Open Scope list_scope.
Local Open Scope nat_scope.

(** prover_wrapper.rs 136-144: struct TrackedPoly. *)
Record phandle : Type := mkPH { ph_id : nat; ph_nv : nat; ph_at : nat }.
(** verifier_wrapper.rs 166-173: struct TrackedComm. *)
Record vhandle : Type := mkVH { vh_id : nat; vh_at : nat }.

(** prover_wrapper.rs 159-161: Rc::ptr_eq. *)
Definition ph_same (a b : phandle) : bool := ph_at a =? ph_at b.
(** prover_wrapper.rs 145-149: PartialEq for TrackedPoly. *)
Definition ph_eqb (a b : phandle) : bool := (ph_id a =? ph_id b) && ph_same a b.
(** verifier_wrapper.rs 185-187 *)
Definition vh_same (a b : vhandle) : bool := vh_at a =? vh_at b.
(** verifier_wrapper.rs 174-178: PartialEq for TrackedComm. *)
Definition vh_eqb (a b : vhandle) : bool := vh_same a b.

(** PartialEq for Vec. *)
Fixpoint list_eqb {A} (eqb : A -> A -> bool) (l m : list A) : bool :=
  match l, m with
  | [], [] => true
  | a :: l', b :: m' => eqb a b && list_eqb eqb l' m'
  | _, _ => false
  end.

(** bag.rs 6-15, 38-47, 62-70, 92-102: the derived PartialEq compares the fields. *)
Record hbag : Type := mkHB { hb_poly : phandle; hb_sel : phandle }.
Definition hbag_eqb (a b : hbag) : bool := ph_eqb (hb_poly a) (hb_poly b) && ph_eqb (hb_sel a) (hb_sel b).
Record hbagc : Type := mkHBc { hbc_poly : vhandle; hbc_sel : vhandle; hbc_nv : nat }.
Definition hbagc_eqb (a b : hbagc) : bool :=
  vh_eqb (hbc_poly a) (hbc_poly b) && vh_eqb (hbc_sel a) (hbc_sel b) && (hbc_nv a =? hbc_nv b).
Record htable : Type := mkHT { ht_cols : list phandle; ht_sel : phandle }.
Definition htable_eqb (a b : htable) : bool := list_eqb ph_eqb (ht_cols a) (ht_cols b) && ph_eqb (ht_sel a) (ht_sel b).
Record htablec : Type := mkHTc { htc_cols : list vhandle; htc_sel : vhandle; htc_nv : nat }.
Definition htablec_eqb (a b : htablec) : bool :=
  list_eqb vh_eqb (htc_cols a) (htc_cols b) && vh_eqb (htc_sel a) (htc_sel b) && (htc_nv a =? htc_nv b).

(** bag.rs 18-28: Bag::new; 71-83: Table::new. *)
Definition hbag_new (debug : bool) (a s : phandle) : res hbag :=
  _ <- (if debug then _ <- rassert (ph_nv a =? ph_nv s) ;; rassert (ph_same a s) else Ok tt) ;; Ok (mkHB a s).
Definition htable_new (debug : bool) (cols : list phandle) (s : phandle) : res htable :=
  _ <- (if debug then foldM (fun _ c => _ <- rassert (ph_nv c =? ph_nv s) ;; rassert (ph_same c s)) tt cols else Ok tt) ;;
  Ok (mkHT cols s).

Section P.
Context {p : positive} {E : pairing p}.
Local Notation heap := (list (ptrk E)).

(** tracker_ref.borrow_mut() of the tracker behind the reference [r]. A reference that is not in the list does not
    exist in Rust; the model panics. *)
Definition at_tracker {A} (w : heap) (r : nat) (f : ptrk E -> res (A * ptrk E)) : res (A * heap) :=
  t <- rnth w r ;; ' (x, t') <- f t ;; Ok (x, upd w r t').
(** The handle without the reference, and a result of the tracker [r] as a handle. *)
Definition bare (h : phandle) : tpoly := mkTp (ph_id h) (ph_nv h).
Definition wrap (r : nat) (h : tpoly) : phandle := mkPH (tp_id h) (tp_nv h) r.
Definition wrapped (r : nat) (x : res (tpoly * ptrk E)) : res (phandle * ptrk E) := ' (h, t) <- x ;; Ok (wrap r h, t).

(** prover_wrapper.rs 46-48, new_from_pcs_params: a new tracker, and its reference. *)
Definition hp_new (w : heap) (pp : pparam E) : nat * heap := (length w, w ++ [pt_new pp]).
(** prover_wrapper.rs 128-132, deep_copy: a clone behind a new reference. *)
Definition hp_copy (w : heap) (r : nat) : res (nat * heap) := t <- rnth w r ;; Ok (length w, w ++ [t]).

(** prover_wrapper.rs 50-68, through a reference to the tracker. *)
Definition hp_track (w : heap) (r : nat) (m : mle p) : res (phandle * heap) :=
  at_tracker w r (fun t => wrapped r (Ok (tp_track t m))).
Definition hp_commit (w : heap) (r : nat) (m : mle p) : res (phandle * heap) :=
  at_tracker w r (fun t => wrapped r (tp_commit t m)).
(** prover_wrapper.rs 163-189: the first statement asserts that both operands have the same tracker. *)
Definition hp_add (w : heap) (a b : phandle) : res (phandle * heap) :=
  _ <- rassert (ph_same a b) ;; at_tracker w (ph_at a) (fun t => wrapped (ph_at a) (tp_add t (bare a) (bare b))).
Definition hp_sub (w : heap) (a b : phandle) : res (phandle * heap) :=
  _ <- rassert (ph_same a b) ;; at_tracker w (ph_at a) (fun t => wrapped (ph_at a) (tp_sub t (bare a) (bare b))).
Definition hp_mul (w : heap) (a b : phandle) : res (phandle * heap) :=
  _ <- rassert (ph_same a b) ;; at_tracker w (ph_at a) (fun t => wrapped (ph_at a) (tp_mul t (bare a) (bare b))).
(** prover_wrapper.rs 191-213 *)
Definition hp_add_scalar (w : heap) (a : phandle) (c : F p) : res (phandle * heap) :=
  at_tracker w (ph_at a) (fun t => wrapped (ph_at a) (tp_add_scalar t (bare a) c)).
Definition hp_mul_scalar (w : heap) (a : phandle) (c : F p) : res (phandle * heap) :=
  at_tracker w (ph_at a) (fun t => wrapped (ph_at a) (tp_mul_scalar t (bare a) c)).
Definition hp_front (w : heap) (a : phandle) (k : nat) : res (phandle * heap) :=
  at_tracker w (ph_at a) (fun t => wrapped (ph_at a) (tp_front t (bare a) k)).
Definition hp_back (w : heap) (a : phandle) (k : nat) : res (phandle * heap) :=
  at_tracker w (ph_at a) (fun t => wrapped (ph_at a) (tp_back t (bare a) k)).
(** prover_wrapper.rs 215-224 *)
Definition hp_evaluate (w : heap) (a : phandle) (x : list (F p)) : res (option (F p)) :=
  t <- rnth w (ph_at a) ;; tp_evaluate t (bare a) x.
Definition hp_evaluations (w : heap) (a : phandle) : res (list (F p) * heap) :=
  at_tracker w (ph_at a) (fun t => tp_evaluations t (bare a)).
(** prover_wrapper.rs 80-119, through a reference. The claims take the number of a polynomial, not a handle. *)
Definition hp_challenge (o : oracle p (gcar (PG1 E))) (w : heap) (r : nat) (l : string) : res (F p * heap) :=
  at_tracker w r (pt_challenge o l).
Definition hp_append (w : heap) (r : nat) (l : string) (bs : list nat) : res (unit * heap) :=
  at_tracker w r (fun t => Ok (tt, set_tr t (append l (PBytes bs) (pt_tr t)))).
Definition hp_sum_claim (w : heap) (r : nat) (id : nat) (c : F p) : res (unit * heap) :=
  at_tracker w r (fun t => Ok (tt, add_sumcheck_claim t id c)).
Definition hp_zero_claim (w : heap) (r : nat) (id : nat) : res (unit * heap) :=
  at_tracker w r (fun t => Ok (tt, add_zerocheck_claim t id)).
Definition hp_compile (o : oracle p (gcar (PG1 E))) (sc sc' : nat -> nat -> sched) (addr : nat -> nat) (debug : bool) (w : heap) (r : nat)
  : res (cproof E * heap) :=
  at_tracker w r (compile_proof o sc sc' addr debug).
End P.

Section V.
Context {p : positive} {E : pairing p}.
(** A verifier tracker and the number of the two maps it holds by reference (verifier_tracker.rs 37-47). *)
Local Notation heap := (list (nat * vtrk E)).

(** A call through [r]: trackers that hold the same maps see them changed ([share], ModelVerifier.v). *)
Definition at_verifier {A} (w : heap) (r : nat) (f : vtrk E -> res (A * vtrk E)) : res (A * heap) :=
  ' (m, v) <- rnth w r ;; ' (x, v') <- f v ;;
  Ok (x, upd (map (fun e => if fst e =? m then (m, share v' (snd e)) else e) w) r (m, v')).

(** verifier_wrapper.rs 43-45: new maps. *)
Definition hv_new (w : heap) (m : nat) (vk : vparam E) : nat * heap := (length w, w ++ [(m, vt_new vk)]).
(** verifier_wrapper.rs 159-163: the clone of an Rc is the same reference. *)
Definition hv_copy (w : heap) (r : nat) : res (nat * heap) := e <- rnth w r ;; Ok (length w, w ++ [e]).

Definition vwrapped (r : nat) (x : nat * vtrk E) : res (vhandle * vtrk E) := let (i, v) := x in Ok (mkVH i r, v).

(** verifier_wrapper.rs 47-65 *)
Definition hv_comm (w : heap) (r : nat) (c : gcar (PG1 E)) : res (vhandle * heap) :=
  at_verifier w r (fun v => vwrapped r (track_mat_comm v c)).
Definition hv_fun (w : heap) (r : nat) (f : list (F p) -> res (F p)) : res (vhandle * heap) :=
  at_verifier w r (fun v => vwrapped r (track_virtual_comm v f)).
(** verifier_wrapper.rs 189-213 *)
Definition hv_add (w : heap) (a b : vhandle) : res (vhandle * heap) :=
  _ <- rassert (vh_same a b) ;; at_verifier w (vh_at a) (fun v => vwrapped (vh_at a) (add_comms v (vh_id a) (vh_id b))).
Definition hv_sub (w : heap) (a b : vhandle) : res (vhandle * heap) :=
  _ <- rassert (vh_same a b) ;; at_verifier w (vh_at a) (fun v => vwrapped (vh_at a) (sub_comms v (vh_id a) (vh_id b))).
Definition hv_mul (w : heap) (a b : vhandle) : res (vhandle * heap) :=
  _ <- rassert (vh_same a b) ;; at_verifier w (vh_at a) (fun v => vwrapped (vh_at a) (mul_comms v (vh_id a) (vh_id b))).
(** verifier_wrapper.rs 215-237 *)
Definition hv_add_scalar (w : heap) (a : vhandle) (c : F p) : res (vhandle * heap) :=
  at_verifier w (vh_at a) (fun v => vwrapped (vh_at a) (v_add_scalar v (vh_id a) c)).
Definition hv_mul_scalar (w : heap) (a : vhandle) (c : F p) : res (vhandle * heap) :=
  at_verifier w (vh_at a) (fun v => vwrapped (vh_at a) (v_mul_scalar v (vh_id a) c)).
Definition hv_front (w : heap) (a : vhandle) (k : nat) : res (vhandle * heap) :=
  at_verifier w (vh_at a) (fun v => vwrapped (vh_at a) (v_increase_nv_front v (vh_id a) k)).
Definition hv_back (w : heap) (a : vhandle) (k : nat) : res (vhandle * heap) :=
  at_verifier w (vh_at a) (fun v => vwrapped (vh_at a) (v_increase_nv_back v (vh_id a) k)).
(** verifier_wrapper.rs 82-144 *)
Definition hv_transfer (debug : bool) (w : heap) (r : nat) (id : nat) : res (vhandle * heap) :=
  at_verifier w r (fun v => x <- transfer_prover_comm debug v id ;; vwrapped r x).
Definition hv_transfer_evals (w : heap) (r : nat) : res (unit * heap) :=
  at_verifier w r (fun v => Ok (tt, transfer_proof_poly_evals v)).
Definition hv_challenge (o : oracle p (gcar (PG1 E))) (w : heap) (r : nat) (l : string) : res (F p * heap) :=
  at_verifier w r (vt_challenge o l).
Definition hv_sum_claim (w : heap) (r : nat) (id : nat) (c : F p) : res (unit * heap) :=
  at_verifier w r (fun v => Ok (tt, v_add_sumcheck_claim v id c)).
Definition hv_zero_claim (w : heap) (r : nat) (id : nat) : res (unit * heap) :=
  at_verifier w r (fun v => Ok (tt, v_add_zerocheck_claim v id)).
(** verifier_wrapper.rs 146-150 *)
Definition hv_verify (o : oracle p (gcar (PG1 E))) (w : heap) (r : nat) : res (unit * heap) :=
  at_verifier w r (fun v => v' <- verify_claims o v ;; Ok (tt, v')).
(** verifier_wrapper.rs 239-246 *)
Definition hv_eval (w : heap) (a : vhandle) (x : list (F p)) : res (F p) :=
  ' (_, v) <- rnth w (vh_at a) ;; eval_virtual_comm v (vh_id a) x.
End V.
