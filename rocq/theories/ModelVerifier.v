(** The verifier tracker: /repo/src/tracker/verifier_tracker.rs and verifier_wrapper.rs, with the multilinear KZG scheme as PCS. *)
From Coq Require Import String List Arith Bool ZArith.
Import ListNotations.
From Verif Require Import Res Fp FSum ModelMle ModelTranscript ModelSumcheck Pairing ModelKzg ModelBatch ModelProver.
Local Open Scope string_scope.
Local Open Scope list_scope.
Local Open Scope nat_scope.

(** The closures stored in the map of virtual commitments (verifier_tracker.rs 42). They look their operands up in the
    map when they are called, so they are kept as data: [VQuery id] is the closure of track_mat_comm (83-88), [VFun f] a
    closure given by the caller, the others those of 120-293. *)
Inductive vexp (p : positive) : Type :=
| VQuery (id : nat)
| VFun (f : list (F p) -> res (F p))
| VAdd (a b : nat)
| VSub (a b : nat)
| VMul (a b : nat)
| VAddS (a : nat) (c : F p)
| VMulS (a : nat) (c : F p)
| VFront (a k : nat)
| VBack (a k : nat).
Arguments VQuery {p} _.
Arguments VFun {p} _.
Arguments VAdd {p} _ _.
Arguments VSub {p} _ _.
Arguments VMul {p} _ _.
Arguments VAddS {p} _ _.
Arguments VMulS {p} _ _.
Arguments VFront {p} _ _.
Arguments VBack {p} _ _.

(** verifier_tracker.rs 37-47. The two maps behind Rc are values here; their sharing between copies is [share] below. *)
Record vtrk {p} (E : pairing p) : Type := mkVtrk {
  vt_vk : vparam E;
  vt_tr : tr p (gcar (PG1 E));
  vt_next : nat;
  vt_mat : tmap (gcar (PG1 E));
  vt_virt : tmap (vexp p);
  vt_query : list ((nat * list (F p)) * F p);
  vt_sc : list (nat * F p);
  vt_zc : list nat;
  vt_proof : cproof E }.
Arguments mkVtrk {p E} _ _ _ _ _ _ _ _ _.
Arguments vt_vk {p E} _.
Arguments vt_tr {p E} _.
Arguments vt_next {p E} _.
Arguments vt_mat {p E} _.
Arguments vt_virt {p E} _.
Arguments vt_query {p E} _.
Arguments vt_sc {p E} _.
Arguments vt_zc {p E} _.
Arguments vt_proof {p E} _.

(** HashMap keyed by (TrackerID, point). *)
Fixpoint feql {p} (a b : list (F p)) : bool :=
  match a, b with
  | [], [] => true
  | x :: a', y :: b' => Feqb x y && feql a' b'
  | _, _ => false
  end.
Definition qkey {p} (a b : nat * list (F p)) : bool := (fst a =? fst b) && feql (snd a) (snd b).
Fixpoint qget {p} (m : list ((nat * list (F p)) * F p)) (k : nat * list (F p)) : option (F p) :=
  match m with
  | [] => None
  | (j, a) :: r => if qkey j k then Some a else qget r k
  end.
Definition qput {p} (m : list ((nat * list (F p)) * F p)) (k : nat * list (F p)) (a : F p) : list ((nat * list (F p)) * F p) :=
  (k, a) :: filter (fun e => negb (qkey (fst e) k)) m.

Section V.
Context {p : positive} {E : pairing p}.
Local Notation st := (vtrk E).
Local Notation comm := (gcar (PG1 E)).

(** tracker_structs.rs 50-62: the derived CompiledZKSQLProof::default() *)
Definition cproof_default : cproof E := mkCproof [] [] (mkProof [] []) 0 0 [] [].

(** verifier_tracker.rs 50-62 *)
Definition vt_new (vk : vparam E) : st := mkVtrk vk (tr_new "Initializing Tracnscript") 0 [] [] [] [] [] cproof_default.

Definition set_vtr (v : st) t : st :=
  mkVtrk (vt_vk v) t (vt_next v) (vt_mat v) (vt_virt v) (vt_query v) (vt_sc v) (vt_zc v) (vt_proof v).

(** verifier_tracker.rs 64-68 *)
Definition v_gen_id (v : st) : nat * st :=
  (vt_next v, mkVtrk (vt_vk v) (vt_tr v) (S (vt_next v)) (vt_mat v) (vt_virt v) (vt_query v) (vt_sc v) (vt_zc v) (vt_proof v)).

(** verifier_tracker.rs 70-72 *)
Definition v_get_next_id (v : st) : nat := vt_next v.

(** Inserting a closure. *)
Definition put_virt (v : st) (id : nat) (e : vexp p) : st :=
  mkVtrk (vt_vk v) (vt_tr v) (vt_next v) (vt_mat v) (mput (vt_virt v) id e) (vt_query v) (vt_sc v) (vt_zc v) (vt_proof v).

(** verifier_tracker.rs 74-97; appending a commitment never fails. *)
Definition track_mat_comm (v : st) (c : comm) : nat * st :=
  let '(id, v1) := v_gen_id v in
  let v2 := put_virt v1 id (VQuery id) in
  let v3 := set_vtr v2 (append "comm" (PComm c) (vt_tr v2)) in
  (id, mkVtrk (vt_vk v3) (vt_tr v3) (vt_next v3) (mput (vt_mat v3) id c) (vt_virt v3) (vt_query v3) (vt_sc v3) (vt_zc v3) (vt_proof v3)).

(** verifier_tracker.rs 99-110 *)
Definition track_virtual (v : st) (e : vexp p) : nat * st :=
  let '(id, v1) := v_gen_id v in (id, put_virt v1 id e).
Definition track_virtual_comm (v : st) (f : list (F p) -> res (F p)) : nat * st := track_virtual v (VFun f).

(** verifier_tracker.rs 112-114 *)
Definition set_compiled_proof (v : st) (cp : cproof E) : st :=
  mkVtrk (vt_vk v) (vt_tr v) (vt_next v) (vt_mat v) (vt_virt v) (vt_query v) (vt_sc v) (vt_zc v) cp.

(** verifier_tracker.rs 116-118 *)
Definition get_mat_comm (v : st) (id : nat) : option comm := mget (vt_mat v) id.

(** verifier_tracker.rs 120-149, 151-174, 176-201 *)
Definition add_comms (v : st) (a b : nat) : nat * st := track_virtual v (VAdd a b).
Definition sub_comms (v : st) (a b : nat) : nat * st := track_virtual v (VSub a b).
Definition mul_comms (v : st) (a b : nat) : nat * st := track_virtual v (VMul a b).

(** verifier_tracker.rs 203-226: one id is burnt first. *)
Definition v_add_scalar (v : st) (a : nat) (c : F p) : nat * st :=
  let '(_, v1) := v_gen_id v in track_virtual v1 (VAddS a c).

(** verifier_tracker.rs 228-251 *)
Definition v_mul_scalar (v : st) (a : nat) (c : F p) : nat * st := track_virtual v (VMulS a c).

(** verifier_tracker.rs 256-272 and 277-293 *)
Definition v_increase_nv_front (v : st) (a k : nat) : nat * st := track_virtual v (VFront a k).
Definition v_increase_nv_back (v : st) (a k : nat) : nat * st := track_virtual v (VBack a k).

(** The body of a closure; [ev] calls the closure stored under an id. Lines 83-88, 135-144, 162-170, 187-196, 215-222,
    239-246, 258-268 ([&pt[added_nv..]]), 279-289 ([&pt[..added_nv]]). *)
Definition run_vexp (query : list ((nat * list (F p)) * F p)) (ev : nat -> list (F p) -> res (F p)) (e : vexp p) (pt : list (F p)) : res (F p) :=
  match e with
  | VQuery id => ounwrap (qget query (id, pt))
  | VFun f => f pt
  | VAdd a b => x <- ev a pt ;; y <- ev b pt ;; Ok (x + y)%F
  | VSub a b => x <- ev a pt ;; y <- ev b pt ;; Ok (x - y)%F
  | VMul a b => x <- ev a pt ;; y <- ev b pt ;; Ok (x * y)%F
  | VAddS a c => x <- ev a pt ;; Ok (x + c)%F
  | VMulS a c => x <- ev a pt ;; Ok (c * x)%F
  | VFront a k => q <- slice_from pt k ;; ev a q
  | VBack a k => q <- slice_to pt k ;; ev a q
  end.

(** verifier_tracker.rs 295-305 and the lookups of the closures. Points only get shorter along a chain of calls and two
    equal-length points on one chain are equal, so a chain longer than the fuel repeats a call: it never returns. *)
Fixpoint eval_loop (fuel : nat) (virt : tmap (vexp p)) (query : list ((nat * list (F p)) * F p)) (id : nat) (pt : list (F p)) : res (F p) :=
  match fuel with
  | O => Panic
  | S fuel' => e <- ounwrap (mget virt id) ;; run_vexp query (eval_loop fuel' virt query) e pt
  end.
Definition eval_virtual_comm (v : st) (id : nat) (pt : list (F p)) : res (F p) :=
  eval_loop (S (length (vt_virt v)) * S (length pt)) (vt_virt v) (vt_query v) id pt.

(** verifier_tracker.rs 307-309 *)
Definition vt_challenge (o : oracle p comm) (l : string) (v : st) : res (F p * st) :=
  ' (c, t) <- drawT o l (vt_tr v) ;; Ok (c, set_vtr v t).

(** verifier_tracker.rs 319-324 *)
Definition v_add_sumcheck_claim (v : st) (id : nat) (c : F p) : st :=
  mkVtrk (vt_vk v) (vt_tr v) (vt_next v) (vt_mat v) (vt_virt v) (vt_query v) (vt_sc v ++ [(id, c)]) (vt_zc v) (vt_proof v).
Definition v_add_zerocheck_claim (v : st) (id : nat) : st :=
  mkVtrk (vt_vk v) (vt_tr v) (vt_next v) (vt_mat v) (vt_virt v) (vt_query v) (vt_sc v) (vt_zc v ++ [id]) (vt_proof v).

(** verifier_tracker.rs 330-332 with the unwrap of verifier_wrapper.rs 105-110 *)
Definition get_prover_claimed_sum (v : st) (id : nat) : res (F p) := ounwrap (mget (cp_sums (vt_proof v)) id).

(** verifier_tracker.rs 334-340 *)
Definition transfer_proof_poly_evals (v : st) : st :=
  mkVtrk (vt_vk v) (vt_tr v) (vt_next v) (vt_mat v) (vt_virt v)
    (fold_left (fun m kv => qput m (fst kv) (snd kv)) (cp_query (vt_proof v)) (vt_query v)) (vt_sc v) (vt_zc v) (vt_proof v).

(** verifier_wrapper.rs 118-144; [debug] is cfg(debug_assertions). *)
Definition transfer_prover_comm (debug : bool) (v : st) (id : nat) : res (nat * st) :=
  c <- ounwrap (mget (cp_comms (vt_proof v)) id) ;;
  let '(id', v') := track_mat_comm v c in
  _ <- rassert (negb debug || (id =? id')) ;;
  Ok (id', v').

(** verifier_tracker.rs 342-365 *)
Definition v_convert_zerocheck_claims (o : oracle p comm) (n : nat) (v : st) : res st :=
  let '(agg0, v0) := track_virtual_comm v (fun _ => Ok F0) in
  ' (agg, v1) <- foldM (fun (acc : nat * st) (cl : nat) =>
        ' (c, v') <- unwrap (vt_challenge o "zerocheck challenge" (snd acc)) ;;
        let '(id, v'') := v_mul_scalar v' cl c in
        Ok (add_comms v'' (fst acc) id)) (agg0, v0) (vt_zc v0) ;;
  ' (r, t) <- unwrap (draw_vecT o "0check r" n (vt_tr v1)) ;;
  let v2 := set_vtr v1 t in
  let '(eqid, v3) := track_virtual_comm v2 (fun pt => eq_eval pt r) in
  let '(id, v4) := mul_comms v3 agg eqid in
  Ok (v_add_sumcheck_claim v4 id F0).

(** Lines 374-382 *)
Definition v_aggregate_sumcheck_claims (o : oracle p comm) (v : st) : res (nat * F p * st) :=
  let '(agg0, v0) := track_virtual_comm v (fun _ => Ok F0) in
  foldM (fun (acc : nat * F p * st) (cl : nat * F p) =>
        let '(agg, sum, v) := acc in
        ' (c, v') <- unwrap (vt_challenge o "sumcheck challenge" v) ;;
        let '(id, v'') := v_mul_scalar v' (fst cl) c in
        let '(agg', v''') := add_comms v'' agg id in
        Ok (agg', (sum + snd cl * c)%F, v''')) (agg0, F0, v0) (vt_sc v0).

(** verifier_tracker.rs 367-402. The boolean of batch_verify is discarded and the aggregated commitment is not used. *)
Definition verify_claims (o : oracle p comm) (v : st) : res st :=
  let cp := vt_proof v in
  v1 <- v_convert_zerocheck_claims o (cp_nv cp) v ;;
  ' (_, sum, v2) <- v_aggregate_sumcheck_claims o v1 ;;
  ' (sub, t) <- map_err (sc_verify o sum (cp_sc cp) (cp_deg cp) (cp_nv cp) (vt_tr v2)) IOPInvalidVerifier ;;
  let v3 := set_vtr v2 t in
  let ids := sort_ids (map fst (cp_comms cp)) in
  comms <- mapM (fun id => ounwrap (get_mat_comm v3 id)) ids ;;
  let points := map (fun _ => sub_point sub) ids in
  bp <- rnth (cp_pcs cp) 0 ;;
  ' (_, t') <- batch_verify o (vt_vk v3) comms points bp (vt_tr v3) ;;
  Ok (set_vtr v3 t').

(** verifier_wrapper.rs 159-163 with the derived Clone (verifier_tracker.rs 33-36): the maps of virtual commitments and
    of query results stay shared. After a call on tracker [a], tracker [b] that shares its maps is [share a b]. *)
Definition share (a b : st) : st :=
  mkVtrk (vt_vk b) (vt_tr b) (vt_next b) (vt_mat b) (vt_virt a) (vt_query a) (vt_sc b) (vt_zc b) (vt_proof b).
End V.
