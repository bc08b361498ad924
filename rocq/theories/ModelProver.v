(** The prover tracker: /repo/src/tracker/prover_tracker.rs and prover_wrapper.rs, with the multilinear KZG scheme as PCS. *)
From Coq Require Import String List Arith Bool ZArith.
Import ListNotations.
From Verif Require Import Res Fp FSum ModelMle ModelVp ModelTranscript ModelSumcheck Pairing ModelKzg ModelBatch.
Local Open Scope string_scope.
Local Open Scope list_scope.
Local Open Scope nat_scope.

(** ** HashMap keyed by TrackerID (tracker_structs.rs 12-18): association lists without repeated keys.
    No function modelled here depends on the iteration order. *)
Definition tmap (A : Type) : Type := list (nat * A).
Fixpoint mget {A} (m : tmap A) (k : nat) : option A :=
  match m with
  | [] => None
  | (j, a) :: r => if j =? k then Some a else mget r k
  end.
Definition mdel {A} (m : tmap A) (k : nat) : tmap A := filter (fun e => negb (fst e =? k)) m.
Definition mput {A} (m : tmap A) (k : nat) (a : A) : tmap A := (k, a) :: mdel m k.

(** [sort] on a vector of ids. *)
Fixpoint insert_id (k : nat) (l : list nat) : list nat :=
  match l with
  | [] => [k]
  | j :: r => if k <=? j then k :: l else j :: insert_id k r
  end.
Definition sort_ids (l : list nat) : list nat := fold_right insert_id [] l.

(** prover_tracker.rs 51-61. [pt_addr] is not in the source: it is the next address the allocator hands out for an
    Arc; a fresh Arc never has the address of a live one. *)
Record ptrk {p} (E : pairing p) : Type := mkPtrk {
  pt_pp : pparam E;
  pt_tr : tr p (gcar (PG1 E));
  pt_next : nat;
  pt_mat : tmap (arc p);
  pt_virt : tmap (list (F p * list nat));
  pt_comm : tmap (gcar (PG1 E));
  pt_sc : list (nat * F p);
  pt_zc : list nat;
  pt_addr : nat }.
Arguments mkPtrk {p E} _ _ _ _ _ _ _ _ _.
Arguments pt_pp {p E} _.
Arguments pt_tr {p E} _.
Arguments pt_next {p E} _.
Arguments pt_mat {p E} _.
Arguments pt_virt {p E} _.
Arguments pt_comm {p E} _.
Arguments pt_sc {p E} _.
Arguments pt_zc {p E} _.
Arguments pt_addr {p E} _.

(** tracker_structs.rs 50-62; the aux info is its degree and number of variables. *)
Record cproof {p} (E : pairing p) : Type := mkCproof {
  cp_comms : tmap (gcar (PG1 E));
  cp_sums : tmap (F p);
  cp_sc : proof p;
  cp_deg : nat;
  cp_nv : nat;
  cp_query : list ((nat * list (F p)) * F p);
  cp_pcs : list (batch_proof E) }.
Arguments mkCproof {p E} _ _ _ _ _ _ _.
Arguments cp_comms {p E} _.
Arguments cp_sums {p E} _.
Arguments cp_sc {p E} _.
Arguments cp_deg {p E} _.
Arguments cp_nv {p E} _.
Arguments cp_query {p E} _.
Arguments cp_pcs {p E} _.

Section P.
Context {p : positive} {E : pairing p}.
Local Notation st := (ptrk E).
Local Notation virt := (list (F p * list nat)).

Definition set_tr (s : st) t : st := mkPtrk (pt_pp s) t (pt_next s) (pt_mat s) (pt_virt s) (pt_comm s) (pt_sc s) (pt_zc s) (pt_addr s).

(** prover_tracker.rs 64-75 *)
Definition pt_new (pp : pparam E) : st := mkPtrk pp (tr_new "Initializing Tracnscript") 0 [] [] [] [] [] 0.

(** prover_tracker.rs 82-86 *)
Definition gen_id (s : st) : nat * st :=
  (pt_next s, mkPtrk (pt_pp s) (pt_tr s) (S (pt_next s)) (pt_mat s) (pt_virt s) (pt_comm s) (pt_sc s) (pt_zc s) (pt_addr s)).

(** prover_tracker.rs 88-90 *)
Definition get_next_id (s : st) : nat := pt_next s.

Definition put_mat (s : st) (id : nat) (a : arc p) : st :=
  mkPtrk (pt_pp s) (pt_tr s) (pt_next s) (mput (pt_mat s) id a) (pt_virt s) (pt_comm s) (pt_sc s) (pt_zc s) (pt_addr s).
(** [Arc::new] *)
Definition new_arc (s : st) (m : mle p) : arc p * st :=
  ((pt_addr s, m), mkPtrk (pt_pp s) (pt_tr s) (pt_next s) (pt_mat s) (pt_virt s) (pt_comm s) (pt_sc s) (pt_zc s) (S (pt_addr s))).

(** prover_tracker.rs 100-112 *)
Definition track_mat_arc_poly (s : st) (a : arc p) : nat * st :=
  let '(id, s1) := gen_id s in (id, put_mat s1 id a).

(** prover_tracker.rs 92-98 *)
Definition track_mat_poly (s : st) (m : mle p) : nat * st :=
  let '(a, s1) := new_arc s m in track_mat_arc_poly s1 a.

(** prover_tracker.rs 114-130; an error leaves the tracker unchanged. *)
Definition track_and_commit_mat_poly (s : st) (m : mle p) : res (nat * st) :=
  c <- kzg_commit (pt_pp s) m ;;
  let '(id, s1) := track_mat_poly s m in
  Ok (id, mkPtrk (pt_pp s1) (append "comm" (PComm c) (pt_tr s1)) (pt_next s1) (pt_mat s1) (pt_virt s1) (mput (pt_comm s1) id c)
                 (pt_sc s1) (pt_zc s1) (pt_addr s1)).

(** prover_tracker.rs 132-140 *)
Definition track_virt_poly (s : st) (v : virt) : nat * st :=
  let '(id, s1) := gen_id s in
  (id, mkPtrk (pt_pp s1) (pt_tr s1) (pt_next s1) (pt_mat s1) (mput (pt_virt s1) id v) (pt_comm s1) (pt_sc s1) (pt_zc s1) (pt_addr s1)).

(** The number of variables of the first factor of a virtual polynomial (lines 163-166, 376-378, 475-477). *)
Definition virt_nv (s : st) (v : virt) : res nat :=
  cp <- rnth v 0 ;; i <- rnth (snd cp) 0 ;; a <- ounwrap (mget (pt_mat s) i) ;; Ok (nv (snd a)).

(** prover_tracker.rs 150-167 *)
Definition get_poly_nv (s : st) (id : nat) : res nat :=
  match mget (pt_mat s) id with
  | Some a => Ok (nv (snd a))
  | None => match mget (pt_virt s) id with Some v => virt_nv s v | None => Panic end
  end.

(** The four cases of lines 196-229 and 265-308: the representation of a polynomial that is in exactly one of the two maps. *)
Inductive rep : Type := RMat | RVirt (v : virt).
Definition get_rep (s : st) (id : nat) : res rep :=
  match mget (pt_mat s) id, mget (pt_virt s) id with
  | Some _, None => Ok RMat
  | None, Some v => Ok (RVirt v)
  | _, _ => Panic
  end.

(** prover_tracker.rs 169-232 *)
Definition add_sub_polys (s : st) (id1 id2 : nat) (do_sub : bool) : res (nat * st) :=
  let sign := if do_sub then (- F1)%F else F1 in
  r1 <- get_rep s id1 ;;
  r2 <- get_rep s id2 ;;
  let v :=
    match r1, r2 with
    | RMat, RMat => [(F1, [id1]); (sign, [id2])]
    | RMat, RVirt v2 => (F1, [id1]) :: map (fun cp => ((sign * fst cp)%F, snd cp)) v2
    | RVirt v1, RMat => v1 ++ [(sign, [id2])]
    | RVirt v1, RVirt v2 => v1 ++ map (fun cp => ((sign * fst cp)%F, snd cp)) v2
    end in
  Ok (track_virt_poly s v).

(** prover_tracker.rs 234-248 *)
Definition add_polys (s : st) (id1 id2 : nat) := add_sub_polys s id1 id2 false.
Definition sub_polys (s : st) (id1 id2 : nat) := add_sub_polys s id1 id2 true.

(** prover_tracker.rs 250-311 *)
Definition mul_polys (s : st) (id1 id2 : nat) : res (nat * st) :=
  r1 <- get_rep s id1 ;;
  r2 <- get_rep s id2 ;;
  let v :=
    match r1, r2 with
    | RMat, RMat => [(F1, [id1; id2])]
    | RMat, RVirt v2 => map (fun cp => (fst cp, snd cp ++ [id1])) v2
    | RVirt v1, RMat => map (fun cp => (fst cp, snd cp ++ [id2])) v1
    | RVirt v1, RVirt v2 => flat_map (fun c1 => map (fun c2 => ((fst c1 * fst c2)%F, snd c1 ++ snd c2)) v2) v1
    end in
  Ok (track_virt_poly s v).

(** prover_tracker.rs 313-323: two ids are used. *)
Definition add_scalar (s : st) (id : nat) (c : F p) : res (nat * st) :=
  n <- get_poly_nv s id ;;
  m <- from_evaluations n (repeat c (2 ^ n)) ;;
  let '(sid, s1) := track_mat_poly s m in
  add_polys s1 id sid.

(** prover_tracker.rs 325-343 *)
Definition mul_scalar (s : st) (id : nat) (c : F p) : res (nat * st) :=
  match mget (pt_mat s) id with
  | Some _ => Ok (track_virt_poly s [(c, [id])])
  | None =>
      v <- ounwrap (mget (pt_virt s) id) ;;
      Ok (track_virt_poly s (map (fun cp => ((fst cp * c)%F, snd cp)) v))
  end.

(** Element-wise operation on the zip of two vectors. *)
Definition zipw (f : F p -> F p -> F p) (a b : list (F p)) : list (F p) := map (fun ab => f (fst ab) (snd ab)) (combine a b).

(** prover_tracker.rs 363-405 with [evaluations] (440-444) unfolded at its recursive call (line 384). The recursion
    goes through the ids in virtual polynomials; running out of fuel stands for unbounded recursion. *)
Fixpoint materialize_loop (fuel : nat) (s : st) (id : nat) : res st :=
  match mget (pt_mat s) id with
  | Some _ => Ok s
  | None =>
      v <- ounwrap (mget (pt_virt s) id) ;;
      n <- virt_nv s v ;;
      ' (prods, s1) <- foldM (fun (acc : list (list (F p)) * st) (cp : F p * list nat) =>
            ' (r, s2) <- foldM (fun (rs : list (F p) * st) (i : nat) =>
                  match fuel with
                  | O => Panic
                  | S fuel' =>
                      s3 <- materialize_loop fuel' (snd rs) i ;;
                      a <- ounwrap (mget (pt_mat s3) i) ;;
                      Ok (zipw Fmul (fst rs) (evs (snd a)), s3)
                  end) (repeat (fst cp) (2 ^ n), snd acc) (snd cp) ;;
            Ok (fst acc ++ [r], s2)) ([], s) v ;;
      let ev := fold_left (fun e q => zipw Fadd e q) prods (repeat F0 (2 ^ n)) in
      m <- from_evaluations n ev ;;
      let '(a, s2) := new_arc s1 m in
      let s3 := put_mat s2 id a in
      Ok (mkPtrk (pt_pp s3) (pt_tr s3) (pt_next s3) (pt_mat s3) (mdel (pt_virt s3) id) (pt_comm s3) (pt_sc s3) (pt_zc s3) (pt_addr s3))
  end.
Definition materialize_poly (s : st) (id : nat) : res st := materialize_loop (S (length (pt_virt s))) s id.

(** prover_tracker.rs 440-444 *)
Definition evaluations (s : st) (id : nat) : res (list (F p) * st) :=
  s1 <- materialize_poly s id ;;
  a <- ounwrap (mget (pt_mat s1) id) ;;
  Ok (evs (snd a), s1).

(** prover_tracker.rs 345-352 and 354-361. [dmle_increase_nv_*] returns a clone of the same Arc when nothing is added. *)
Definition increase_nv (inc : mle p -> nat -> res (mle p)) (s : st) (id added : nat) : res (nat * st) :=
  s1 <- materialize_poly s id ;;
  a <- ounwrap (mget (pt_mat s1) id) ;;
  m <- inc (snd a) (nv (snd a) + added) ;;
  if added =? 0 then Ok (track_mat_arc_poly s1 a)
  else let '(b, s2) := new_arc s1 m in Ok (track_mat_arc_poly s2 b).
Definition increase_nv_front := increase_nv dmle_increase_nv_front.
Definition increase_nv_back := increase_nv dmle_increase_nv_back.

(** prover_tracker.rs 407-438; [None] is the answer for a point of the wrong length. *)
Fixpoint evaluate_loop (fuel : nat) (s : st) (id : nat) (pt : list (F p)) : res (option (F p)) :=
  match mget (pt_mat s) id with
  | Some a => ark_evaluate (snd a) pt
  | None =>
      v <- ounwrap (mget (pt_virt s) id) ;;
      ts <- mapM (fun cp : F p * list nat =>
              foldM (fun (r : F p) (i : nat) =>
                match fuel with
                | O => Panic
                | S fuel' => x <- evaluate_loop fuel' s i pt ;; y <- ounwrap x ;; Ok (r * y)%F
                end) (fst cp) (snd cp)) v ;;
      Ok (Some (fold_left Fadd ts F0))
  end.
Definition evaluate (s : st) (id : nat) (pt : list (F p)) : res (option (F p)) := evaluate_loop (S (length (pt_virt s))) s id pt.

(** prover_tracker.rs 446-448 *)
Definition pt_challenge (o : oracle p (gcar (PG1 E))) (l : string) (s : st) : res (F p * st) :=
  ' (c, t) <- drawT o l (pt_tr s) ;; Ok (c, set_tr s t).

(** prover_tracker.rs 458-463 *)
Definition add_sumcheck_claim (s : st) (id : nat) (c : F p) : st :=
  mkPtrk (pt_pp s) (pt_tr s) (pt_next s) (pt_mat s) (pt_virt s) (pt_comm s) (pt_sc s ++ [(id, c)]) (pt_zc s) (pt_addr s).
Definition add_zerocheck_claim (s : st) (id : nat) : st :=
  mkPtrk (pt_pp s) (pt_tr s) (pt_next s) (pt_mat s) (pt_virt s) (pt_comm s) (pt_sc s) (pt_zc s ++ [id]) (pt_addr s).

(** prover_tracker.rs 465-486 *)
Definition to_arithmatic_virtual_poly (s : st) (id : nat) : res (vp p) :=
  match mget (pt_mat s) id with
  | Some a => Ok (vp_new_from_mle a F1)
  | None =>
      v <- ounwrap (mget (pt_virt s) id) ;;
      n <- virt_nv s v ;;
      foldM (fun (w : vp p) (cp : F p * list nat) =>
        l <- mapM (fun i => ounwrap (mget (pt_mat s) i)) (snd cp) ;;
        match add_mle_list w l (fst cp) with
        | (w', Ok _) => Ok w'
        | _ => Panic
        end) (vp_new n) v
  end.

(** prover_tracker.rs 491-515 *)
Definition equalize_materialized_poly_nv (s : st) : res (nat * st) :=
  n <- (match pt_mat s with [] => Panic | _ => Ok (fold_right Nat.max 0 (map (fun e => nv (snd (snd e))) (pt_mat s))) end) ;;
  s1 <- foldM (fun (s : st) (e : nat * arc p) =>
          if nv (snd (snd e)) =? n then Ok s
          else m <- dmle_increase_nv_back (snd (snd e)) n ;;
               let '(a, s') := new_arc s m in Ok (put_mat s' (fst e) a)) s (pt_mat s) ;;
  ' (sums, s2) <- foldM (fun (acc : list (nat * F p) * st) (cl : nat * F p) =>
          ' (ev, s') <- evaluations (snd acc) (fst cl) ;;
          Ok (fst acc ++ [(fst cl, fold_left Fadd ev F0)], s')) ([], s1) (pt_sc s1) ;;
  Ok (n, mkPtrk (pt_pp s2) (pt_tr s2) (pt_next s2) (pt_mat s2) (pt_virt s2) (pt_comm s2) sums (pt_zc s2) (pt_addr s2)).

(** The table of the zero polynomial (lines 519, 553). *)
Definition zero_mle (n : nat) : res (mle p) := from_evaluations n (repeat F0 (2 ^ n)).

(** prover_tracker.rs 517-537 *)
Definition convert_zerocheck_claims (o : oracle p (gcar (PG1 E))) (n : nat) (s : st) : res st :=
  z <- zero_mle n ;;
  let '(agg0, s0) := track_mat_poly s z in
  ' (agg, s1) <- foldM (fun (acc : nat * st) (cl : nat) =>
        ' (c, s') <- unwrap (pt_challenge o "zerocheck challenge" (snd acc)) ;;
        ' (id, s'') <- mul_scalar s' cl c ;;
        add_polys s'' (fst acc) id) (agg0, s0) (pt_zc s0) ;;
  ' (r, t) <- unwrap (draw_vecT o "0check r" n (pt_tr s1)) ;;
  let s2 := set_tr s1 t in
  eq <- unwrap (build_eq_x_r r) ;;
  let '(eqid, s3) := track_mat_poly s2 eq in
  ' (id, s4) <- mul_polys s3 agg eqid ;;
  Ok (add_sumcheck_claim s4 id F0).

(** Lines 552-560: aggregation of the sum-check claims. *)
Definition aggregate_sumcheck_claims (o : oracle p (gcar (PG1 E))) (n : nat) (s : st) : res (nat * F p * st) :=
  z <- zero_mle n ;;
  let '(agg0, s0) := track_mat_poly s z in
  foldM (fun (acc : nat * F p * st) (cl : nat * F p) =>
        let '(agg, sum, s) := acc in
        ' (c, s') <- unwrap (pt_challenge o "sumcheck challenge" s) ;;
        ' (id, s'') <- mul_scalar s' (fst cl) c ;;
        ' (agg', s''') <- add_polys s'' agg id ;;
        Ok (agg', (sum + snd cl * c)%F, s''')) (agg0, F0, s0) (pt_sc s0).

(** prover_tracker.rs 540-624. [debug] is cfg(debug_assertions); [sc], [sc'] are the schedules of the two sum checks and
    [addr] the addresses of the tables allocated by multi_open. *)
Definition compile_proof (o : oracle p (gcar (PG1 E))) (sc sc' : nat -> nat -> sched) (addr : nat -> nat) (debug : bool) (s : st)
  : res (cproof E * st) :=
  ' (n, s1) <- equalize_materialized_poly_nv s ;;
  s2 <- convert_zerocheck_claims o n s1 ;;
  ' (agg, sum, s3) <- aggregate_sumcheck_claims o n s2 ;;
  s4 <- (if debug then
           ' (ev, s') <- evaluations s3 agg ;;
           _ <- ensure (Feqb (fold_left Fadd ev F0) sum) IOPInvalidProver ;;
           Ok s'
         else Ok s3) ;;
  v <- to_arithmatic_virtual_poly s4 agg ;;
  ' (pf, t) <- unwrap (sc_prove o sc v (pt_tr s4)) ;;
  let s5 := set_tr s4 t in
  let ids := sort_ids (map fst (pt_comm s5)) in
  polys <- mapM (fun id => a <- ounwrap (mget (pt_mat s5) id) ;; Ok (snd a)) ids ;;
  evals <- mapM (fun m => x <- ark_evaluate m (pf_point pf) ;; ounwrap x) polys ;;
  let points := map (fun _ => pf_point pf) ids in
  ' (bp, t') <- map_err (multi_open o sc' addr (pt_pp s5) polys points evals (pt_tr s5)) IOPInvalidProver ;;
  let s6 := set_tr s5 t' in
  Ok (mkCproof (pt_comm s6) (fold_left (fun m (cl : nat * F p) => mput m (fst cl) (snd cl)) (pt_sc s6) [])
        pf (max_degree v) (num_variables v) (map (fun id => ((id, pf_point pf), F0)) ids) [bp], s6).

(** ** prover_wrapper.rs: handles. All handles below belong to the one tracker [s]; [assert_same_tracker] always holds. *)
(** prover_wrapper.rs 140-144 *)
Record tpoly : Type := mkTp { tp_id : nat; tp_nv : nat }.

(** prover_wrapper.rs 50-58 *)
Definition tp_track (s : st) (m : mle p) : tpoly * st :=
  let '(id, s') := track_mat_poly s m in (mkTp id (nv m), s').
(** prover_wrapper.rs 60-68 *)
Definition tp_commit (s : st) (m : mle p) : res (tpoly * st) :=
  ' (id, s') <- track_and_commit_mat_poly s m ;; Ok (mkTp id (nv m), s').
(** prover_wrapper.rs 168-190 *)
Definition tp_bin (f : st -> nat -> nat -> res (nat * st)) (s : st) (a b : tpoly) : res (tpoly * st) :=
  _ <- rassert (tp_nv a =? tp_nv b) ;;
  ' (id, s') <- f s (tp_id a) (tp_id b) ;; Ok (mkTp id (tp_nv a), s').
Definition tp_add := tp_bin add_polys.
Definition tp_sub := tp_bin sub_polys.
Definition tp_mul := tp_bin mul_polys.
(** prover_wrapper.rs 192-202 *)
Definition tp_add_scalar (s : st) (a : tpoly) (c : F p) : res (tpoly * st) :=
  ' (id, s') <- add_scalar s (tp_id a) c ;; Ok (mkTp id (tp_nv a), s').
Definition tp_mul_scalar (s : st) (a : tpoly) (c : F p) : res (tpoly * st) :=
  ' (id, s') <- mul_scalar s (tp_id a) c ;; Ok (mkTp id (tp_nv a), s').
(** prover_wrapper.rs 204-214 *)
Definition tp_front (s : st) (a : tpoly) (k : nat) : res (tpoly * st) :=
  ' (id, s') <- increase_nv_front s (tp_id a) k ;; Ok (mkTp id (tp_nv a + k), s').
Definition tp_back (s : st) (a : tpoly) (k : nat) : res (tpoly * st) :=
  ' (id, s') <- increase_nv_back s (tp_id a) k ;; Ok (mkTp id (tp_nv a + k), s').
(** prover_wrapper.rs 216-225 *)
Definition tp_evaluate (s : st) (a : tpoly) (pt : list (F p)) : res (option (F p)) := evaluate s (tp_id a) pt.
Definition tp_evaluations (s : st) (a : tpoly) : res (list (F p) * st) := evaluations s (tp_id a).
End P.
