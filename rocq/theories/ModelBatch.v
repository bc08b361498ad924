(** Model of /repo/src/subroutines/pcs/multilinear_kzg/batching.rs. *)
From Coq Require Import String List Arith Bool ZArith.
Import ListNotations.
From Verif Require Import Res Fp FSum ModelMle ModelVp ModelTranscript ModelSumcheck Pairing ModelKzg.
Local Open Scope string_scope.
Local Open Scope list_scope.
Local Open Scope nat_scope.

(** ark-poly (external) [Zero] for [DenseMultilinearExtension]: no variables, one zero entry. *)
Definition mle_zero {p} : mle p := mkMle 0 [F0].
Definition mle_is_zero {p} (m : mle p) : res bool :=
  if nv m =? 0 then x <- rnth (evs m) 0 ;; Ok (Feqb x F0) else Ok false.

(** ark-poly [Add]: a constant zero is neutral, otherwise the numbers of variables must agree. *)
Definition mle_add {p} (a b : mle p) : res (mle p) :=
  zb <- mle_is_zero b ;;
  if zb then Ok a
  else
    za <- mle_is_zero a ;;
    if za then Ok b
    else
      _ <- rassert (nv a =? nv b) ;;
      from_evaluations (nv a) (map (fun xy : F p * F p => (fst xy + snd xy)%F) (combine (evs a) (evs b))).

(** ark-poly [AddAssign<(F, &Self)>]: [a += (c, b)]. *)
Definition mle_add_scaled {p} (a : mle p) (c : F p) (b : mle p) : res (mle p) :=
  mle_add a (mkMle (nv b) (map (fun x => (c * x)%F) (evs b))).

(** Equality of points (the [Ord] of the BTreeMap keys agrees with equality). *)
Fixpoint pt_eqb {p} (a b : list (F p)) : bool :=
  match a, b with
  | [], [] => true
  | x :: a', y :: b' => Feqb x y && pt_eqb a' b'
  | _, _ => false
  end.

(** batching.rs 82-92: the map from a point to the number of different points before its first occurrence,
    as the list of different points in that order. *)
Definition dedup_points {p} (points : list (list (F p))) : list (list (F p)) :=
  fold_left (fun acc pt => if existsb (pt_eqb pt) acc then acc else acc ++ [pt]) points [].

(** [point_indices[point]]; a missing key panics. *)
Fixpoint point_index {p} (dd : list (list (F p))) (pt : list (F p)) : res nat :=
  match dd with
  | [] => Panic
  | q :: r => if pt_eqb pt q then Ok 0 else i <- point_index r pt ;; Ok (S i)
  end.

(** batching.rs 102-106: one step of the fold. *)
Definition merge_step {p} (dd : list (list (F p))) (ms : list (mle p)) (x : (mle p * list (F p)) * F p) : res (list (mle p)) :=
  let '((poly, pt), coeff) := x in
  i <- point_index dd pt ;;
  m <- rnth ms i ;;
  m' <- mle_add_scaled m coeff poly ;;
  rupd ms i m'.

(** [add_mle_list(..)?]: the virtual polynomial is dropped on an error. *)
Definition add_listT {p} (v : vp p) (l : list (arc p)) (c : F p) : res (vp p) :=
  match add_mle_list v l c with
  | (v', Ok _) => Ok v'
  | (_, Err e) => Err e
  | (_, Panic) => Panic
  end.

(** batching.rs 28-38 *)
Record batch_proof {p} (E : pairing p) : Type := mkBatch {
  bp_sc : proof p; bp_evals : list (F p); bp_open : list (gcar (PG1 E)) }.
Arguments mkBatch {p E} bp_sc bp_evals bp_open.
Arguments bp_sc {p E} _.
Arguments bp_evals {p E} _.
Arguments bp_open {p E} _.

(** batching.rs 51-173. [addr] gives the addresses of the tables: 2i for the i-th merged polynomial, 2i+1 for the
    i-th eq table. [PCS] is the multilinear KZG scheme. *)
Definition multi_open {p C} {E : pairing p} (o : oracle p C) (sc : nat -> nat -> sched) (addr : nat -> nat) (pp : pparam E)
  (polys : list (mle p)) (points : list (list (F p))) (evals : list (F p)) (t : tr p C) : res (batch_proof E * tr p C) :=
  f0 <- rnth polys 0 ;;
  let num_var := nv f0 in
  let ell := Nat.log2_up (length polys) in
  ' (ts, t1) <- draw_vecT o "t" ell t ;;
  eq_t <- build_eq_x_r_vec ts ;;
  let dd := dedup_points points in
  merged <- foldM (merge_step dd) (repeat mle_zero (length dd)) (combine (combine polys points) eq_t) ;;
  tilde <- mapM (fun pt => e <- unwrap (build_eq_x_r_vec pt) ;; from_evaluations num_var e) dd ;;
  v <- foldM (fun (v : vp p) (ige : nat * (mle p * mle p)) =>
                let '(i, (g, e)) := ige in add_listT v [(addr (2 * i), g); (addr (2 * i + 1), e)] F1)
             (vp_new num_var) (combine (seq 0 (length dd)) (combine merged tilde)) ;;
  ' (pf, t2) <- map_err (sc_prove o sc v t1) PCSInvalidProver ;;
  a2 <- slice_to (pf_point pf) num_var ;;
  gp <- foldM (fun (g : mle p) (mq : mle p * list (F p)) => e <- kzg_eq_eval a2 (snd mq) ;; mle_add_scaled g e (fst mq))
              mle_zero (combine merged dd) ;;
  ' (opening, _) <- kzg_open pp gp a2 ;;
  Ok (mkBatch pf evals opening, t2).

(** batching.rs 215-219: the loop over the points; indices panic out of range. *)
Definition batch_terms {p} {E : pairing p} (a2 eq_t : list (F p)) (comms : list (gcar (PG1 E))) (points : list (list (F p)))
  : res (list (gcar (PG1 E) * F p)) :=
  mapM (fun ip : nat * list (F p) =>
          e <- kzg_eq_eval a2 (snd ip) ;;
          x <- rnth eq_t (fst ip) ;;
          c <- rnth comms (fst ip) ;;
          Ok (c, (e * x)%F)) (combine (seq 0 (length points)) points).

(** batching.rs 224-227 *)
Definition batch_sum {p} (eq_t evals : list (F p)) (k : nat) : res (F p) :=
  foldM (fun (s : F p) (ie : nat * F p) => v <- rnth evals (fst ie) ;; Ok (s + snd ie * v)%F)
        F0 (firstn k (combine (seq 0 (length eq_t)) eq_t)).

(** batching.rs 180-260 *)
Definition batch_verify {p C} {E : pairing p} (o : oracle p C) (vk : vparam E) (comms : list (gcar (PG1 E)))
  (points : list (list (F p))) (bp : batch_proof E) (t : tr p C) : res (bool * tr p C) :=
  let k := length comms in
  let num_var := length (pf_point (bp_sc bp)) in
  ' (ts, t1) <- draw_vecT o "t" (Nat.log2_up k) t ;;
  let a2 := pf_point (bp_sc bp) in
  eq_t <- build_eq_x_r_vec ts ;;
  terms <- batch_terms a2 eq_t comms points ;;
  let gc := msm (map fst terms) (map snd terms) in
  sum <- batch_sum eq_t (bp_evals bp) k ;;
  ' (sub, t2) <- map_err (sc_verify o sum (bp_sc bp) 2 num_var t1) PCSInvalidProver ;;
  b <- kzg_verify vk gc a2 (sub_eval sub) (bp_open bp) ;;
  Ok (b, t2).
