(** Model of /repo/src/arithmetic/multilinear_polynomial.rs, /repo/src/arithmetic/util.rs,
    the table functions of /repo/src/arithmetic/virtual_polynomial.rs,
    /repo/src/tracker/dmle_utils.rs and /repo/src/subroutines/pcs/multilinear_kzg/util.rs. *)
From Coq Require Import List Arith Lia Bool ZArith.
Import ListNotations.
From Verif Require Import Res Fp FSum.

(** ark-poly [DenseMultilinearExtension]: number of variables and evaluations
    (external crate; re-exported by multilinear_polynomial.rs 15). *)
Record mle (p : positive) : Type := mkMle { nv : nat; evs : list (F p) }.
Arguments mkMle {p} nv evs.
Arguments nv {p} m.
Arguments evs {p} m.

(** The invariant established by the ark constructor below. *)
Definition wf_mle {p} (m : mle p) : Prop := length (evs m) = 2 ^ nv m.

(** ark-poly [from_evaluations_vec]/[from_evaluations_slice]: asserts the length
    (used throughout, e.g. multilinear_polynomial.rs 156). *)
Definition from_evaluations {p} (n : nat) (l : list (F p)) : res (mle p) :=
  if length l =? 2 ^ n then Ok (mkMle n l) else Panic.

(** multilinear_polynomial.rs 159-174, the [parallel] branch (default feature): line 170.
    [1 << (nv - 1)] underflows for nv = 0; callers never pass 0. The parallel
    for_each writes each entry once, so it is a map. *)
Definition fix_one_variable_helper {p} (data : list (F p)) (n : nat) (pt : F p) : res (list (F p)) :=
  mapM (fun i => a <- rnth data (2 * i) ;; b <- rnth data (2 * i + 1) ;;
                 Ok (a + (b - a) * pt)%F)
       (seq 0 (2 ^ (n - 1))).

(** multilinear_polynomial.rs 163-166, the branch compiled without the [parallel] feature. *)
Definition fix_one_variable_helper_seq {p} (data : list (F p)) (n : nat) (pt : F p) : res (list (F p)) :=
  mapM (fun i => d <- rnth data i ;; a <- rnth data (2 * i) ;; b <- rnth data (2 * i + 1) ;;
                 Ok (d + (b - a) * pt)%F)
       (seq 0 (2 ^ (n - 1))).

(** multilinear_polynomial.rs 152-154: the loop over the partial point; [n] is [nv - i]. *)
Fixpoint fix_loop {p} (data : list (F p)) (n : nat) (pts : list (F p)) : res (list (F p)) :=
  match pts with
  | [] => Ok data
  | r :: rs => d <- fix_one_variable_helper data n r ;; fix_loop d (n - 1) rs
  end.

(** multilinear_polynomial.rs 140-157 *)
Definition fix_variables {p} (m : mle p) (pts : list (F p)) : res (mle p) :=
  _ <- rassert (length pts <=? nv m) ;;
  d <- fix_loop (evs m) (nv m) pts ;;
  s <- slice_to d (2 ^ (nv m - length pts)) ;;
  from_evaluations (nv m - length pts) s.

(** multilinear_polynomial.rs 135-138 *)
Definition evaluate_opt {p} (m : mle p) (pt : list (F p)) : res (F p) :=
  _ <- rassert (nv m =? length pt) ;;
  q <- fix_variables m pt ;;
  rnth (evs q) 0.

(** multilinear_polynomial.rs 195-197: in-place inner loop over b. *)
Definition inplace_step {p} (r : F p) (buf : list (F p)) (b : nat) : res (list (F p)) :=
  lo <- rnth buf (2 * b) ;; hi <- rnth buf (2 * b + 1) ;;
  rupd buf b (lo + (hi - lo) * r)%F.

(** multilinear_polynomial.rs 193-198: outer loop; [n] is [nv - i + 1]. *)
Fixpoint inplace_loop {p} (buf : list (F p)) (n : nat) (pts : list (F p)) : res (list (F p)) :=
  match pts with
  | [] => Ok buf
  | r :: rs => buf' <- foldM (inplace_step r) buf (seq 0 (2 ^ (n - 1))) ;; inplace_loop buf' (n - 1) rs
  end.

(** multilinear_polynomial.rs 181-200 *)
Definition fix_variables_no_par {p} (m : mle p) (pts : list (F p)) : res (mle p) :=
  _ <- rassert (length pts <=? nv m) ;;
  d <- inplace_loop (evs m) (nv m) pts ;;
  s <- slice_to d (2 ^ (nv m - length pts)) ;;
  from_evaluations (nv m - length pts) s.

(** multilinear_polynomial.rs 176-179 *)
Definition evaluate_no_par {p} (m : mle p) (pt : list (F p)) : res (F p) :=
  _ <- rassert (nv m =? length pt) ;;
  q <- fix_variables_no_par m pt ;;
  rnth (evs q) 0.

(** ark-poly [DenseMultilinearExtension::evaluate] (external, called at
    virtual_polynomial.rs 235 and prover_tracker.rs 411, 586): [None] on a point of the
    wrong length, otherwise entry 0 after fixing all variables with the same loop. *)
Definition ark_evaluate {p} (m : mle p) (pt : list (F p)) : res (option (F p)) :=
  if nv m =? length pt then
    q <- fix_variables_no_par m pt ;; v <- rnth (evs q) 0 ;; Ok (Some v)
  else Ok None.

(** multilinear_polynomial.rs 270-286 (parallel branch 281-283; the sequential branch 276-278 is the same). *)
Definition fix_last_variable_helper {p} (data : list (F p)) (n : nat) (pt : F p) : res (list (F p)) :=
  mapM (fun i => a <- rnth data i ;; b <- rnth data (i + 2 ^ (n - 1)) ;;
                 Ok (a + (b - a) * pt)%F)
       (seq 0 (2 ^ (n - 1))).

(** multilinear_polynomial.rs 263-265: loop over the reversed partial point. *)
Fixpoint fix_last_loop {p} (data : list (F p)) (n : nat) (rpts : list (F p)) : res (list (F p)) :=
  match rpts with
  | [] => Ok data
  | r :: rs => d <- fix_last_variable_helper data n r ;; fix_last_loop d (n - 1) rs
  end.

(** multilinear_polynomial.rs 251-268 *)
Definition fix_last_variables {p} (m : mle p) (pts : list (F p)) : res (mle p) :=
  _ <- rassert (length pts <=? nv m) ;;
  d <- fix_last_loop (evs m) (nv m) (rev pts) ;;
  s <- slice_to d (2 ^ (nv m - length pts)) ;;
  from_evaluations (nv m - length pts) s.

(** multilinear_polynomial.rs 238-250. [nv - 1] underflows (panics) for nv = 0. *)
Definition fix_last_variable_no_par {p} (m : mle p) (pt : F p) : res (mle p) :=
  _ <- rassert (1 <=? nv m) ;;
  d <- mapM (fun i => a <- rnth (evs m) i ;; b <- rnth (evs m) (i + 2 ^ (nv m - 1)) ;;
                      Ok (a + pt * (b - a))%F)
            (seq 0 (2 ^ (nv m - 1))) ;;
  from_evaluations (nv m - 1) d.

(** multilinear_polynomial.rs 227-236: [last().unwrap()] panics on an empty point. *)
Definition fix_last_variables_no_par {p} (m : mle p) (pts : list (F p)) : res (mle p) :=
  match rev pts with
  | [] => Panic
  | r :: rs => q <- fix_last_variable_no_par m r ;; foldM fix_last_variable_no_par q rs
  end.

(** util.rs 11-19 (same text: virtual_polynomial.rs 449-457, dmle_utils.rs 11-19); [u64] input. *)
Fixpoint bit_decompose (input num_var : nat) : list bool :=
  match num_var with
  | O => []
  | S n => Nat.odd input :: bit_decompose (Nat.div2 input) n
  end.

(** util.rs 58-65 *)
Definition project (input : list bool) : nat :=
  fold_left (fun r (e : bool) => 2 * r + (if e then 1 else 0)) (rev input) 0.

(** util.rs 46-54: slicing [..num_vars - 1] and indexing panic for num_vars = 0. *)
Definition get_index (i num_vars : nat) : res (nat * nat * bool) :=
  _ <- rassert (1 <=? num_vars) ;;
  let bs := bit_decompose i num_vars in
  pre <- slice_to bs (num_vars - 1) ;;
  sgn <- rnth bs (num_vars - 1) ;;
  Ok (project (false :: pre), project (true :: pre), sgn).

(** util.rs 23-29; [F::from(bool)]. *)
Definition gen_eval_point {p} (index index_len : nat) (pt : list (F p)) : list (F p) :=
  pt ++ map (fun b : bool => if b then F1 else F0) (bit_decompose index index_len).

(** util.rs 34-36; ark-std [log2] rounds up and is 0 on 0 and 1. *)
Definition get_batched_nv (num_var polynomials_len : nat) : nat :=
  num_var + Nat.log2_up polynomials_len.

(** multilinear_polynomial.rs 204-225; [polynomials[0]] panics on an empty slice;
    [(1 << merged_nv) - scalars.len()] underflows (panics) when there are too many scalars. *)
Definition merge_polynomials {p} (polys : list (mle p)) : res (mle p) :=
  first <- rnth polys 0 ;;
  _ <- ensure (forallb (fun q => nv first =? nv q) polys) ArithInvalidParameters ;;
  let merged_nv := get_batched_nv (nv first) (length polys) in
  let scalars := concat (map evs polys) in
  _ <- rassert (length scalars <=? 2 ^ merged_nv) ;;
  from_evaluations merged_nv (scalars ++ repeat F0 (2 ^ merged_nv - length scalars)).

(** virtual_polynomial.rs 352-366 (same text: dmle_utils.rs 88-100; kzg util.rs 37-51 up to the error type):
    the loop over zipped coordinates. *)
Definition eq_eval_loop {p} (xy : list (F p * F p)) : F p :=
  fold_left (fun acc t => let '(xi, yi) := t in
     let xi_yi := (xi * yi)%F in (acc * (xi_yi + xi_yi - xi - yi + F1))%F) xy F1.

(** virtual_polynomial.rs 352-366 *)
Definition eq_eval {p} (x y : list (F p)) : res (F p) :=
  _ <- ensure (length x =? length y) ArithInvalidParameters ;;
  Ok (eq_eval_loop (combine x y)).

(** kzg util.rs 37-51: same computation, PCS error. *)
Definition kzg_eq_eval {p} (x y : list (F p)) : res (F p) :=
  _ <- ensure (length x =? length y) PCSInvalidParameters ;;
  Ok (eq_eval_loop (combine x y)).

(** virtual_polynomial.rs 410-446: recursion on r[1..]; the table doubles (432-442). *)
Fixpoint build_eq_x_r_helper {p} (r : list (F p)) : res (list (F p)) :=
  match r with
  | [] => Err ArithInvalidParameters
  | [r0] => Ok [(F1 - r0)%F; r0]
  | r0 :: rest =>
      buf <- build_eq_x_r_helper rest ;;
      mapM (fun i => bi <- rnth buf (Nat.div2 i) ;;
              let tmp := (r0 * bi)%F in
              Ok (if Nat.even i then (bi - tmp)%F else tmp))
           (seq 0 (2 * length buf))
  end.

(** virtual_polynomial.rs 389-405 *)
Definition build_eq_x_r_vec {p} (r : list (F p)) : res (list (F p)) := build_eq_x_r_helper r.

(** virtual_polynomial.rs 374-381 and dmle_utils.rs 78-85 *)
Definition build_eq_x_r {p} (r : list (F p)) : res (mle p) :=
  evals <- build_eq_x_r_vec r ;; from_evaluations (length r) evals.

(** kzg util.rs 17-34: one table per coordinate, each a loop over all 2^dim indices. *)
Definition eq_extension {p} (t : list (F p)) : list (mle p) :=
  let dim := length t in
  map (fun i =>
    let ti := nth i t F0 in
    mkMle dim (map (fun x =>
        let xi := if Nat.testbit x i then F1 else F0 in
        let ti_xi := (ti * xi)%F in (ti_xi + ti_xi - xi - ti + F1)%F)
      (seq 0 (2 ^ dim))))
   (seq 0 dim).

(** dmle_utils.rs 28-47: each evaluation is repeated num_copies times. *)
Definition dmle_increase_nv_front {p} (m : mle p) (new_nv : nat) : res (mle p) :=
  if nv m =? new_nv then Ok m
  else if new_nv <? nv m then Panic
  else
    let old_len := 2 ^ nv m in
    let new_len := 2 ^ new_nv in
    let num_copies := new_len / old_len in
    chunks <- mapM (fun i => e <- rnth (evs m) i ;; Ok (repeat e num_copies)) (seq 0 old_len) ;;
    from_evaluations new_nv (concat chunks).

(** dmle_utils.rs 63-68: [evals.resize(new_len, 0)] then
    [evals[i] = evals[i % old_len]] for i in old_len..new_len. *)
Definition vec_resize {p} (l : list (F p)) (n : nat) : list (F p) :=
  firstn n l ++ repeat F0 (n - length l).

(** dmle_utils.rs 51-69 *)
Definition dmle_increase_nv_back {p} (m : mle p) (new_nv : nat) : res (mle p) :=
  if nv m =? new_nv then Ok m
  else if new_nv <? nv m then Panic
  else
    let old_len := 2 ^ nv m in
    let new_len := 2 ^ new_nv in
    evals <- foldM (fun ev i => e <- rnth ev (i mod old_len) ;; rupd ev i e)
                   (vec_resize (evs m) new_len) (seq old_len (new_len - old_len)) ;;
    from_evaluations new_nv evals.

(** dmle_utils.rs 21-24 *)
Definition binary_decompose {p} (input num_var : nat) : list (F p) :=
  map (fun b : bool => ofN (if b then 1 else 0)) (bit_decompose input num_var).
