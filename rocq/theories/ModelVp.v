(** Model of /repo/src/arithmetic/virtual_polynomial.rs. *)
From Coq Require Import List Arith Lia Bool ZArith.
Import ListNotations.
From Verif Require Import Res Fp FSum ModelMle.

(** [Arc<DenseMultilinearExtension<F>>]: an address and the table stored there.
    [Arc::as_ptr] is the address. *)
Definition arc (p : positive) : Type := (nat * mle p)%type.

(** virtual_polynomial.rs 50-60 and 64-72. [raw_pointers_lookup_table] is an association list. *)
Record vp (p : positive) : Type := mkVp {
  max_degree : nat;
  num_variables : nat;
  products : list (F p * list nat);
  flat : list (arc p);
  lookup : list (nat * nat)
}.
Arguments mkVp {p} max_degree num_variables products flat lookup.
Arguments max_degree {p} v.
Arguments num_variables {p} v.
Arguments products {p} v.
Arguments flat {p} v.
Arguments lookup {p} v.

(** [HashMap::get] on the pointer table. *)
Fixpoint ptr_get (t : list (nat * nat)) (a : nat) : option nat :=
  match t with
  | [] => None
  | (b, i) :: r => if a =? b then Some i else ptr_get r a
  end.

(** virtual_polynomial.rs 97-108 *)
Definition vp_new {p} (n : nat) : vp p := mkVp 0 n [] [] [].

(** virtual_polynomial.rs 111-128 *)
Definition vp_new_from_mle {p} (m : arc p) (c : F p) : vp p :=
  mkVp 1 (nv (snd m)) [(c, [0])] [m] [(fst m, 0)].

(** virtual_polynomial.rs 152-169: the loop over the multiplicands. The state is returned also when
    the loop stops with an error, since the struct has been changed by then. *)
Fixpoint add_loop {p} (v : vp p) (l : list (arc p)) (idx : list nat) : vp p * res (list nat) :=
  match l with
  | [] => (v, Ok idx)
  | m :: r =>
      if negb (nv (snd m) =? num_variables v) then (v, Err ArithInvalidParameters)
      else match ptr_get (lookup v) (fst m) with
           | Some i => add_loop v r (idx ++ [i])
           | None =>
               let i := length (flat v) in
               add_loop (mkVp (max_degree v) (num_variables v) (products v) (flat v ++ [m])
                              ((fst m, i) :: lookup v)) r (idx ++ [i])
           end
  end.

(** virtual_polynomial.rs 136-172 *)
Definition add_mle_list {p} (v : vp p) (l : list (arc p)) (c : F p) : vp p * res unit :=
  match l with
  | [] => (v, Err ArithInvalidParameters)
  | _ =>
      let v1 := mkVp (Nat.max (max_degree v) (length l)) (num_variables v) (products v) (flat v) (lookup v) in
      match add_loop v1 l [] with
      | (v2, Ok idx) =>
          (mkVp (max_degree v2) (num_variables v2) (products v2 ++ [(c, idx)]) (flat v2) (lookup v2), Ok tt)
      | (v2, Err e) => (v2, Err e)
      | (v2, Panic) => (v2, Panic)
      end
  end.

(** virtual_polynomial.rs 178-216: the size check comes first, so an error leaves the struct unchanged. *)
Definition mul_by_mle {p} (v : vp p) (m : arc p) (c : F p) : res (vp p) :=
  if negb (nv (snd m) =? num_variables v) then Err ArithInvalidParameters
  else
    let '(i, fl, lk) :=
      match ptr_get (lookup v) (fst m) with
      | Some i => (i, flat v, lookup v)
      | None => (length (flat v), flat v ++ [m], (fst m, length (flat v)) :: lookup v)
      end in
    Ok (mkVp (max_degree v + 1) (num_variables v)
             (map (fun cp => ((fst cp * c)%F, snd cp ++ [i])) (products v)) fl lk).

(** virtual_polynomial.rs 74-92: [flattened_ml_extensions[x]] panics out of range, [expect] panics on an error. *)
Definition vp_add {p} (v w : vp p) : res (vp p) :=
  foldM (fun acc cp =>
    cur <- mapM (rnth (flat w)) (snd cp) ;;
    match add_mle_list acc cur (fst cp) with
    | (acc', Ok _) => Ok acc'
    | _ => Panic
    end) v (products w).

(** virtual_polynomial.rs 220-249 *)
Definition vp_evaluate {p} (v : vp p) (pt : list (F p)) : res (F p) :=
  _ <- ensure (num_variables v =? length pt) ArithInvalidParameters ;;
  evals <- mapM (fun m => o <- ark_evaluate (snd m) pt ;; ounwrap o) (flat v) ;;
  terms <- mapM (fun cp => fs <- mapM (rnth evals) (snd cp) ;; Ok (fst cp * iprod fs)%F) (products v) ;;
  Ok (isum terms).

(** virtual_polynomial.rs 301-318; [a] is the address at which [Arc::new] puts the eq table (line 380). *)
Definition build_f_hat {p} (v : vp p) (r : list (F p)) (a : nat) : res (vp p) :=
  _ <- ensure (num_variables v =? length r) ArithInvalidParameters ;;
  eq <- build_eq_x_r r ;;
  mul_by_mle v (a, eq) F1.

(** virtual_polynomial.rs 333-346 *)
Definition vp_materialize {p} (v : vp p) : res (mle p) :=
  ev <- mapM (fun pt =>
          terms <- mapM (fun cp =>
              fs <- mapM (fun i => m <- rnth (flat v) i ;; rnth (evs (snd m)) pt) (snd cp) ;;
              Ok (fst cp * iprod fs)%F) (products v) ;;
          Ok (isum terms))
        (seq 0 (2 ^ num_variables v)) ;;
  from_evaluations (num_variables v) ev.

(** ** Random generators. The rng is an arbitrary state machine: [rand_f] stands for [F::rand],
    [rand_u64] for [next_u64], [rand_range lo hi] for [gen_range(lo..hi)]. *)
Record rng (p : positive) (R : Type) : Type := mkRng {
  rand_f : R -> F p * R;
  rand_u64 : R -> nat * R;
  rand_range : nat -> nat -> R -> nat * R;
  alloc : R -> nat * R      (* the allocator used by [Arc::new] *)
}.
Arguments rand_f {p R} r.
Arguments rand_u64 {p R} r.
Arguments rand_range {p R} r.
Arguments alloc {p R} r.

(** multilinear_polynomial.rs 36-40 : one value for each multiplicand. *)
Fixpoint push_rand {p R} (g : rng p R) (ms : list (list (F p))) (prod : F p) (s : R)
  : list (list (F p)) * F p * R :=
  match ms with
  | [] => ([], prod, s)
  | e :: r =>
      let '(v, s1) := rand_f g s in
      let '(r', prod', s2) := push_rand g r (prod * v)%F s1 in
      ((e ++ [v]) :: r', prod', s2)
  end.

(** multilinear_polynomial.rs 33-42 *)
Fixpoint random_rows {p R} (g : rng p R) (k : nat) (ms : list (list (F p))) (sum : F p) (s : R)
  : list (list (F p)) * F p * R :=
  match k with
  | O => (ms, sum, s)
  | S k' => let '(ms', prod, s') := push_rand g ms F1 s in random_rows g k' ms' (sum + prod)%F s'
  end.

(** [Arc::new(from_evaluations_vec(nv, x))] over a list, 44-47 and 72-75. *)
Fixpoint to_arcs {p R} (g : rng p R) (n : nat) (ms : list (list (F p))) (s : R) : res (list (arc p) * R) :=
  match ms with
  | [] => Ok ([], s)
  | x :: r =>
      m <- from_evaluations n x ;;
      let '(a, s1) := alloc g s in
      ' (l, s2) <- to_arcs g n r s1 ;;
      Ok ((a, m) :: l, s2)
  end.

(** multilinear_polynomial.rs 21-51 *)
Definition random_mle_list {p R} (g : rng p R) (n degree : nat) (s : R) : res (list (arc p) * F p * R) :=
  let '(ms, sum, s1) := random_rows g (2 ^ n) (repeat [] degree) F0 s in
  ' (l, s2) <- to_arcs g n ms s1 ;;
  Ok (l, sum, s2).

(** multilinear_polynomial.rs 65-70; [multiplicands[0]] panics when degree is 0. *)
Fixpoint random_zero_rows {p R} (g : rng p R) (k : nat) (ms : list (list (F p))) (s : R)
  : res (list (list (F p)) * R) :=
  match k with
  | O => Ok (ms, s)
  | S k' =>
      match ms with
      | [] => Panic
      | e :: r => let '(r', _, s') := push_rand g r F1 s in random_zero_rows g k' ((e ++ [F0]) :: r') s'
      end
  end.

(** multilinear_polynomial.rs 54-79 *)
Definition random_zero_mle_list {p R} (g : rng p R) (n degree : nat) (s : R) : res (list (arc p) * R) :=
  ' (ms, s1) <- random_zero_rows g (2 ^ n) (repeat [] degree) s ;;
  to_arcs g n ms s1.

(** virtual_polynomial.rs 262-269: the loop; [gen_range] panics on an empty range. *)
Fixpoint vp_rand_loop {p R} (g : rng p R) (n lo hi k : nat) (v : vp p) (sum : F p) (s : R)
  : res (vp p * F p * R) :=
  match k with
  | O => Ok (v, sum, s)
  | S k' =>
      _ <- rassert (lo <? hi) ;;
      let '(d, s1) := rand_range g lo hi s in
      ' (l, ps, s2) <- random_mle_list g n d s1 ;;
      let '(c, s3) := rand_f g s2 in
      match add_mle_list v l c with
      | (v', Ok _) => vp_rand_loop g n lo hi k' v' (sum + ps * c)%F s3
      | (_, Err e) => Err e
      | (_, Panic) => Panic
      end
  end.

(** virtual_polynomial.rs 252-273 *)
Definition vp_rand {p R} (g : rng p R) (n lo hi k : nat) (s : R) : res (vp p * F p * R) :=
  vp_rand_loop g n lo hi k (vp_new n) F0 s.

(** virtual_polynomial.rs 284-290 *)
Fixpoint vp_rand_zero_loop {p R} (g : rng p R) (n lo hi k : nat) (v : vp p) (s : R) : res (vp p * R) :=
  match k with
  | O => Ok (v, s)
  | S k' =>
      _ <- rassert (lo <? hi) ;;
      let '(d, s1) := rand_range g lo hi s in
      ' (l, s2) <- random_zero_mle_list g n d s1 ;;
      let '(c, s3) := rand_f g s2 in
      match add_mle_list v l c with
      | (v', Ok _) => vp_rand_zero_loop g n lo hi k' v' s3
      | (_, Err e) => Err e
      | (_, Panic) => Panic
      end
  end.

(** virtual_polynomial.rs 277-293 *)
Definition vp_rand_zero {p R} (g : rng p R) (n lo hi k : nat) (s : R) : res (vp p * R) :=
  vp_rand_zero_loop g n lo hi k (vp_new n) s.

(** multilinear_polynomial.rs 81-84 *)
Definition identity_permutation {p} (num_vars num_chunks : nat) : list (F p) :=
  map ofN (seq 0 (num_chunks * 2 ^ num_vars)).

(** multilinear_polynomial.rs 87-100 *)
Definition identity_permutation_mles {p} (num_vars num_chunks : nat) : res (list (mle p)) :=
  mapM (fun i => from_evaluations num_vars (map ofN (seq (i * 2 ^ num_vars) (2 ^ num_vars)))) (seq 0 num_chunks).

(** [Vec::remove(i)] *)
Fixpoint remove_nth {A} (i : nat) (l : list A) : list A :=
  match l, i with
  | [], _ => []
  | _ :: r, O => r
  | x :: r, S j => x :: remove_nth j r
  end.

(** multilinear_polynomial.rs 110-113: [% 0] cannot happen inside the loop; out-of-range removal would panic. *)
Fixpoint perm_loop {p R} (g : rng p R) (k : nat) (ids : list (F p)) (s : R) : res (list (F p) * R) :=
  match k with
  | O => Ok ([], s)
  | S k' =>
      _ <- rassert (negb (length ids =? 0)) ;;
      let '(u, s1) := rand_u64 g s in
      let i := u mod length ids in
      x <- rnth ids i ;;
      ' (r, s2) <- perm_loop g k' (remove_nth i ids) s1 ;;
      Ok (x :: r, s2)
  end.

(** multilinear_polynomial.rs 102-115 *)
Definition random_permutation {p R} (g : rng p R) (num_vars num_chunks : nat) (s : R) : res (list (F p) * R) :=
  perm_loop g (num_chunks * 2 ^ num_vars) (identity_permutation num_vars num_chunks) s.

(** multilinear_polynomial.rs 118-133 *)
Definition random_permutation_mles {p R} (g : rng p R) (num_vars num_chunks : nat) (s : R)
  : res (list (mle p) * R) :=
  ' (v, s1) <- random_permutation g num_vars num_chunks s ;;
  let n := 2 ^ num_vars in
  ms <- mapM (fun i =>
          a <- slice_to v (i * n + n) ;;
          from_evaluations num_vars (skipn (i * n) a)) (seq 0 num_chunks) ;;
  Ok (ms, s1).
