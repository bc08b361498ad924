(** C01-C07: tables, partial evaluation, merging, eq, bits, dummy variables. *)
From Coq Require Import List Arith ZArith Znumtheory Bool.
Import ListNotations.
From Verif Require Import Res Fp FSum SpecMle ModelMle MleLemmas MleProofs MleExtra.
Local Open Scope nat_scope.

(** A three-variable polynomial over F_13 used by the examples. *)
Definition ex_mle : mle 13 := mkMle 3 (map ofN [3; 1; 4; 1; 5; 9; 2; 6]).
Definition ex_pt : list (F 13) := map ofN [2; 5; 7].

(** C01 *)
Theorem C01_fix_variables : forall (p : positive) (f : mle p) (r : list (F p)),
  wf_mle f -> length r <= nv f ->
  exists q, fix_variables f r = Ok q /\ wf_mle q /\ nv q = nv f - length r /\
    forall x, mle_ext (nv q) (tab (evs q)) x = mle_ext (nv f) (tab (evs f)) (r ++ x).
Proof. exact @fix_variables_spec. Qed.
Print Assumptions C01_fix_variables.

(** The partial evaluation is determined by its values. *)
Theorem C01_fix_variables_unique : forall (p : positive) (f q q' : mle p) (r : list (F p)),
  wf_mle f -> fix_variables f r = Ok q -> wf_mle q' -> nv q' = nv f - length r ->
  (forall x, length x = nv q' -> mle_ext (nv q') (tab (evs q')) x = mle_ext (nv f) (tab (evs f)) (r ++ x)) ->
  q' = q.
Proof. exact @fix_variables_unique. Qed.
Print Assumptions C01_fix_variables_unique.

Theorem C01_evaluate : forall (p : positive) (f : mle p) (x : list (F p)),
  wf_mle f -> length x = nv f -> evaluate_opt f x = Ok (mle_ext (nv f) (tab (evs f)) x).
Proof. exact @evaluate_opt_spec. Qed.
Print Assumptions C01_evaluate.

(** Evaluation at a hypercube point reads the table. *)
Theorem C01_evaluate_boolean : forall (p : positive) (f : mle p) k,
  wf_mle f -> k < 2 ^ nv f -> evaluate_opt f (bpoint (nv f) k) = rnth (evs f) k.
Proof. exact @evaluate_opt_boolean. Qed.
Print Assumptions C01_evaluate_boolean.

Theorem C01_panics : forall (p : positive) (f : mle p) (x : list (F p)),
  (nv f < length x -> fix_variables f x = Panic) /\ (length x <> nv f -> evaluate_opt f x = Panic).
Proof. intros p f x. exact (conj (fix_variables_too_long f x) (evaluate_opt_wrong_length f x)). Qed.
Print Assumptions C01_panics.

Example C01_ex : wf_mle ex_mle /\ fix_variables ex_mle (map ofN [2; 5]) = Ok (mkMle 1 (map ofN [7; 11]))
  /\ evaluate_opt ex_mle ex_pt = Ok (ofN 9).
Proof. vm_compute. repeat split. Qed.

(** The variant compiled without the [parallel] feature does not satisfy C01. *)
Theorem C01_nonparallel_branch_refuted : exists (data : list (F 13)) r,
  length data = 4 /\ fix_one_variable_helper_seq data 2 r <> fix_one_variable_helper data 2 r.
Proof. exact fix_one_variable_helper_seq_wrong. Qed.
Print Assumptions C01_nonparallel_branch_refuted.

(** C02 *)
Theorem C02_no_par_agrees : forall (p : positive) (f : mle p) (x : list (F p)),
  wf_mle f -> evaluate_no_par f x = evaluate_opt f x.
Proof. exact @evaluate_no_par_same. Qed.
Print Assumptions C02_no_par_agrees.

Theorem C02_fix_no_par_agrees : forall (p : positive) (f : mle p) (x : list (F p)),
  wf_mle f -> fix_variables_no_par f x = fix_variables f x.
Proof. exact @fix_variables_no_par_same. Qed.
Print Assumptions C02_fix_no_par_agrees.

Example C02_ex : evaluate_no_par ex_mle ex_pt = Ok (ofN 9).
Proof. reflexivity. Qed.

(** C03 *)
Theorem C03_fix_last_variables : forall (p : positive) (f : mle p) (r : list (F p)),
  wf_mle f -> length r <= nv f ->
  exists q, fix_last_variables f r = Ok q /\ wf_mle q /\ nv q = nv f - length r /\
    forall x, length x = nv q -> mle_ext (nv q) (tab (evs q)) x = mle_ext (nv f) (tab (evs f)) (x ++ r).
Proof. exact @fix_last_variables_spec. Qed.
Print Assumptions C03_fix_last_variables.

Theorem C03_no_par_agrees : forall (p : positive) (f : mle p) (r : list (F p)),
  wf_mle f -> r <> [] -> length r <= nv f -> fix_last_variables_no_par f r = fix_last_variables f r.
Proof. exact @fix_last_variables_no_par_eq. Qed.
Print Assumptions C03_no_par_agrees.

Theorem C03_empty_point : forall (p : positive) (f : mle p),
  wf_mle f -> fix_last_variables f [] = Ok f /\ fix_last_variables_no_par f [] = Panic.
Proof. exact @fix_last_variables_empty. Qed.
Print Assumptions C03_empty_point.

Theorem C03_too_long : forall (p : positive) (f : mle p) (r : list (F p)),
  nv f < length r -> fix_last_variables f r = Panic.
Proof. exact @fix_last_variables_too_long. Qed.
Print Assumptions C03_too_long.

Example C03_ex : fix_last_variables ex_mle (map ofN [5; 7]) = Ok (mkMle 1 (map ofN [12; 4])).
Proof. reflexivity. Qed.

(** C04 *)
Theorem C04_merge : forall (p : positive) n (polys : list (mle p)), polys <> [] ->
  (forall m, In m polys -> wf_mle m /\ nv m = n) ->
  exists q, merge_polynomials polys = Ok q /\ wf_mle q /\ nv q = n + Nat.log2_up (length polys) /\
   (forall i x m, nth_error polys i = Some m -> length x = n ->
     mle_ext (nv q) (tab (evs q)) (gen_eval_point i (Nat.log2_up (length polys)) x) =
     mle_ext n (tab (evs m)) x) /\
   (forall i x, length polys <= i < 2 ^ Nat.log2_up (length polys) -> length x = n ->
     mle_ext (nv q) (tab (evs q)) (gen_eval_point i (Nat.log2_up (length polys)) x) = F0).
Proof. exact @merge_polynomials_spec. Qed.
Print Assumptions C04_merge.

Theorem C04_different_sizes : forall (p : positive) (polys : list (mle p)) m0 m,
  In m polys -> nth_error polys 0 = Some m0 -> nv m <> nv m0 ->
  merge_polynomials polys = Err ArithInvalidParameters.
Proof. exact @merge_polynomials_err. Qed.
Print Assumptions C04_different_sizes.

Theorem C04_empty : forall p : positive, merge_polynomials (@nil (mle p)) = Panic.
Proof. reflexivity. Qed.
Print Assumptions C04_empty.

Example C04_ex : merge_polynomials [mkMle 1 [F1; ofN 2]; mkMle 1 [ofN 3; ofN 4]; mkMle 1 [ofN 5; ofN (p:=13) 6]]
  = Ok (mkMle 3 (map ofN [1; 2; 3; 4; 5; 6; 0; 0])).
Proof. reflexivity. Qed.

(** C05 *)
Theorem C05_table : forall (p : positive) (r : list (F p)), r <> [] ->
  exists t, build_eq_x_r_vec r = Ok t /\ length t = 2 ^ length r /\
    (forall k, k < 2 ^ length r -> tab t k = eqf (bpoint (length r) k) r) /\
    (forall x, length x = length r -> mle_ext (length r) (tab t) x = eqf x r) /\
    build_eq_x_r r = Ok (mkMle (length r) t).
Proof. exact @build_eq_all. Qed.
Print Assumptions C05_table.

Theorem C05_eval : forall (p : positive) (x y : list (F p)), length x = length y ->
  eq_eval x y = Ok (eqf x y) /\ kzg_eq_eval x y = Ok (eqf x y) /\ eqf x y = eqf y x.
Proof. exact @eq_eval_all. Qed.
Print Assumptions C05_eval.

Theorem C05_indicator : forall (p : positive) n j k, j < 2 ^ n -> k < 2 ^ n ->
  eq_eval (bpoint (p:=p) n j) (bpoint n k) = Ok (if j =? k then F1 else F0).
Proof. exact @eq_eval_indicator. Qed.
Print Assumptions C05_indicator.

Theorem C05_kzg_factors : forall (p : positive) (t : list (F p)) k, k < 2 ^ length t ->
  length (eq_extension t) = length t /\
  Fprod (map (fun m => tab (evs m) k) (eq_extension t)) = eqf (bpoint (length t) k) t.
Proof. exact @eq_extension_all. Qed.
Print Assumptions C05_kzg_factors.

Theorem C05_errors : forall (p : positive),
  (forall x y : list (F p), length x <> length y ->
     eq_eval x y = Err ArithInvalidParameters /\ kzg_eq_eval x y = Err PCSInvalidParameters) /\
  build_eq_x_r_vec (@nil (F p)) = Err ArithInvalidParameters.
Proof. exact @eq_errors. Qed.
Print Assumptions C05_errors.

Example C05_ex : build_eq_x_r_vec (map (ofN (p:=13)) [2; 5]) = Ok (map ofN [4; 5; 8; 10])
  /\ eq_eval (map (ofN (p:=13)) [2; 5]) (map ofN [3; 4]) = Ok (ofN 9).
Proof. vm_compute. split; reflexivity. Qed.

(** C06 *)
Theorem C06_project_decompose : forall i n, project (bit_decompose i n) = i mod 2 ^ n.
Proof. exact project_bit_decompose. Qed.
Print Assumptions C06_project_decompose.

Theorem C06_decompose_project : forall bs, bit_decompose (project bs) (length bs) = bs.
Proof. exact bit_decompose_project. Qed.
Print Assumptions C06_decompose_project.

Theorem C06_decompose_bits : forall i n j, j < n -> length (bit_decompose i n) = n /\
  nth_error (bit_decompose i n) j = Some (Nat.testbit i j).
Proof. exact bit_decompose_testbit. Qed.
Print Assumptions C06_decompose_bits.

Theorem C06_get_index : forall i n, 1 <= n ->
  get_index i n = Ok ((2 * i) mod 2 ^ n, (2 * i + 1) mod 2 ^ n, Nat.testbit i (n - 1)).
Proof. exact get_index_spec. Qed.
Print Assumptions C06_get_index.

Theorem C06_get_index_zero : forall i, get_index i 0 = Panic.
Proof. reflexivity. Qed.
Print Assumptions C06_get_index_zero.

Theorem C06_binary_decompose : forall (p : positive) i n, binary_decompose i n = bpoint (p:=p) n i.
Proof. exact @binary_decompose_bpoint. Qed.
Print Assumptions C06_binary_decompose.

Example C06_ex : bit_decompose 6 4 = [false; true; true; false] /\ get_index 6 3 = Ok (4, 5, true).
Proof. vm_compute. split; reflexivity. Qed.

(** C07 *)
Theorem C07_front : forall (p : positive) (f : mle p) N, wf_mle f -> nv f <= N ->
  exists q, dmle_increase_nv_front f N = Ok q /\ wf_mle q /\ nv q = N /\
    (forall y x, length y = N - nv f -> mle_ext N (tab (evs q)) (y ++ x) = mle_ext (nv f) (tab (evs f)) x) /\
    Fsum (evs q) = (ofN (2 ^ (N - nv f)) * Fsum (evs f))%F.
Proof. exact @increase_front_all. Qed.
Print Assumptions C07_front.

Theorem C07_back : forall (p : positive) (f : mle p) N, wf_mle f -> nv f <= N ->
  exists q, dmle_increase_nv_back f N = Ok q /\ wf_mle q /\ nv q = N /\
    (forall x y, length x = nv f -> length y = N - nv f ->
       mle_ext N (tab (evs q)) (x ++ y) = mle_ext (nv f) (tab (evs f)) x) /\
    Fsum (evs q) = (ofN (2 ^ (N - nv f)) * Fsum (evs f))%F.
Proof. exact @increase_back_all. Qed.
Print Assumptions C07_back.

Theorem C07_edges : forall (p : positive) (f : mle p) N,
  (N < nv f -> dmle_increase_nv_front f N = Panic /\ dmle_increase_nv_back f N = Panic) /\
  (N = nv f -> dmle_increase_nv_front f N = Ok f /\ dmle_increase_nv_back f N = Ok f).
Proof. exact @increase_edges. Qed.
Print Assumptions C07_edges.

Example C07_ex : dmle_increase_nv_front (mkMle 1 [F1; ofN (p:=13) 2]) 2 = Ok (mkMle 2 (map ofN [1; 1; 2; 2]))
  /\ dmle_increase_nv_back (mkMle 1 [F1; ofN (p:=13) 2]) 2 = Ok (mkMle 2 (map ofN [1; 2; 1; 2])).
Proof. vm_compute. split; reflexivity. Qed.
