(** Statements assembled from MleProofs.v for the property files. *)
From Coq Require Import List Arith Lia Bool ZArith Znumtheory Field.
Import ListNotations.
From Verif Require Import Res ResLemmas Fp FSum SpecMle MleLemmas ModelMle MleProofs.
Local Open Scope nat_scope.

Section S.
Context {p : positive}.

Lemma mle_eq : forall a b : mle p, nv a = nv b -> evs a = evs b -> a = b.
Proof. intros [n l] [n' l']; simpl; intros -> ->; reflexivity. Qed.

Lemma fix_variables_unique : forall (f q q' : mle p) (r : list (F p)),
  wf_mle f -> fix_variables f r = Ok q -> wf_mle q' -> nv q' = nv f - length r ->
  (forall x, length x = nv q' -> mle_ext (nv q') (tab (evs q')) x = mle_ext (nv f) (tab (evs f)) (r ++ x)) ->
  q' = q.
Proof.
  intros f q q' r Hw Hq Hw' Hn H.
  destruct (Nat.le_gt_cases (length r) (nv f)) as [Hl|Hl].
  2:{ rewrite fix_variables_too_long in Hq by exact Hl. discriminate. }
  destruct (fix_variables_spec f r Hw Hl) as [q0 [H1 [H2 [H3 H4]]]].
  rewrite H1 in Hq. inversion Hq; subst q0. assert (E : nv q = nv q') by lia.
  apply mle_eq; [lia|]. apply (mle_ext_unique (nv q')); [exact Hw'|rewrite <- E; exact H2|].
  intros x Hx. rewrite H by exact Hx. rewrite <- E. symmetry. apply H4.
Qed.

Lemma evaluate_opt_boolean : forall (f : mle p) k,
  wf_mle f -> k < 2 ^ nv f -> evaluate_opt f (bpoint (nv f) k) = rnth (evs f) k.
Proof.
  intros f k Hw Hk. rewrite evaluate_opt_spec by (try exact Hw; apply bpoint_length).
  rewrite mle_ext_bpoint by exact Hk. unfold wf_mle in Hw. rewrite (rnth_ok _ k F0) by lia. reflexivity.
Qed.

Lemma evaluate_no_par_same : forall (f : mle p) (x : list (F p)),
  wf_mle f -> evaluate_no_par f x = evaluate_opt f x.
Proof. exact evaluate_no_par_eq. Qed.

Lemma fix_variables_no_par_same : forall (f : mle p) (x : list (F p)),
  wf_mle f -> fix_variables_no_par f x = fix_variables f x.
Proof.
  intros f x Hw. destruct (Nat.le_gt_cases (length x) (nv f)) as [Hl|Hl].
  - destruct (fix_variables_no_par_spec f x Hw Hl) as [q [H1 [H2 [H3 H4]]]].
    destruct (fix_variables_spec f x Hw Hl) as [q0 [G1 _]]. rewrite H1, G1. f_equal.
    apply (fix_variables_unique f q0 q x); auto.
  - rewrite fix_variables_too_long by exact Hl. unfold fix_variables_no_par.
    apply Nat.leb_gt in Hl. rewrite Hl. reflexivity.
Qed.

Lemma fix_last_variables_empty : forall f : mle p,
  wf_mle f -> fix_last_variables f [] = Ok f /\ fix_last_variables_no_par f [] = Panic.
Proof.
  intros f Hw. split; [|reflexivity]. unfold fix_last_variables. cbn [length rev fix_last_loop].
  rewrite Nat.sub_0_r. cbn [Nat.leb rassert bind].
  unfold wf_mle in Hw. rewrite slice_to_ok by lia. cbn [bind]. rewrite <- Hw, firstn_all.
  rewrite from_evaluations_ok by exact Hw. destruct f; reflexivity.
Qed.

Lemma merge_polynomials_spec : forall n (polys : list (mle p)), polys <> [] ->
  (forall m, In m polys -> wf_mle m /\ nv m = n) ->
  exists q, merge_polynomials polys = Ok q /\ wf_mle q /\ nv q = n + Nat.log2_up (length polys) /\
   (forall i x m, nth_error polys i = Some m -> length x = n ->
     mle_ext (nv q) (tab (evs q)) (gen_eval_point i (Nat.log2_up (length polys)) x) =
     mle_ext n (tab (evs m)) x) /\
   (forall i x, length polys <= i < 2 ^ Nat.log2_up (length polys) -> length x = n ->
     mle_ext (nv q) (tab (evs q)) (gen_eval_point i (Nat.log2_up (length polys)) x) = F0).
Proof.
  intros n polys Hne H. destruct (merge_polynomials_ok n polys Hne H) as [q [H1 [H2 [H3 [H4 H5]]]]].
  exists q. repeat split; auto. intros i x m Hi Hx.
  rewrite H4; [|apply nth_error_Some; congruence|exact Hx].
  rewrite (nth_error_nth _ _ _ Hi). reflexivity.
Qed.

Lemma build_eq_all : forall r : list (F p), r <> [] ->
  exists t, build_eq_x_r_vec r = Ok t /\ length t = 2 ^ length r /\
    (forall k, k < 2 ^ length r -> tab t k = eqf (bpoint (length r) k) r) /\
    (forall x, length x = length r -> mle_ext (length r) (tab t) x = eqf x r) /\
    build_eq_x_r r = Ok (mkMle (length r) t).
Proof.
  intros r Hr. exists (eq_table r). repeat split.
  - apply build_eq_x_r_vec_spec. exact Hr.
  - apply eq_table_length.
  - intros k Hk. unfold tab, eq_table. rewrite nth_map_seq by exact Hk. apply eqk_eqf.
  - intros x Hx. apply eq_table_ext. exact Hx.
  - apply build_eq_x_r_spec. exact Hr.
Qed.

Lemma eq_eval_all : forall x y : list (F p), length x = length y ->
  eq_eval x y = Ok (eqf x y) /\ kzg_eq_eval x y = Ok (eqf x y) /\ eqf x y = eqf y x.
Proof.
  intros x y H. repeat split; [apply eq_eval_spec|apply kzg_eq_eval_spec|apply eqf_sym]; exact H.
Qed.

Lemma eq_eval_indicator : forall n j k, j < 2 ^ n -> k < 2 ^ n ->
  eq_eval (bpoint (p:=p) n j) (bpoint n k) = Ok (if j =? k then F1 else F0).
Proof.
  intros n j k Hj Hk. rewrite eq_eval_spec by (rewrite !bpoint_length; reflexivity).
  rewrite eqf_bpoint by assumption. reflexivity.
Qed.

Lemma eq_extension_all : forall (t : list (F p)) k, k < 2 ^ length t ->
  length (eq_extension t) = length t /\
  Fprod (map (fun m => tab (evs m) k) (eq_extension t)) = eqf (bpoint (length t) k) t.
Proof.
  intros t k Hk. split.
  - unfold eq_extension. rewrite map_length, seq_length. reflexivity.
  - rewrite eq_extension_prod by exact Hk. apply eqk_eqf.
Qed.

Lemma eq_errors :
  (forall x y : list (F p), length x <> length y ->
     eq_eval x y = Err ArithInvalidParameters /\ kzg_eq_eval x y = Err PCSInvalidParameters) /\
  build_eq_x_r_vec (@nil (F p)) = Err ArithInvalidParameters.
Proof.
  split; [|reflexivity]. intros x y H. split; [apply eq_eval_err; exact H|].
  unfold kzg_eq_eval. apply Nat.eqb_neq in H. rewrite H. reflexivity.
Qed.

Lemma binary_decompose_bpoint : forall i n, binary_decompose i n = bpoint (p:=p) n i.
Proof.
  intros i n. unfold binary_decompose, bpoint. rewrite bit_decompose_bits. apply map_ext.
  intros [|]; reflexivity.
Qed.

Lemma increase_front_all : forall (f : mle p) N, wf_mle f -> nv f <= N ->
  exists q, dmle_increase_nv_front f N = Ok q /\ wf_mle q /\ nv q = N /\
    (forall y x, length y = N - nv f -> mle_ext N (tab (evs q)) (y ++ x) = mle_ext (nv f) (tab (evs f)) x) /\
    Fsum (evs q) = (ofN (2 ^ (N - nv f)) * Fsum (evs f))%F.
Proof.
  intros f N Hw HN. destruct (increase_front_ext f N Hw HN) as [q [H1 [H2 [H3 H4]]]].
  exists q. split; [exact H1|]. split; [exact H2|]. split; [exact H3|]. split; [exact H4|].
  apply increase_front_sum; assumption.
Qed.

Lemma increase_back_all : forall (f : mle p) N, wf_mle f -> nv f <= N ->
  exists q, dmle_increase_nv_back f N = Ok q /\ wf_mle q /\ nv q = N /\
    (forall x y, length x = nv f -> length y = N - nv f ->
       mle_ext N (tab (evs q)) (x ++ y) = mle_ext (nv f) (tab (evs f)) x) /\
    Fsum (evs q) = (ofN (2 ^ (N - nv f)) * Fsum (evs f))%F.
Proof.
  intros f N Hw HN. destruct (increase_back_ext f N Hw HN) as [q [H1 [H2 [H3 H4]]]].
  exists q. split; [exact H1|]. split; [exact H2|]. split; [exact H3|]. split; [exact H4|].
  apply increase_back_sum; assumption.
Qed.

Lemma increase_edges : forall (f : mle p) N,
  (N < nv f -> dmle_increase_nv_front f N = Panic /\ dmle_increase_nv_back f N = Panic) /\
  (N = nv f -> dmle_increase_nv_front f N = Ok f /\ dmle_increase_nv_back f N = Ok f).
Proof.
  intros f N. split; intros H.
  - split; [apply increase_front_panic|apply increase_back_panic]; exact H.
  - subst N. unfold dmle_increase_nv_front, dmle_increase_nv_back. rewrite Nat.eqb_refl. split; reflexivity.
Qed.
End S.

Lemma bit_decompose_testbit : forall i n j, j < n -> length (bit_decompose i n) = n /\
  nth_error (bit_decompose i n) j = Some (Nat.testbit i j).
Proof.
  intros i n j Hj. rewrite bit_decompose_bits. split; [apply bits_length|].
  rewrite (nth_error_nth' _ false) by (rewrite bits_length; exact Hj). f_equal.
  unfold bits. apply nth_map_seq. exact Hj.
Qed.

Lemma fix_one_variable_helper_seq_wrong : exists (data : list (F 13)) r,
  length data = 4 /\ fix_one_variable_helper_seq data 2 r <> fix_one_variable_helper data 2 r.
Proof.
  exists (map ofN [1; 2; 3; 4]), (ofN 2). split; [reflexivity|]. intros H. vm_compute in H. discriminate H.
Qed.

Section Slices.
Context {p : positive}.
Lemma seq_shift_add : forall n k, map (fun m => m + k) (seq 0 n) = seq k n.
Proof.
  intros n k. induction n as [|n IH]; [reflexivity|]. rewrite !seq_S, map_app, IH. simpl. f_equal. f_equal. lia.
Qed.
Lemma bits_skipn : forall n k j, skipn k (bits (n + k) j) = bits n (j / 2 ^ k).
Proof.
  intros n k j. unfold bits. rewrite skipn_map. replace (skipn k (seq 0 (n + k))) with (seq k n).
  - rewrite <- (seq_shift_add n k). rewrite map_map. apply map_ext. intros m. rewrite Nat.div_pow2_bits. reflexivity.
  - rewrite (Nat.add_comm n k), seq_app, skipn_app, skipn_all2 by (rewrite seq_length; lia).
    rewrite seq_length, Nat.sub_diag. reflexivity.
Qed.
Lemma bits_firstn : forall n k j, firstn n (bits (n + k) j) = bits n (j mod 2 ^ n).
Proof.
  intros n k j. unfold bits. rewrite firstn_map, seq_app, firstn_app, seq_length, Nat.sub_diag, firstn_O, app_nil_r.
  rewrite firstn_all2 by (rewrite seq_length; lia). apply map_ext_in. intros m Hm. apply in_seq in Hm.
  symmetry. apply Nat.mod_pow2_bits_low. lia.
Qed.
Lemma bpoint_skipn : forall n k j, skipn k (bpoint (p:=p) (n + k) j) = bpoint n (j / 2 ^ k).
Proof. intros. unfold bpoint. rewrite skipn_map, bits_skipn. reflexivity. Qed.
Lemma bpoint_firstn : forall n k j, firstn n (bpoint (p:=p) (n + k) j) = bpoint n (j mod 2 ^ n).
Proof. intros. unfold bpoint. rewrite firstn_map, bits_firstn. reflexivity. Qed.
End Slices.
