(** Correctness of the table algorithms. *)
From Coq Require Import List Arith Lia Bool ZArith Znumtheory Field.
Import ListNotations.
From Verif Require Import Res ResLemmas Fp FSum SpecMle MleLemmas ModelMle.
Local Open Scope nat_scope.

Lemma pow2_half : forall n, 1 <= n -> 2 * 2 ^ (n - 1) = 2 ^ n.
Proof. intros n Hn. destruct n; [lia|]. rewrite pow2_S. replace (S n - 1) with n by lia. reflexivity. Qed.

Section S.
Context {p : positive}.
Add Ring Fr : (@F_ring p).

(** Pure versions of the single-variable steps. *)
Definition fix1 (data : list (F p)) (n : nat) (r : F p) : list (F p) :=
  map (fun i => tab data (2 * i) + (tab data (2 * i + 1) - tab data (2 * i)) * r)%F (seq 0 (2 ^ (n - 1))).

Lemma fix1_length : forall data n r, length (fix1 data n r) = 2 ^ (n - 1).
Proof. intros. unfold fix1. rewrite map_length, seq_length. reflexivity. Qed.

Lemma fix1_tab : forall data n r i, i < 2 ^ (n - 1) ->
  tab (fix1 data n r) i = (tab data (2 * i)%nat + (tab data (2 * i + 1)%nat - tab data (2 * i)%nat) * r)%F.
Proof. intros data n r i Hi. unfold fix1. unfold tab at 1. rewrite nth_map_seq by exact Hi. reflexivity. Qed.

Lemma fix_one_variable_helper_ok : forall data n r, 1 <= n -> length data = 2 ^ n ->
  fix_one_variable_helper data n r = Ok (fix1 data n r).
Proof.
  intros data n r Hn Hl. unfold fix_one_variable_helper, fix1. apply mapM_ok.
  intros i Hi. apply in_seq in Hi. pose proof (pow2_half n Hn).
  rewrite (rnth_ok data (2 * i) F0) by lia. rewrite (rnth_ok data (2 * i + 1) F0) by lia. reflexivity.
Qed.

Lemma mle_ext_fix1 : forall data n r x, 1 <= n ->
  mle_ext (n - 1) (tab (fix1 data n r)) x = mle_ext n (tab data) (r :: x).
Proof.
  intros data n r x Hn. destruct n; [lia|]. rewrite mle_ext_cons'.
  replace (S n - 1) with n by lia. apply mle_ext_ext. intros k Hk. rewrite fix1_tab.
  - reflexivity.
  - replace (S n - 1) with n by lia. exact Hk.
Qed.

Lemma fix_loop_ok : forall (pts data : list (F p)) n, length pts <= n -> length data = 2 ^ n ->
  exists d, fix_loop data n pts = Ok d /\ length d = 2 ^ (n - length pts) /\
    forall x, mle_ext (n - length pts) (tab d) x = mle_ext n (tab data) (pts ++ x).
Proof.
  induction pts as [|r pts IH]; intros data n Hn Hl; simpl in *.
  - exists data. rewrite Nat.sub_0_r. repeat split; auto.
  - rewrite fix_one_variable_helper_ok by lia. simpl.
    destruct (IH (fix1 data n r) (n - 1)) as [d [H1 [H2 H3]]].
    + lia.
    + apply fix1_length.
    + exists d. replace (n - S (length pts)) with (n - 1 - length pts) by lia.
      repeat split; auto. intros x. rewrite H3. apply mle_ext_fix1. lia.
Qed.

Lemma from_evaluations_ok : forall n (l : list (F p)), length l = 2 ^ n -> from_evaluations n l = Ok (mkMle n l).
Proof. intros n l H. unfold from_evaluations. rewrite H, Nat.eqb_refl. reflexivity. Qed.

Lemma from_evaluations_wf : forall n (l : list (F p)) m, from_evaluations n l = Ok m -> wf_mle m /\ nv m = n /\ evs m = l.
Proof.
  intros n l m H. unfold from_evaluations in H. destruct (Nat.eqb_spec (length l) (2 ^ n)); inversion H; subst.
  repeat split. exact e.
Qed.

(** Partial evaluation: the result has the remaining variables, is well formed and agrees with the
    extension of the input on r ++ x. *)
Lemma fix_variables_spec : forall (m : mle p) pts, wf_mle m -> length pts <= nv m ->
  exists q, fix_variables m pts = Ok q /\ wf_mle q /\ nv q = nv m - length pts /\
    forall x, mle_ext (nv q) (tab (evs q)) x = mle_ext (nv m) (tab (evs m)) (pts ++ x).
Proof.
  intros m pts Hw Hl. unfold fix_variables.
  apply Nat.leb_le in Hl as Hl'. rewrite Hl'. simpl.
  destruct (fix_loop_ok pts (evs m) (nv m) Hl Hw) as [d [H1 [H2 H3]]].
  rewrite H1. simpl. rewrite slice_to_ok by lia. simpl.
  rewrite <- H2, firstn_all. rewrite from_evaluations_ok by exact H2.
  eexists. split; [reflexivity|]. simpl. repeat split; auto.
Qed.

Lemma fix_variables_too_long : forall (m : mle p) pts, nv m < length pts -> fix_variables m pts = Panic.
Proof.
  intros m pts H. unfold fix_variables.
  replace (length pts <=? nv m) with false; [reflexivity|]. symmetry. apply Nat.leb_gt. exact H.
Qed.

Lemma evaluate_opt_spec : forall (m : mle p) pt, wf_mle m -> length pt = nv m ->
  evaluate_opt m pt = Ok (mle_ext (nv m) (tab (evs m)) pt).
Proof.
  intros m pt Hw Hl. unfold evaluate_opt. rewrite Hl, Nat.eqb_refl. simpl.
  destruct (fix_variables_spec m pt Hw) as [q [H1 [H2 [H3 H4]]]]; [lia|].
  rewrite H1. simpl. unfold wf_mle in H2. rewrite H3, Hl, Nat.sub_diag in H2.
  rewrite (rnth_ok (evs q) 0 F0) by (rewrite H2; simpl; lia). f_equal.
  specialize (H4 []). rewrite app_nil_r, H3, Hl, Nat.sub_diag, mle_ext_0 in H4. exact H4.
Qed.

Lemma evaluate_opt_wrong_length : forall (m : mle p) pt, length pt <> nv m -> evaluate_opt m pt = Panic.
Proof.
  intros m pt H. unfold evaluate_opt. replace (nv m =? length pt) with false; [reflexivity|].
  symmetry. apply Nat.eqb_neq. lia.
Qed.

(** ** The in-place loop *)
Lemma inplace_inner : forall r (buf : list (F p)) B, 2 * B <= length buf ->
  exists buf', foldM (inplace_step r) buf (seq 0 B) = Ok buf' /\ length buf' = length buf /\
    (forall i, i < B -> tab buf' i = (tab buf (2 * i)%nat + (tab buf (2 * i + 1)%nat - tab buf (2 * i)%nat) * r)%F) /\
    (forall i, B <= i -> tab buf' i = tab buf i).
Proof.
  intros r buf B. induction B as [|B IH]; intros HB.
  - exists buf. simpl. repeat split; auto. intros i Hi. lia.
  - destruct IH as [b1 [H1 [H2 [H3 H4]]]]; [lia|].
    rewrite seq_S, foldM_app, H1. cbn [bind foldM Nat.add]. unfold inplace_step.
    rewrite (rnth_ok b1 (2 * B) F0) by lia. rewrite (rnth_ok b1 (2 * B + 1) F0) by lia. cbn [bind].
    unfold rupd. replace (B <? length b1) with true by (symmetry; apply Nat.ltb_lt; lia). cbn [bind].
    eexists. split; [reflexivity|]. rewrite upd_length. split; [exact H2|].
    fold (tab b1 (2 * B)). fold (tab b1 (2 * B + 1)).
    split.
    + intros i Hi. destruct (Nat.eq_dec i B) as [->|Hne].
      * unfold tab at 1. rewrite upd_nth_eq by lia. rewrite !H4 by lia. reflexivity.
      * unfold tab at 1. rewrite upd_nth_neq by lia. apply H3. lia.
    + intros i Hi. unfold tab at 1. rewrite upd_nth_neq by lia. apply H4. lia.
Qed.

Lemma inplace_loop_ok : forall pts (buf : list (F p)) n, length pts <= n -> 2 ^ n <= length buf ->
  exists buf', inplace_loop buf n pts = Ok buf' /\ length buf' = length buf /\
    forall x, mle_ext (n - length pts) (tab buf') x = mle_ext n (tab buf) (pts ++ x).
Proof.
  induction pts as [|r pts IH]; intros buf n Hn Hl; simpl in *.
  - exists buf. rewrite Nat.sub_0_r. repeat split; auto.
  - pose proof (pow2_half n ltac:(lia)) as Hh.
    destruct (inplace_inner r buf (2 ^ (n - 1))) as [b1 [H1 [H2 [H3 _]]]]; [lia|].
    rewrite H1. simpl.
    destruct (IH b1 (n - 1)) as [b2 [K1 [K2 K3]]]; [lia|lia|].
    exists b2. split; [exact K1|]. split; [lia|]. intros x.
    replace (n - S (length pts)) with (n - 1 - length pts) by lia. rewrite K3.
    destruct n; [lia|]. replace (S n - 1) with n in * by lia.
    rewrite mle_ext_cons'. apply mle_ext_ext. intros k Hk. apply H3. exact Hk.
Qed.

Lemma tab_firstn : forall (l : list (F p)) k i, i < k -> k <= length l -> tab (firstn k l) i = tab l i.
Proof.
  intros l k i Hi Hk. rewrite (firstn_seq_map F0 l k Hk). unfold tab. rewrite (nth_map_seq (fun i => nth i l F0)) by exact Hi. reflexivity.
Qed.

Lemma fix_variables_no_par_spec : forall (m : mle p) pts, wf_mle m -> length pts <= nv m ->
  exists q, fix_variables_no_par m pts = Ok q /\ wf_mle q /\ nv q = nv m - length pts /\
    forall x, mle_ext (nv q) (tab (evs q)) x = mle_ext (nv m) (tab (evs m)) (pts ++ x).
Proof.
  intros m pts Hw Hl. unfold fix_variables_no_par.
  apply Nat.leb_le in Hl as Hl'. rewrite Hl'. simpl.
  assert (Hlen : length (evs m) = 2 ^ nv m) by exact Hw.
  destruct (inplace_loop_ok pts (evs m) (nv m) Hl) as [d [H1 [H2 H3]]]; [lia|].
  rewrite H1. simpl.
  assert (Hle : 2 ^ (nv m - length pts) <= length d).
  { rewrite H2, Hlen. apply Nat.pow_le_mono_r; lia. }
  rewrite slice_to_ok by exact Hle. simpl.
  rewrite from_evaluations_ok by (rewrite firstn_length; lia).
  eexists. split; [reflexivity|]. simpl.
  split; [unfold wf_mle; simpl; rewrite firstn_length; lia|]. split; [reflexivity|].
  intros x. rewrite <- H3. apply mle_ext_ext. intros k Hk. apply tab_firstn; lia.
Qed.

Lemma evaluate_no_par_spec : forall (m : mle p) pt, wf_mle m -> length pt = nv m ->
  evaluate_no_par m pt = Ok (mle_ext (nv m) (tab (evs m)) pt).
Proof.
  intros m pt Hw Hl. unfold evaluate_no_par. rewrite Hl, Nat.eqb_refl. simpl.
  destruct (fix_variables_no_par_spec m pt Hw) as [q [H1 [H2 [H3 H4]]]]; [lia|].
  rewrite H1. simpl. unfold wf_mle in H2. rewrite H3, Hl, Nat.sub_diag in H2.
  rewrite (rnth_ok (evs q) 0 F0) by (rewrite H2; simpl; lia). f_equal.
  specialize (H4 []). rewrite app_nil_r, H3, Hl, Nat.sub_diag, mle_ext_0 in H4. exact H4.
Qed.

Lemma evaluate_no_par_eq : forall (m : mle p) pt, wf_mle m -> evaluate_no_par m pt = evaluate_opt m pt.
Proof.
  intros m pt Hw. destruct (Nat.eq_dec (length pt) (nv m)) as [E|E].
  - rewrite evaluate_no_par_spec, evaluate_opt_spec by assumption. reflexivity.
  - rewrite evaluate_opt_wrong_length by exact E. unfold evaluate_no_par.
    replace (nv m =? length pt) with false; [reflexivity|]. symmetry. apply Nat.eqb_neq. lia.
Qed.

Lemma ark_evaluate_spec : forall (m : mle p) pt, wf_mle m ->
  ark_evaluate m pt = Ok (if nv m =? length pt then Some (mle_ext (nv m) (tab (evs m)) pt) else None).
Proof.
  intros m pt Hw. unfold ark_evaluate. destruct (Nat.eqb_spec (nv m) (length pt)) as [E|E]; [|reflexivity].
  pose proof (evaluate_no_par_spec m pt Hw (eq_sym E)) as H. unfold evaluate_no_par in H.
  rewrite E, Nat.eqb_refl in H. simpl in H.
  destruct (fix_variables_no_par m pt) as [q| |]; simpl in H |- *; try discriminate.
  rewrite H. simpl. rewrite E. reflexivity.
Qed.

(** Tables of equal extension are equal. *)
Lemma mle_ext_unique : forall n (l1 l2 : list (F p)), length l1 = 2 ^ n -> length l2 = 2 ^ n ->
  (forall x, length x = n -> mle_ext n (tab l1) x = mle_ext n (tab l2) x) -> l1 = l2.
Proof.
  intros n l1 l2 H1 H2 H. apply (list_eq_nth F0); [lia|]. intros i Hi.
  specialize (H (bpoint n i) (bpoint_length n i)). rewrite !mle_ext_bpoint in H by lia. exact H.
Qed.

(** ** Fixing last variables *)
Definition fixl (data : list (F p)) (n : nat) (r : F p) : list (F p) :=
  map (fun i => tab data i + (tab data (i + 2 ^ (n - 1))%nat - tab data i) * r)%F (seq 0 (2 ^ (n - 1))).

Lemma fixl_length : forall data n r, length (fixl data n r) = 2 ^ (n - 1).
Proof. intros. unfold fixl. rewrite map_length, seq_length. reflexivity. Qed.

Lemma fix_last_variable_helper_ok : forall data n r, 1 <= n -> length data = 2 ^ n ->
  fix_last_variable_helper data n r = Ok (fixl data n r).
Proof.
  intros data n r Hn Hl. unfold fix_last_variable_helper, fixl. apply mapM_ok.
  intros i Hi. apply in_seq in Hi. pose proof (pow2_half n Hn).
  rewrite (rnth_ok data i F0) by lia. rewrite (rnth_ok data (i + 2 ^ (n - 1)) F0) by lia. reflexivity.
Qed.

Lemma mle_ext_fixl : forall data n r x, 1 <= n -> length x = n - 1 ->
  mle_ext (n - 1) (tab (fixl data n r)) x = mle_ext n (tab data) (x ++ [r]).
Proof.
  intros data n r x Hn Hx. destruct n; [lia|]. replace (S n - 1) with n in * by lia.
  rewrite mle_ext_snoc by exact Hx. apply mle_ext_ext. intros k Hk.
  unfold fixl. unfold tab at 1. replace (S n - 1) with n by lia. rewrite nth_map_seq by exact Hk. reflexivity.
Qed.

Lemma fix_last_loop_ok : forall (rpts data : list (F p)) n, length rpts <= n -> length data = 2 ^ n ->
  exists d, fix_last_loop data n rpts = Ok d /\ length d = 2 ^ (n - length rpts) /\
    forall x, length x = n - length rpts -> mle_ext (n - length rpts) (tab d) x = mle_ext n (tab data) (x ++ rev rpts).
Proof.
  induction rpts as [|r pts IH]; intros data n Hn Hl; simpl in *.
  - exists data. rewrite Nat.sub_0_r. repeat split; auto. intros x Hx. rewrite app_nil_r. reflexivity.
  - rewrite fix_last_variable_helper_ok by lia. simpl.
    destruct (IH (fixl data n r) (n - 1)) as [d [H1 [H2 H3]]].
    + lia.
    + apply fixl_length.
    + exists d. replace (n - S (length pts)) with (n - 1 - length pts) by lia.
      repeat split; auto. intros x Hx. rewrite H3 by exact Hx.
      rewrite mle_ext_fixl; [|lia|rewrite app_length, rev_length; lia].
      rewrite <- app_assoc. reflexivity.
Qed.

Lemma fix_last_variables_spec : forall (m : mle p) pts, wf_mle m -> length pts <= nv m ->
  exists q, fix_last_variables m pts = Ok q /\ wf_mle q /\ nv q = nv m - length pts /\
    forall x, length x = nv q -> mle_ext (nv q) (tab (evs q)) x = mle_ext (nv m) (tab (evs m)) (x ++ pts).
Proof.
  intros m pts Hw Hl. unfold fix_last_variables.
  apply Nat.leb_le in Hl as Hl'. rewrite Hl'. simpl.
  destruct (fix_last_loop_ok (rev pts) (evs m) (nv m)) as [d [H1 [H2 H3]]].
  { rewrite rev_length. exact Hl. } { exact Hw. }
  rewrite rev_length, rev_involutive in *.
  rewrite H1. simpl. rewrite slice_to_ok by lia. simpl.
  rewrite <- H2, firstn_all. rewrite from_evaluations_ok by exact H2.
  eexists. split; [reflexivity|]. simpl. repeat split; auto.
Qed.

Lemma fix_last_variables_too_long : forall (m : mle p) pts, nv m < length pts -> fix_last_variables m pts = Panic.
Proof.
  intros m pts H. unfold fix_last_variables.
  replace (length pts <=? nv m) with false; [reflexivity|]. symmetry. apply Nat.leb_gt. exact H.
Qed.

Lemma fix_last_variable_no_par_ok : forall (m : mle p) r, wf_mle m -> 1 <= nv m ->
  fix_last_variable_no_par m r = Ok (mkMle (nv m - 1) (fixl (evs m) (nv m) r)).
Proof.
  intros m r Hw Hn. unfold fix_last_variable_no_par.
  replace (1 <=? nv m) with true by (symmetry; apply Nat.leb_le; exact Hn). cbn [rassert bind].
  rewrite (mapM_ok _ (fun i => (tab (evs m) i + (tab (evs m) (i + 2 ^ (nv m - 1))%nat - tab (evs m) i) * r)%F)).
  - cbn [bind]. apply from_evaluations_ok. apply fixl_length.
  - intros i Hi. apply in_seq in Hi. unfold wf_mle in Hw. pose proof (pow2_half (nv m) Hn).
    rewrite (rnth_ok (evs m) i F0) by lia. rewrite (rnth_ok (evs m) (i + 2 ^ (nv m - 1)) F0) by lia.
    simpl. unfold tab. f_equal. ring.
Qed.

Lemma foldM_fix_last : forall rs (m : mle p), wf_mle m -> length rs <= nv m ->
  foldM fix_last_variable_no_par m rs =
  (d <- fix_last_loop (evs m) (nv m) rs ;; Ok (mkMle (nv m - length rs) d)).
Proof.
  induction rs as [|r rs IH]; intros m Hw Hl; simpl in *.
  - rewrite Nat.sub_0_r. destruct m; reflexivity.
  - rewrite fix_last_variable_no_par_ok by (try exact Hw; lia). cbn [bind].
    rewrite fix_last_variable_helper_ok by (try exact Hw; lia). cbn [bind].
    rewrite IH; simpl.
    + replace (nv m - 1 - length rs) with (nv m - S (length rs)) by lia. reflexivity.
    + unfold wf_mle. simpl. apply fixl_length.
    + lia.
Qed.

Lemma fix_last_variables_no_par_eq : forall (m : mle p) pts, wf_mle m -> pts <> [] -> length pts <= nv m ->
  fix_last_variables_no_par m pts = fix_last_variables m pts.
Proof.
  intros m pts Hw Hne Hl. unfold fix_last_variables_no_par, fix_last_variables.
  apply Nat.leb_le in Hl as Hl'. rewrite Hl'. cbn [rassert bind].
  destruct (rev pts) as [|r rs] eqn:E.
  - exfalso. apply Hne. rewrite <- (rev_involutive pts), E. reflexivity.
  - change (q <- fix_last_variable_no_par m r;; foldM fix_last_variable_no_par q rs)
      with (foldM fix_last_variable_no_par m (r :: rs)).
    assert (HL : length (r :: rs) = length pts) by (rewrite <- E; apply rev_length).
    rewrite foldM_fix_last by (try exact Hw; lia).
    destruct (fix_last_loop_ok (r :: rs) (evs m) (nv m)) as [d [H1 [H2 _]]]; [lia|exact Hw|].
    rewrite H1. cbn [bind]. rewrite HL in *. rewrite slice_to_ok by lia. cbn [bind].
    rewrite <- H2, firstn_all. rewrite from_evaluations_ok by exact H2. reflexivity.
Qed.

(** ** Bits *)
End S.

Lemma bit_decompose_bits : forall n i, bit_decompose i n = bits n i.
Proof.
  induction n as [|n IH]; intros i; simpl; [reflexivity|]. rewrite bits_S, IH. reflexivity.
Qed.

Lemma project_bval : forall bs, project bs = bval bs.
Proof.
  intros bs. unfold project. rewrite <- fold_left_rev_right, rev_involutive.
  induction bs as [|b bs IH]; [reflexivity|]. cbn [fold_right bval]. rewrite IH. lia.
Qed.

Lemma project_bit_decompose : forall i n, project (bit_decompose i n) = i mod 2 ^ n.
Proof. intros i n. rewrite project_bval, bit_decompose_bits. apply bval_bits. Qed.

Lemma bit_decompose_project : forall bs, bit_decompose (project bs) (length bs) = bs.
Proof. intros bs. rewrite project_bval, bit_decompose_bits. apply bits_bval. Qed.

Lemma bits_firstn : forall n i m, m <= n -> firstn m (bits n i) = bits m i.
Proof.
  intros n i m Hm. unfold bits. rewrite firstn_map. f_equal.
  revert m Hm. generalize 0. induction n as [|n IH]; intros s m Hm; simpl.
  - destruct m; [reflexivity|lia].
  - destruct m; [reflexivity|]. simpl. f_equal. apply IH. lia.
Qed.

Lemma get_index_spec : forall i n, 1 <= n ->
  get_index i n = Ok ((2 * i) mod 2 ^ n, (2 * i + 1) mod 2 ^ n, Nat.testbit i (n - 1)).
Proof.
  intros i n Hn. unfold get_index.
  replace (1 <=? n) with true by (symmetry; apply Nat.leb_le; exact Hn). cbn [rassert bind].
  rewrite bit_decompose_bits. rewrite slice_to_ok by (rewrite bits_length; lia). cbn [bind].
  rewrite (rnth_ok (bits n i) (n - 1) false) by (rewrite bits_length; lia). cbn [bind].
  rewrite bits_firstn by lia.
  rewrite !project_bval. cbn [bval]. rewrite bval_bits. rewrite <- (pow2_half n Hn).
  pose proof (pow2_pos (n - 1)) as Hpos. f_equal. f_equal; [f_equal|].
  - rewrite Nat.mul_mod_distr_l by lia. lia.
  - pose proof (Nat.mod_upper_bound i (2 ^ (n - 1)) ltac:(lia)).
    rewrite (Nat.div_mod i (2 ^ (n - 1))) at 2 by lia.
    replace (2 * (2 ^ (n - 1) * (i / 2 ^ (n - 1)) + i mod 2 ^ (n - 1)) + 1)
      with ((1 + 2 * (i mod 2 ^ (n - 1))) + (i / 2 ^ (n - 1)) * (2 * 2 ^ (n - 1))) by lia.
    rewrite Nat.mod_add by lia. symmetry. apply Nat.mod_small. lia.
  - unfold bits. rewrite nth_map_seq by lia. reflexivity.
Qed.

Section S2.
Context {p : positive}.
Add Ring Fr2 : (@F_ring p).

(** ** Merging *)
Lemma tab_app_l : forall (l1 l2 : list (F p)) i, i < length l1 -> tab (l1 ++ l2) i = tab l1 i.
Proof. intros. unfold tab. apply app_nth1. exact H. Qed.
Lemma tab_app_r : forall (l1 l2 : list (F p)) i, tab (l1 ++ l2) (length l1 + i) = tab l2 i.
Proof. intros. unfold tab. rewrite app_nth2 by lia. f_equal. lia. Qed.

Lemma tab_concat : forall n (ls : list (list (F p))) j i,
  (forall l, In l ls -> length l = n) -> i < n ->
  tab (concat ls) (i + n * j) = tab (nth j ls []) i.
Proof.
  intros n ls. induction ls as [|l ls IH]; intros j i H Hi.
  - simpl. unfold tab. destruct j; simpl; destruct (i + _); destruct i; reflexivity.
  - assert (Hl : length l = n) by (apply H; left; reflexivity).
    destruct j as [|j]; simpl concat; simpl nth.
    + rewrite Nat.mul_0_r, Nat.add_0_r. apply tab_app_l. lia.
    + replace (i + n * S j) with (length l + (i + n * j)) by lia. rewrite tab_app_r.
      apply IH; [|exact Hi]. intros l' Hl'. apply H. right. exact Hl'.
Qed.

Lemma concat_length_const : forall {A} n (ls : list (list A)),
  (forall l, In l ls -> length l = n) -> length (concat ls) = length ls * n.
Proof.
  intros A n ls. induction ls as [|l ls IH]; intros H; simpl; [reflexivity|].
  rewrite app_length, IH, (H l (or_introl eq_refl)); [reflexivity|]. intros l' Hl'. apply H. right. exact Hl'.
Qed.

Lemma log2_up_pow : forall k, k <= 2 ^ Nat.log2_up k.
Proof.
  intros k. destruct (Nat.le_gt_cases k 1).
  - destruct k as [|[|k]]; simpl; lia.
  - apply Nat.log2_log2_up_spec. lia.
Qed.

Lemma merge_polynomials_ok : forall n (polys : list (mle p)), polys <> [] ->
  (forall m, In m polys -> wf_mle m /\ nv m = n) ->
  exists q, merge_polynomials polys = Ok q /\ wf_mle q /\ nv q = n + Nat.log2_up (length polys) /\
   (forall i x, i < length polys -> length x = n ->
     mle_ext (nv q) (tab (evs q)) (gen_eval_point i (Nat.log2_up (length polys)) x) =
     mle_ext n (tab (evs (nth i polys (mkMle 0 [])))) x) /\
   (forall i x, length polys <= i < 2 ^ Nat.log2_up (length polys) -> length x = n ->
     mle_ext (nv q) (tab (evs q)) (gen_eval_point i (Nat.log2_up (length polys)) x) = F0).
Proof.
  intros n polys Hne H. unfold merge_polynomials.
  destruct polys as [|m0 ms] eqn:Epolys; [congruence|]. rewrite <- Epolys in *.
  assert (H0 : rnth polys 0 = Ok m0) by (rewrite Epolys; reflexivity).
  rewrite H0. cbn [bind].
  assert (Hm0 : nv m0 = n). { apply H. rewrite Epolys. left. reflexivity. }
  rewrite Hm0.
  assert (Hall : forallb (fun q : mle p => n =? nv q) polys = true).
  { apply forallb_forall. intros m Hm. apply Nat.eqb_eq. symmetry. apply H. exact Hm. }
  rewrite Hall. cbn [ensure bind].
  assert (Hlen : length (concat (map evs polys)) = length polys * 2 ^ n).
  { rewrite (concat_length_const (2 ^ n)), map_length; [reflexivity|].
    intros l Hl. apply in_map_iff in Hl. destruct Hl as [m [<- Hm]]. destruct (H m Hm) as [Hw Hn].
    rewrite <- Hn. exact Hw. }
  rewrite Hlen. unfold get_batched_nv.
  set (L := Nat.log2_up (length polys)).
  pose proof (log2_up_pow (length polys)) as HL. fold L in HL.
  assert (Hle : length polys * 2 ^ n <= 2 ^ (n + L)).
  { rewrite Nat.pow_add_r, Nat.mul_comm. apply Nat.mul_le_mono_l. exact HL. }
  replace (length polys * 2 ^ n <=? 2 ^ (n + L)) with true by (symmetry; apply Nat.leb_le; exact Hle).
  cbn [rassert bind].
  assert (Hlens : length (concat (map evs polys) ++ repeat F0 (2 ^ (n + L) - length polys * 2 ^ n)) = 2 ^ (n + L)).
  { rewrite app_length, repeat_length, Hlen. lia. }
  rewrite from_evaluations_ok by exact Hlens.
  eexists. split; [reflexivity|]. simpl nv. simpl evs.
  assert (Hpt : forall i x, length x = n -> i < 2 ^ L ->
    mle_ext (n + L) (tab (concat (map evs polys) ++ repeat F0 (2 ^ (n + L) - length polys * 2 ^ n)))
       (gen_eval_point i L x) =
    mle_ext n (fun k => tab (concat (map evs polys) ++ repeat F0 (2 ^ (n + L) - length polys * 2 ^ n)) (k + 2 ^ n * i)) x).
  { intros i x Hx Hi. unfold gen_eval_point. rewrite bit_decompose_bits.
    change (map (fun b : bool => if b then F1 else F0) (bits L i)) with (bpoint (p:=p) L i).
    rewrite mle_ext_app by exact Hx. rewrite mle_ext_bpoint by exact Hi. reflexivity. }
  split; [exact Hlens|]. split; [reflexivity|]. split.
  - intros i x Hi Hx. rewrite Hpt by lia. apply mle_ext_ext. intros k Hk.
    rewrite tab_app_l by (rewrite Hlen; nia).
    rewrite (tab_concat (2 ^ n)).
    + change (@nil (F p)) with (evs (@mkMle p 0 [])). rewrite map_nth. reflexivity.
    + intros l Hl. apply in_map_iff in Hl. destruct Hl as [m [<- Hm]]. destruct (H m Hm) as [Hw Hn].
      rewrite <- Hn. exact Hw.
    + exact Hk.
  - intros i x Hi Hx. rewrite Hpt by lia. apply mle_ext_zero. intros k Hk.
    unfold tab. rewrite app_nth2 by (rewrite Hlen; nia).
    apply nth_repeat.
Qed.

Lemma merge_polynomials_err : forall (polys : list (mle p)) m0 m, In m polys -> nth_error polys 0 = Some m0 ->
  nv m <> nv m0 -> merge_polynomials polys = Err ArithInvalidParameters.
Proof.
  intros polys m0 m Hin H0 Hne. unfold merge_polynomials, rnth. rewrite H0. cbn [ounwrap bind].
  replace (forallb (fun q : mle p => nv m0 =? nv q) polys) with false; [reflexivity|].
  symmetry. apply not_true_is_false. intros Hf. rewrite forallb_forall in Hf. specialize (Hf m Hin).
  apply Nat.eqb_eq in Hf. congruence.
Qed.

(** ** The eq polynomial *)
Lemma eq_eval_loop_spec : forall (x y : list (F p)), eq_eval_loop (combine x y) = eqf x y.
Proof.
  intros x y. unfold eq_eval_loop, eqf.
  set (g := fun xy : F p * F p => (fst xy * snd xy + (F1 - fst xy) * (F1 - snd xy))%F).
  assert (G : forall l a, fold_left (fun acc t => let '(xi, yi) := t in
     let xi_yi := (xi * yi)%F in (acc * (xi_yi + xi_yi - xi - yi + F1))%F) l a = (a * Fprod (map g l))%F).
  { induction l as [|[xi yi] l IH]; intros a; simpl; [ring|]. rewrite IH. unfold g; simpl. ring. }
  rewrite G. ring.
Qed.

Lemma eq_eval_spec : forall (x y : list (F p)), length x = length y -> eq_eval x y = Ok (eqf x y).
Proof.
  intros x y H. unfold eq_eval. rewrite H, Nat.eqb_refl. cbn [ensure bind]. rewrite eq_eval_loop_spec. reflexivity.
Qed.

Lemma eq_eval_err : forall (x y : list (F p)), length x <> length y -> eq_eval x y = Err ArithInvalidParameters.
Proof.
  intros x y H. unfold eq_eval. apply Nat.eqb_neq in H. rewrite H. reflexivity.
Qed.

Lemma kzg_eq_eval_spec : forall (x y : list (F p)), length x = length y -> kzg_eq_eval x y = Ok (eqf x y).
Proof.
  intros x y H. unfold kzg_eq_eval. rewrite H, Nat.eqb_refl. cbn [ensure bind]. rewrite eq_eval_loop_spec. reflexivity.
Qed.

Definition eq_table (r : list (F p)) : list (F p) :=
  map (fun k => eqk (bits (length r) k) r) (seq 0 (2 ^ length r)).

Lemma eq_table_length : forall r, length (eq_table r) = 2 ^ length r.
Proof. intros. unfold eq_table. rewrite map_length, seq_length. reflexivity. Qed.

Lemma build_eq_x_r_vec_spec : forall r : list (F p), r <> [] -> build_eq_x_r_vec r = Ok (eq_table r).
Proof.
  unfold build_eq_x_r_vec. induction r as [|r0 r IH]; intros Hne; [congruence|].
  destruct r as [|r1 r].
  - simpl. unfold eq_table, eqk. simpl. f_equal. f_equal; [ring|]. f_equal. ring.
  - change (build_eq_x_r_helper (r0 :: r1 :: r)) with
      (buf <- build_eq_x_r_helper (r1 :: r) ;;
       mapM (fun i => bi <- rnth buf (Nat.div2 i) ;;
              let tmp := (r0 * bi)%F in
              Ok (if Nat.even i then (bi - tmp)%F else tmp))
           (seq 0 (2 * length buf))).
    rewrite IH by discriminate. cbn [bind].
    set (rr := r1 :: r) in *. rewrite eq_table_length.
    unfold eq_table at 2. change (length (r0 :: rr)) with (S (length rr)). rewrite pow2_S.
    apply mapM_ok. intros i Hi. apply in_seq in Hi.
    destruct (even_odd_cases i) as [j [-> | ->]].
    + rewrite Nat.div2_double. rewrite (rnth_ok _ j F0) by (rewrite eq_table_length; lia). cbn [bind].
      rewrite Nat.even_mul. cbn [orb Nat.even]. unfold eq_table. rewrite nth_map_seq by lia.
      rewrite bits_double, eqk_cons. f_equal. ring.
    + rewrite Nat.add_1_r, Nat.div2_succ_double. rewrite (rnth_ok _ j F0) by (rewrite eq_table_length; lia). cbn [bind].
      rewrite Nat.even_succ, <- Nat.negb_even, Nat.even_mul. cbn [orb negb Nat.even]. unfold eq_table. rewrite nth_map_seq by lia.
      replace (S (2 * j)) with (2 * j + 1) by lia. rewrite bits_double1, eqk_cons. reflexivity.
Qed.

Lemma eq_table_ext : forall (r x : list (F p)), length x = length r ->
  mle_ext (length r) (tab (eq_table r)) x = eqf x r.
Proof.
  intros r x Hx. rewrite <- (mle_ext_eqk (length r) r x eq_refl Hx). apply mle_ext_ext.
  intros k Hk. unfold tab, eq_table. rewrite nth_map_seq by exact Hk. reflexivity.
Qed.

Lemma build_eq_x_r_spec : forall r : list (F p), r <> [] -> build_eq_x_r r = Ok (mkMle (length r) (eq_table r)).
Proof.
  intros r Hr. unfold build_eq_x_r. rewrite build_eq_x_r_vec_spec by exact Hr. cbn [bind].
  apply from_evaluations_ok. apply eq_table_length.
Qed.

(** Product of the tables of eq_extension is the eq table. *)
Lemma eq_extension_prod : forall (t : list (F p)) k, k < 2 ^ length t ->
  Fprod (map (fun m => tab (evs m) k) (eq_extension t)) = eqk (bits (length t) k) t.
Proof.
  intros t k Hk. unfold eq_extension. rewrite map_map. cbn [evs].
  rewrite (Fprod_map_ext _ (fun i => if Nat.testbit k i then nth i t F0 else (F1 - nth i t F0)%F)).
  2:{ intros i Hi. unfold tab. rewrite nth_map_seq by exact Hk. destruct (Nat.testbit k i); ring. }
  clear Hk. revert k. induction t as [|t0 t IH]; intros k; [reflexivity|].
  simpl length. rewrite bits_S, eqk_cons. cbn [seq map]. rewrite Fprod_cons.
  rewrite <- seq_shift, map_map. rewrite <- IH. f_equal.
Qed.

(** ** Increasing the number of variables *)
Lemma tab_front : forall c (l : list (F p)) i j, i < length l -> j < c ->
  tab (concat (map (fun e => repeat e c) l)) (j + c * i) = tab l i.
Proof.
  intros c l i j Hi Hj. rewrite (tab_concat c).
  - change (@nil (F p)) with ((fun e : F p => repeat e 0) F0).
    unfold tab. rewrite (nth_indep _ _ (repeat F0 c)) by (rewrite map_length; exact Hi).
    rewrite (map_nth (fun e => repeat e c)).
    rewrite (nth_indep _ F0 (nth i l F0)) by (rewrite repeat_length; exact Hj).
    apply nth_repeat.
  - intros l' Hl'. apply in_map_iff in Hl'. destruct Hl' as [e [<- _]]. apply repeat_length.
  - exact Hj.
Qed.

Lemma pow2_split : forall n m, n <= m -> 2 ^ m = 2 ^ n * 2 ^ (m - n).
Proof. intros n m H. rewrite <- Nat.pow_add_r. f_equal. lia. Qed.

Lemma pow2_div : forall n m, n <= m -> 2 ^ m / 2 ^ n = 2 ^ (m - n).
Proof.
  intros n m H. replace m with ((m - n) + n) at 1 by lia. rewrite Nat.pow_add_r.
  apply Nat.div_mul. apply Nat.pow_nonzero. lia.
Qed.

Lemma increase_front_ok : forall (m : mle p) N, wf_mle m -> nv m <= N ->
  exists q, dmle_increase_nv_front m N = Ok q /\ wf_mle q /\ nv q = N /\
    (forall k, k < 2 ^ N -> tab (evs q) k = tab (evs m) (k / 2 ^ (N - nv m))).
Proof.
  intros m N Hw HN. unfold dmle_increase_nv_front.
  destruct (Nat.eqb_spec (nv m) N) as [E|E].
  - exists m. repeat split; auto. intros k Hk. rewrite E, Nat.sub_diag, Nat.div_1_r. reflexivity.
  - replace (N <? nv m) with false by (symmetry; apply Nat.ltb_ge; lia).
    rewrite (mapM_ok _ (fun i => repeat (tab (evs m) i) (2 ^ N / 2 ^ nv m))).
    2:{ intros i Hi. apply in_seq in Hi. unfold wf_mle in Hw. rewrite (rnth_ok _ i F0) by lia. reflexivity. }
    cbn [bind]. rewrite pow2_div by lia.
    rewrite <- (map_map (tab (evs m)) (fun e => repeat e (2 ^ (N - nv m)))).
    replace (map (tab (evs m)) (seq 0 (2 ^ nv m))) with (evs m).
    2:{ rewrite <- Hw. symmetry. apply (map_nth_seq F0). }
    assert (HL : length (concat (map (fun e : F p => repeat e (2 ^ (N - nv m))) (evs m))) = 2 ^ N).
    { rewrite (concat_length_const (2 ^ (N - nv m))), map_length.
      - rewrite Hw, <- Nat.pow_add_r. f_equal. lia.
      - intros l Hl. apply in_map_iff in Hl. destruct Hl as [e [<- _]]. apply repeat_length. }
    rewrite from_evaluations_ok by exact HL. eexists. split; [reflexivity|]. simpl.
    repeat split; auto. intros k Hk. pose proof (pow2_pos (N - nv m)) as Hpos.
    rewrite (Nat.div_mod k (2 ^ (N - nv m))) at 1 by lia.
    rewrite Nat.add_comm. apply tab_front.
    + unfold wf_mle in Hw. rewrite Hw. apply Nat.div_lt_upper_bound; [lia|].
      rewrite <- Nat.pow_add_r. replace (N - nv m + nv m) with N by lia. exact Hk.
    + apply Nat.mod_upper_bound. lia.
Qed.

Lemma vec_resize_length : forall (l : list (F p)) n, length (vec_resize l n) = n.
Proof. intros. unfold vec_resize. rewrite app_length, firstn_length, repeat_length. lia. Qed.

Lemma tile_loop : forall old (ev : list (F p)) c, 0 < old -> old + c <= length ev ->
  exists ev', foldM (fun ev i => e <- rnth ev (i mod old) ;; rupd ev i e) ev (seq old c) = Ok ev' /\
    length ev' = length ev /\
    (forall i, i < old + c -> tab ev' i = tab ev (i mod old)) .
Proof.
  intros old ev c Hold. induction c as [|c IH]; intros Hc.
  - exists ev. simpl. repeat split; auto. intros i Hi. rewrite Nat.mod_small by lia. reflexivity.
  - destruct IH as [e1 [H1 [H2 H3]]]; [lia|].
    rewrite seq_S, foldM_app, H1. simpl.
    pose proof (Nat.mod_upper_bound (old + c) old ltac:(lia)) as Hb.
    rewrite (rnth_ok e1 _ F0) by lia. simpl. unfold rupd.
    replace (old + c <? length e1) with true by (symmetry; apply Nat.ltb_lt; lia). simpl.
    eexists. split; [reflexivity|]. rewrite upd_length. split; [exact H2|].
    intros i Hi. destruct (Nat.eq_dec i (old + c)) as [->|Hne].
    + unfold tab at 1. rewrite upd_nth_eq by lia. change (tab e1 ((old + c) mod old) = tab ev ((old + c) mod old)).
      rewrite H3 by lia. rewrite Nat.mod_mod by lia. reflexivity.
    + unfold tab at 1. rewrite upd_nth_neq by lia. apply H3. lia.
Qed.

Lemma increase_back_ok : forall (m : mle p) N, wf_mle m -> nv m <= N ->
  exists q, dmle_increase_nv_back m N = Ok q /\ wf_mle q /\ nv q = N /\
    (forall k, k < 2 ^ N -> tab (evs q) k = tab (evs m) (k mod 2 ^ nv m)).
Proof.
  intros m N Hw HN. unfold dmle_increase_nv_back.
  destruct (Nat.eqb_spec (nv m) N) as [E|E].
  - exists m. repeat split; auto. intros k Hk. rewrite E, Nat.mod_small by exact Hk. reflexivity.
  - replace (N <? nv m) with false by (symmetry; apply Nat.ltb_ge; lia).
    pose proof (pow2_pos (nv m)) as Hpos.
    assert (Hle : 2 ^ nv m <= 2 ^ N) by (apply Nat.pow_le_mono_r; lia).
    destruct (tile_loop (2 ^ nv m) (vec_resize (evs m) (2 ^ N)) (2 ^ N - 2 ^ nv m)) as [e1 [H1 [H2 H3]]];
      [lia | rewrite vec_resize_length; lia |].
    rewrite H1. cbn [bind]. rewrite vec_resize_length in H2.
    rewrite from_evaluations_ok by exact H2. eexists. split; [reflexivity|]. simpl.
    repeat split; auto. intros k Hk. rewrite H3 by lia.
    pose proof (Nat.mod_upper_bound k (2 ^ nv m) ltac:(lia)) as Hb.
    unfold vec_resize. unfold wf_mle in Hw. rewrite firstn_all2 by lia. apply tab_app_l. lia.
Qed.

Lemma increase_front_panic : forall (m : mle p) N, N < nv m -> dmle_increase_nv_front m N = Panic.
Proof.
  intros m N H. unfold dmle_increase_nv_front. destruct (Nat.eqb_spec (nv m) N); [lia|].
  apply Nat.ltb_lt in H. rewrite H. reflexivity.
Qed.
Lemma increase_back_panic : forall (m : mle p) N, N < nv m -> dmle_increase_nv_back m N = Panic.
Proof.
  intros m N H. unfold dmle_increase_nv_back. destruct (Nat.eqb_spec (nv m) N); [lia|].
  apply Nat.ltb_lt in H. rewrite H. reflexivity.
Qed.

Lemma increase_front_ext : forall (m : mle p) N, wf_mle m -> nv m <= N ->
  exists q, dmle_increase_nv_front m N = Ok q /\ wf_mle q /\ nv q = N /\
    (forall y x, length y = N - nv m -> mle_ext N (tab (evs q)) (y ++ x) = mle_ext (nv m) (tab (evs m)) x).
Proof.
  intros m N Hw HN. destruct (increase_front_ok m N Hw HN) as [q [H1 [H2 [H3 H4]]]].
  exists q. repeat split; auto. intros y x Hy.
  assert (HE : mle_ext N (tab (evs q)) (y ++ x) = mle_ext (N - nv m + nv m) (tab (evs q)) (y ++ x)) by (f_equal; lia).
  rewrite HE, mle_ext_app by exact Hy. apply mle_ext_ext. intros j Hj.
  rewrite (mle_ext_ext _ _ (fun _ => tab (evs m) j)).
  - apply mle_ext_const. exact Hy.
  - intros i Hi. pose proof (pow2_pos (N - nv m)) as Hpos. rewrite H4.
    + f_equal. rewrite Nat.mul_comm, Nat.div_add by lia. rewrite Nat.div_small by exact Hi. reflexivity.
    + rewrite (pow2_split (nv m) N HN). nia.
Qed.

Lemma increase_back_ext : forall (m : mle p) N, wf_mle m -> nv m <= N ->
  exists q, dmle_increase_nv_back m N = Ok q /\ wf_mle q /\ nv q = N /\
    (forall x y, length x = nv m -> length y = N - nv m ->
       mle_ext N (tab (evs q)) (x ++ y) = mle_ext (nv m) (tab (evs m)) x).
Proof.
  intros m N Hw HN. destruct (increase_back_ok m N Hw HN) as [q [H1 [H2 [H3 H4]]]].
  exists q. repeat split; auto. intros x y Hx Hy.
  assert (HE : mle_ext N (tab (evs q)) (x ++ y) = mle_ext (nv m + (N - nv m)) (tab (evs q)) (x ++ y)) by (f_equal; lia).
  rewrite HE, mle_ext_app by exact Hx.
  rewrite (mle_ext_ext _ _ (fun _ => mle_ext (nv m) (tab (evs m)) x)).
  - apply mle_ext_const. exact Hy.
  - intros j Hj. apply mle_ext_ext. intros i Hi. rewrite H4.
    + f_equal. rewrite Nat.mul_comm, Nat.mod_add by lia. apply Nat.mod_small. exact Hi.
    + rewrite (pow2_split (nv m) N HN). nia.
Qed.

(** Sums of extended tables. *)
Lemma sumN_blocks : forall a b (f : nat -> F p),
  sumN (a * b) f = sumN b (fun j => sumN a (fun i => f (i + a * j)%nat)).
Proof.
  intros a b f. induction b as [|b IH].
  - rewrite Nat.mul_0_r. reflexivity.
  - rewrite sumN_S, <- IH. replace (a * S b) with (a * b + a) by lia. rewrite sumN_plus. f_equal.
    apply sumN_ext. intros k Hk. f_equal. lia.
Qed.

Lemma increase_front_sum : forall (m q : mle p) N, wf_mle m -> nv m <= N ->
  dmle_increase_nv_front m N = Ok q -> Fsum (evs q) = (ofN (2 ^ (N - nv m)) * Fsum (evs m))%F.
Proof.
  intros m q N Hw HN Hq. destruct (increase_front_ok m N Hw HN) as [q' [H1 [H2 [H3 H4]]]].
  rewrite H1 in Hq. inversion Hq; subst q'. unfold wf_mle in *.
  rewrite (sumN_Fsum (evs q)), (sumN_Fsum (evs m)), H2, Hw, H3.
  replace N with ((N - nv m) + nv m) at 1 by lia. rewrite Nat.pow_add_r, sumN_blocks.
  rewrite <- sumN_mul_l. apply sumN_ext. intros j Hj.
  rewrite <- sumN_const. apply sumN_ext. intros i Hi.
  change (tab (evs q) (i + 2 ^ (N - nv m) * j) = tab (evs m) j). pose proof (pow2_pos (N - nv m)) as Hpos. rewrite H4.
  - f_equal. rewrite Nat.mul_comm, Nat.div_add by lia. rewrite Nat.div_small by exact Hi. reflexivity.
  - rewrite (pow2_split (nv m) N HN). nia.
Qed.

Lemma increase_back_sum : forall (m q : mle p) N, wf_mle m -> nv m <= N ->
  dmle_increase_nv_back m N = Ok q -> Fsum (evs q) = (ofN (2 ^ (N - nv m)) * Fsum (evs m))%F.
Proof.
  intros m q N Hw HN Hq. destruct (increase_back_ok m N Hw HN) as [q' [H1 [H2 [H3 H4]]]].
  rewrite H1 in Hq. inversion Hq; subst q'. unfold wf_mle in *.
  rewrite (sumN_Fsum (evs q)), (sumN_Fsum (evs m)), H2, Hw, H3.
  replace N with (nv m + (N - nv m)) at 1 by lia. rewrite Nat.pow_add_r, sumN_blocks.
  rewrite <- sumN_const. apply sumN_ext. intros j Hj. apply sumN_ext. intros i Hi.
  change (tab (evs q) (i + 2 ^ nv m * j) = tab (evs m) i). rewrite H4.
  - f_equal. rewrite Nat.mul_comm, Nat.mod_add by lia. apply Nat.mod_small. exact Hi.
  - rewrite (pow2_split (nv m) N HN). nia.
Qed.
End S2.
