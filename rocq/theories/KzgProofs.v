(** Proofs about the multilinear KZG scheme. *)
From Coq Require Import List Arith Lia Bool ZArith Znumtheory.
Import ListNotations.
From Verif Require Import Res ResLemmas Fp FSum SpecMle SpecKzg ModelMle MleLemmas MleProofs Pairing ModelKzg.

Local Open Scope nat_scope.
(** ** Modules over F p *)
Section G.
Context {p : positive} {G : grp p} (HG : grp_laws G).
Add Ring Fr : (@F_ring p).
Implicit Types (a b c : gcar G) (x y : F p).

Lemma g_zero_r : forall a, gadd a gzero = a.
Proof. intros a. rewrite (gl_comm _ HG). apply (gl_zero _ HG). Qed.
Lemma g_cancel : forall a b c, gadd a b = gadd a c -> b = c.
Proof.
  intros a b c H. rewrite <- (gl_zero _ HG b), <- (gl_zero _ HG c), <- (gl_opp _ HG a).
  rewrite (gl_comm _ HG a (gopp a)), <- !(gl_assoc _ HG). rewrite H. reflexivity.
Qed.
Lemma g_mul_0 : forall a, gmul F0 a = gzero.
Proof.
  intros a. apply (g_cancel (gmul F0 a)). rewrite <- (gl_add_l _ HG), g_zero_r. reflexivity.
Qed.
Lemma g_mul_zero : forall x, gmul x (@gzero p G) = gzero.
Proof.
  intros x. apply (g_cancel (gmul x gzero)). rewrite <- (gl_add_r _ HG), !g_zero_r. reflexivity.
Qed.
Lemma g_opp_mul : forall a, gopp a = gmul (- F1)%F a.
Proof.
  intros a. apply (g_cancel a). rewrite (gl_opp _ HG).
  rewrite <- (gl_one _ HG a) at 1. rewrite <- (gl_add_l _ HG).
  replace (F1 + - F1)%F with (@F0 p) by ring. rewrite g_mul_0. reflexivity.
Qed.
Lemma g_sub_mul : forall x y a, gsub (gmul x a) (gmul y a) = gmul (x - y)%F a.
Proof.
  intros x y a. unfold gsub. rewrite g_opp_mul, <- (gl_mul _ HG), <- (gl_add_l _ HG). f_equal. ring.
Qed.
Lemma g_eqb_refl : forall a, geqb a a = true.
Proof. intros a. apply (gl_eqb _ HG). reflexivity. Qed.
Lemma g_sub_eq : forall a b, gsub a b = gzero -> a = b.
Proof.
  intros a b H. unfold gsub in H. apply (g_cancel (gopp b)).
  rewrite (gl_comm _ HG (gopp b) a), H, (gl_comm _ HG), (gl_opp _ HG). reflexivity.
Qed.

Lemma msm_scaled : forall (xs ys : list (F p)) a,
  msm (map (fun x => gmul x a) xs) ys = gmul (Fsum (map (fun xy => (fst xy * snd xy)%F) (combine xs ys))) a.
Proof.
  induction xs as [|x xs IH]; intros ys a; [unfold msm; simpl; rewrite g_mul_0; reflexivity|].
  destruct ys as [|y ys]; [unfold msm; simpl; rewrite g_mul_0; reflexivity|].
  cbn [map combine]. unfold msm in *. cbn [combine map fold_right fst snd]. rewrite IH.
  rewrite Fsum_cons, (gl_add_l _ HG). f_equal. cbn [fst snd]. rewrite <- (gl_mul _ HG). f_equal. ring.
Qed.

Lemma g_mul_cancel : prime (Zpos p) -> forall x a, gmul x a = gzero -> x = F0 \/ a = gzero.
Proof.
  intros Hp x a H. destruct (F_dec x F0) as [->|Hx]; [left; reflexivity|]. right.
  rewrite <- (gl_one _ HG a), <- (Finv_l Hp x Hx), (gl_mul _ HG), H. apply g_mul_zero.
Qed.
End G.

Section S.
Context {p : positive}.
Add Ring Fr2 : (@F_ring p).

(** ** The SRS *)

Definition fac (t : list (F p)) (x j : nat) : F p := if Nat.testbit x j then nth j t F0 else (F1 - nth j t F0)%F.

Definition partial_base (t : list (F p)) (i : nat) : list (F p) :=
  map (fun x => Fprod (map (fac t x) (seq i (length t - i)))) (seq 0 (2 ^ length t)).

Lemma fac_prod_eqk : forall (t : list (F p)) x, Fprod (map (fac t x) (seq 0 (length t))) = eqk (bits (length t) x) t.
Proof.
  induction t as [|t0 t IH]; intros x; [reflexivity|].
  simpl length. rewrite bits_S, eqk_cons. cbn [seq map]. rewrite Fprod_cons, <- IH. f_equal.
  rewrite <- seq_shift, map_map. reflexivity.
Qed.

Lemma nth_skipn_ : forall {A} (l : list A) i j d, nth j (skipn i l) d = nth (i + j) l d.
Proof.
  induction l as [|a l IH]; intros i j d; destruct i as [|i]; simpl; try reflexivity.
  - destruct j; reflexivity.
  - apply IH.
Qed.

Lemma fac_shift : forall (t : list (F p)) i x, i <= length t ->
  Fprod (map (fac t (x * 2 ^ i)) (seq i (length t - i))) = eqk (bits (length t - i) x) (skipn i t).
Proof.
  intros t i x Hi. pose proof (fac_prod_eqk (skipn i t) x) as E. rewrite skipn_length in E. rewrite <- E. f_equal.
  replace i with (0 + i) at 2 by lia. rewrite <- (map_id (seq 0 (length t - i))).
  assert (Hs : forall k n, seq (n + i) k = map (fun j => i + j) (seq n k)).
  { induction k as [|k IHk]; intros n; [reflexivity|]. cbn [seq map]. rewrite <- (IHk (S n)). f_equal. lia. }
  rewrite Hs, !map_map. apply map_ext. intros j. unfold fac. rewrite nth_skipn_.
  rewrite Nat.mul_pow2_bits_high by lia. replace (i + j - i) with j by lia. reflexivity.
Qed.

Lemma log2_up_pow2 : forall n, Nat.log2_up (2 ^ n) = n.
Proof. intros n. apply Nat.log2_up_pow2. lia. Qed.

Lemma is_pow2_pow : forall n, is_pow2 (2 ^ n) = true.
Proof.
  intros n. unfold is_pow2. rewrite Nat.log2_pow2 by lia. rewrite Nat.eqb_refl, andb_true_r.
  apply Nat.ltb_lt. apply pow2_pos.
Qed.

Lemma partial_base_length : forall t i, length (partial_base t i) = 2 ^ length t.
Proof. intros. unfold partial_base. rewrite map_length, seq_length. reflexivity. Qed.

Lemma remove_dummy_ok : forall (t : list (F p)) i, i <= length t ->
  remove_dummy_variable (partial_base t i) i = Ok (eq_table (skipn i t)).
Proof.
  intros t i Hi. unfold remove_dummy_variable. destruct (Nat.eqb_spec i 0) as [->|Hne].
  - f_equal. unfold partial_base, eq_table. rewrite Nat.sub_0_r, skipn_O. apply map_ext. intros x. apply fac_prod_eqk.
  - rewrite partial_base_length, is_pow2_pow. cbn [ensure bind]. rewrite log2_up_pow2.
    assert (E : (i <=? length t) = true) by (apply Nat.leb_le; exact Hi). rewrite E. cbn [rassert bind].
    unfold eq_table. rewrite skipn_length. apply mapM_ok. intros x Hx. apply in_seq in Hx.
    assert (Hb : x * 2 ^ i < 2 ^ length t).
    { replace (length t) with ((length t - i) + i) by lia. rewrite Nat.pow_add_r. pose proof (pow2_pos i). nia. }
    rewrite (rnth_ok _ _ F0) by (rewrite partial_base_length; exact Hb). f_equal.
    unfold partial_base. rewrite nth_map_seq by exact Hb. apply fac_shift. exact Hi.
Qed.

Definition ext_table (t : list (F p)) (j : nat) : mle p := mkMle (length t) (map (fun x => fac t x j) (seq 0 (2 ^ length t))).

Lemma eq_extension_tables : forall t : list (F p), eq_extension t = map (ext_table t) (seq 0 (length t)).
Proof.
  intros t. unfold eq_extension. apply map_ext. intros j. unfold ext_table. f_equal. apply map_ext. intros x.
  unfold fac. destruct (Nat.testbit x j); ring.
Qed.

Lemma combine_map2 : forall {A B C} (f : A -> B) (g : A -> C) (l : list A),
  combine (map f l) (map g l) = map (fun a => (f a, g a)) l.
Proof. induction l as [|a l IH]; [reflexivity|]. simpl. rewrite IH. reflexivity. Qed.

Lemma srs_loop_ok : forall k (t : list (F p)) acc, S k <= length t ->
  srs_loop (S k) (partial_base t k) (rev (map (ext_table t) (seq 0 k))) acc =
  Ok (map (fun i => eq_table (skipn i t)) (seq 0 (S k)) ++ acc).
Proof.
  induction k as [|k IH]; intros t acc Hk.
  - cbn [srs_loop]. rewrite remove_dummy_ok by lia. cbn [bind Nat.eqb seq map app]. reflexivity.
  - remember (S k) as k1. cbn [srs_loop]. rewrite remove_dummy_ok by lia. cbn [bind].
    destruct (Nat.eqb_spec k1 0) as [E|_]; [lia|]. subst k1.
    assert (Er : rev (map (ext_table t) (seq 0 (S k))) = ext_table t k :: rev (map (ext_table t) (seq 0 k)))
      by (rewrite seq_S, map_app, rev_app_distr; reflexivity).
    rewrite Er. clear Er. cbn [ext_table evs]. cbn [partial_base].
    assert (Ep : map (fun ab : F p * F p => (fst ab * snd ab)%F)
       (combine (partial_base t (S k)) (map (fun x => fac t x k) (seq 0 (2 ^ length t)))) = partial_base t k).
    { unfold partial_base. rewrite combine_map2, map_map. apply map_ext. intros x. cbn [fst snd].
      replace (length t - k) with (S (length t - S k)) by lia. cbn [seq map]. rewrite Fprod_cons. ring. }
    rewrite Ep. rewrite IH by lia. rewrite (seq_S (S k)), map_app, <- app_assoc. reflexivity.
Qed.

Lemma seq_last_nonempty : forall n, 1 <= n -> seq 0 n = seq 0 (n - 1) ++ [n - 1].
Proof. intros n H. destruct n as [|n]; [lia|]. rewrite seq_S. simpl. rewrite Nat.sub_0_r. reflexivity. Qed.

Lemma slice_ok : forall {A} (l1 l2 l3 : list A) a b, a = length l1 -> b = a + length l2 ->
  slice (l1 ++ l2 ++ l3) a b = Ok l2.
Proof.
  intros A l1 l2 l3 a b -> ->. unfold slice. rewrite !app_length.
  assert (E1 : (length l1 <=? length l1 + length l2) = true) by (apply Nat.leb_le; lia).
  assert (E2 : (length l1 + length l2 <=? length l1 + (length l2 + length l3)) = true) by (apply Nat.leb_le; lia).
  rewrite E1, E2. cbn [andb]. f_equal. rewrite skipn_app, skipn_all, Nat.sub_diag, skipn_O. cbn [app].
  replace (length l1 + length l2 - length l1) with (length l2) by lia.
  rewrite firstn_app, firstn_all, Nat.sub_diag, firstn_O, app_nil_r. reflexivity.
Qed.

Lemma slice_suffix : forall {A} (l : list A) i n, n = length l -> i <= n -> slice l i n = Ok (skipn i l).
Proof.
  intros A l i n -> Hi. unfold slice.
  assert (E1 : (i <=? length l) = true) by (apply Nat.leb_le; exact Hi).
  rewrite E1, Nat.leb_refl. cbn [andb]. f_equal. rewrite <- (skipn_length i l). apply firstn_all.
Qed.

Lemma eq_table_nth0 : forall r : list (F p), nth 0 (eq_table r) F0 = eqf (repeat F0 (length r)) r.
Proof.
  intros r. unfold eq_table. rewrite nth_map_seq by apply pow2_pos.
  rewrite eqk_eqf. f_equal. unfold bits. rewrite map_map.
  assert (E : forall n s, map (fun j => b2f (p:=p) (Nat.testbit 0 j)) (seq s n) = repeat F0 n).
  { induction n as [|n IH]; intros s; [reflexivity|]. cbn [seq map repeat]. rewrite IH, Nat.bits_0. reflexivity. }
  apply E.
Qed.

Context {E : pairing p} (HE : pairing_laws E).
Implicit Types (g : gcar (PG1 E)) (h : gcar (PG2 E)).

Definition gtab g (t : list (F p)) (i : nat) : list (gcar (PG1 E)) := map (fun x => gmul x g) (eq_table (skipn i t)).

Lemma gtab_length : forall g t i, i <= length t -> length (gtab g t i) = 2 ^ (length t - i).
Proof. intros. unfold gtab. rewrite map_length, eq_table_length, skipn_length. reflexivity. Qed.

Lemma srs_chunks_ok : forall k (t : list (F p)) g i pre, i + k = length t ->
  srs_chunks g t (length t) (pre ++ concat (map (gtab g t) (seq i k))) k i (length pre) = Ok (map (gtab g t) (seq i k)).
Proof.
  induction k as [|k IH]; intros t g i pre Hik; [reflexivity|].
  cbn [srs_chunks seq map concat].
  rewrite (slice_ok pre (gtab g t i)) by (try reflexivity; rewrite gtab_length by lia; lia). cbn [bind].
  rewrite slice_suffix by (try reflexivity; lia). cbn [bind].
  rewrite kzg_eq_eval_spec by (rewrite repeat_length, skipn_length; lia). cbn [bind].
  rewrite (rnth_ok _ 0 (gmul F0 g)) by (rewrite gtab_length by lia; apply pow2_pos). cbn [bind].
  unfold gtab at 1. rewrite (map_nth (fun x => gmul x g)), eq_table_nth0, skipn_length.
  rewrite (g_eqb_refl (pl_1 _ HE)). cbn [rassert bind].
  specialize (IH t g (S i) (pre ++ gtab g t i)). rewrite app_length, gtab_length, <- app_assoc in IH by lia.
  rewrite IH by lia. reflexivity.
Qed.

Definition srs_of g h (t : list (F p)) : srs E :=
  mkSrs (mkPp (length t) (map (gtab g t) (seq 0 (S (length t)))) g h) (map (fun x => gmul x h) t).

Lemma mapM_rnth_all : forall {A} (l : list A) n, n = length l -> mapM (rnth l) (seq 0 n) = Ok l.
Proof.
  intros A l n ->. destruct l as [|a0 l0] eqn:El; [reflexivity|]. rewrite <- El.
  rewrite (mapM_ok _ (fun i => nth i l a0)).
  - f_equal. apply map_nth_seq.
  - intros i Hi. apply in_seq in Hi. apply rnth_ok. lia.
Qed.

Lemma gen_srs_ok : forall g h rnd n, 1 <= n -> gen_srs E g h rnd n = Ok (srs_of g h (trapdoor rnd n)).
Proof.
  intros g h rnd n Hn. unfold gen_srs. destruct (Nat.eqb_spec n 0) as [->|_]; [lia|]. fold (trapdoor rnd n).
  set (t := trapdoor rnd n). assert (Ht : length t = n) by (unfold t, trapdoor; rewrite map_length, seq_length; reflexivity).
  rewrite eq_extension_tables, Ht, (seq_last_nonempty n Hn), map_app, rev_app_distr. cbn [rev app map].
  assert (Hb : evs (ext_table t (n - 1)) = partial_base t (n - 1)).
  { unfold ext_table, partial_base. cbn [evs]. rewrite Ht. replace (n - (n - 1)) with 1 by lia. apply map_ext. intros x.
    cbn [seq map]. rewrite Fprod_cons, Fprod_nil. ring. }
  rewrite Hb. pose proof (srs_loop_ok (n - 1) t []) as El. replace (S (n - 1)) with n in El by lia.
  rewrite El by lia. cbn [bind]. rewrite app_nil_r. clear El.
  rewrite <- (seq_last_nonempty n Hn).
  rewrite (mapM_ok _ (fun i => eq_table (skipn i t))).
  2:{ intros i Hi. apply in_seq in Hi. rewrite (rnth_ok _ i []) by (rewrite map_length, seq_length; lia). cbn [bind].
      rewrite (nth_map_seq (fun i => eq_table (skipn i t))) by lia.
      apply mapM_rnth_all. rewrite eq_table_length, skipn_length, Ht. reflexivity. }
  cbn [bind]. rewrite concat_map, map_map. change (map (fun i => map (fun x => gmul x g) (eq_table (skipn i t))) (seq 0 n)) with (map (gtab g t) (seq 0 n)).
  pose proof (srs_chunks_ok n t g 0 []) as Ec. rewrite Ht in Ec. cbn [length app] in Ec. rewrite Ec by lia. cbn [bind].
  unfold srs_of. rewrite Ht, seq_S, map_app. cbn [map Nat.add]. do 4 f_equal. unfold gtab. rewrite <- Ht, skipn_all.
  unfold eq_table, bits, eqk. cbn. rewrite (gl_one _ (pl_1 _ HE)). reflexivity.
Qed.

Lemma gen_srs_zero : forall g h rnd, gen_srs E g h rnd 0 = Err PCSInvalidParameters.
Proof. reflexivity. Qed.

(** ** Trimming *)
Lemma skipn_map_ : forall {A B} (f : A -> B) n (l : list A), skipn n (map f l) = map f (skipn n l).
Proof. induction n as [|n IH]; intros l; [reflexivity|]. destruct l; simpl; [reflexivity|apply IH]. Qed.
Lemma skipn_seq_ : forall k n s, skipn k (seq s n) = seq (s + k) (n - k).
Proof.
  induction k as [|k IH]; intros n s; [rewrite skipn_O, Nat.add_0_r, Nat.sub_0_r; reflexivity|].
  destruct n as [|n]; [reflexivity|]. cbn [seq skipn]. rewrite IH. f_equal; lia.
Qed.
Lemma skipn_skipn_ : forall {A} a b (l : list A), skipn a (skipn b l) = skipn (b + a) l.
Proof.
  intros A a b. induction b as [|b IH]; intros l; [reflexivity|]. destruct l; [destruct a; reflexivity|]. simpl. apply IH.
Qed.

Lemma srs_of_trim_powers : forall g (t : list (F p)) k, k <= length t ->
  skipn k (map (gtab g t) (seq 0 (S (length t)))) = map (gtab g (skipn k t)) (seq 0 (S (length t - k))).
Proof.
  intros g t k Hk. rewrite skipn_map_, skipn_seq_. cbn [Nat.add]. replace (S (length t) - k) with (S (length t - k)) by lia.
  assert (Hs : forall m n, seq (n + k) m = map (fun j => k + j) (seq n m)).
  { induction m as [|m IHm]; intros n; [reflexivity|]. cbn [seq map]. rewrite <- (IHm (S n)). f_equal. lia. }
  pose proof (Hs (S (length t - k)) 0) as Hs0. cbn [Nat.add] in Hs0. rewrite Hs0, map_map. apply map_ext. intros j.
  unfold gtab. rewrite skipn_skipn_. reflexivity.
Qed.

Definition vk_of g h (t : list (F p)) : vparam E := mkVpar (length t) g h (map (fun x => gmul x h) t).

Lemma srs_trim_ok : forall g h (t : list (F p)) n, n <= length t ->
  srs_trim (srs_of g h t) n = Ok (srs_pp (srs_of g h (skipn (length t - n) t)), vk_of g h (skipn (length t - n) t)).
Proof.
  intros g h t n Hn. unfold srs_trim. cbn [srs_of srs_pp pp_nv pp_powers pp_g pp_h srs_mask].
  assert (E0 : (length t <? n) = false) by (apply Nat.ltb_ge; exact Hn). rewrite E0.
  rewrite slice_from_ok by (rewrite map_length, seq_length; lia). cbn [bind].
  rewrite slice_from_ok by (rewrite map_length; lia). cbn [bind].
  unfold vk_of. rewrite !skipn_length. replace (length t - (length t - n)) with n by lia.
  rewrite srs_of_trim_powers by lia. replace (length t - (length t - n)) with n by lia.
  rewrite skipn_map_. reflexivity.
Qed.

Lemma srs_trim_err : forall (s : srs E) n, pp_nv (srs_pp s) < n -> srs_trim s n = Err PCSInvalidParameters.
Proof. intros s n H. unfold srs_trim. apply Nat.ltb_lt in H. rewrite H. reflexivity. Qed.

(** ** Commit *)
Lemma Fsum_combine_eqk : forall (l : list (F p)) t, length l = 2 ^ length t ->
  Fsum (map (fun xy => (fst xy * snd xy)%F) (combine (eq_table t) l)) = mle_ext (length t) (tab l) t.
Proof.
  intros l t Hl. unfold mle_ext, sumN. f_equal. rewrite <- (map_nth_seq F0 l) at 1. rewrite Hl. unfold eq_table.
  rewrite combine_map2, map_map. apply map_ext. intros k. cbn [fst snd]. unfold tab. ring.
Qed.

Lemma commit_ok : forall g h (t : list (F p)) f, wf_mle f -> nv f <= length t ->
  kzg_commit (srs_pp (srs_of g h t)) f = Ok (gmul (mle_ext (nv f) (tab (evs f)) (skipn (length t - nv f) t)) g).
Proof.
  intros g h t f Hw Hn. unfold kzg_commit. cbn [srs_of srs_pp pp_nv pp_powers].
  assert (E0 : (length t <? nv f) = false) by (apply Nat.ltb_ge; exact Hn). rewrite E0.
  rewrite (rnth_ok _ _ []) by (rewrite map_length, seq_length; lia). cbn [bind].
  rewrite (nth_map_seq (gtab g t)) by lia. unfold gtab. f_equal. rewrite (msm_scaled (pl_1 _ HE)). f_equal.
  set (s := skipn (length t - nv f) t). assert (Hs : length s = nv f) by (unfold s; rewrite skipn_length; lia).
  rewrite <- Hs. apply Fsum_combine_eqk. rewrite Hs. exact Hw.
Qed.

(** ** Open *)

(** The quotient tables of the rounds and the identity
    f(t) - f(x) = sum_i q_i(t_{i+1..}) (t_i - x_i). *)
Definition qtab (f : list (F p)) (k : nat) : list (F p) :=
  map (fun b => (tab f (2 * b + 1) - tab f (2 * b))%F) (seq 0 (2 ^ k)).
Definition rtab (f : list (F p)) (k : nat) (x : F p) : list (F p) :=
  map (fun b => (tab f (2 * b) + (tab f (2 * b + 1) - tab f (2 * b)) * x)%F) (seq 0 (2 ^ k)).

Lemma open_round_ok : forall (f : list (F p)) k x, length f = 2 ^ S k -> open_round f k x = Ok (qtab f k, rtab f k x).
Proof.
  intros f k x Hf. unfold open_round. rewrite pow2_S in Hf.
  rewrite (mapM_ok _ (fun b => ((tab f (2 * b + 1) - tab f (2 * b))%F, (tab f (2 * b) + (tab f (2 * b + 1) - tab f (2 * b)) * x)%F))).
  2:{ intros b Hb. apply in_seq in Hb. rewrite (rnth_ok _ (2 * b) F0) by lia. cbn [bind].
      rewrite (rnth_ok _ (2 * b + 1) F0) by lia. reflexivity. }
  cbn [bind]. rewrite !map_map. reflexivity.
Qed.

Lemma rtab_length : forall f k x, length (rtab f k x) = 2 ^ k.
Proof. intros. unfold rtab. rewrite map_length, seq_length. reflexivity. Qed.
Lemma qtab_length : forall f k, length (qtab f k) = 2 ^ k.
Proof. intros. unfold qtab. rewrite map_length, seq_length. reflexivity. Qed.

(** Exponents of the opening proof: q_i at the trapdoor suffix. *)
Fixpoint qexps (f : list (F p)) (t x : list (F p)) : list (F p) :=
  match t, x with
  | _ :: t', x0 :: x' => mle_ext (length t') (tab (qtab f (length t'))) t' :: qexps (rtab f (length t') x0) t' x'
  | _, _ => []
  end.

Lemma qexps_length : forall t x f, length x = length t -> length (qexps f t x) = length t.
Proof.
  induction t as [|t0 t IH]; intros x f Hx; [reflexivity|]. destruct x as [|x0 x]; [discriminate|].
  cbn [qexps length]. rewrite IH; [reflexivity|]. injection Hx. auto.
Qed.

Lemma quotient_identity : forall t x f, length x = length t -> length f = 2 ^ length t ->
  (mle_ext (length t) (tab f) t - mle_ext (length t) (tab f) x)%F =
  Fsum (map (fun qd => (fst qd * snd qd)%F) (combine (qexps f t x) (map (fun tx => (fst tx - snd tx)%F) (combine t x)))).
Proof.
  induction t as [|t0 t IH]; intros x f Hx Hf.
  - destruct x; [|discriminate]. simpl. ring.
  - destruct x as [|x0 x]; [discriminate|]. injection Hx as Hx. cbn [length] in Hf |- *.
    cbn [qexps combine map]. rewrite Fsum_cons. rewrite <- IH; [|exact Hx|apply rtab_length].
    cbn [fst snd]. rewrite !mle_ext_cons'.
    rewrite (mle_ext_ext (length t) (tab (rtab f (length t) x0))
      (fun k => tab f (2 * k)%nat + (tab f (2 * k + 1)%nat - tab f (2 * k)%nat) * x0)%F t).
    2:{ intros k Hk. unfold tab at 1, rtab. rewrite nth_map_seq by exact Hk. reflexivity. }
    rewrite (mle_ext_ext (length t) (tab (rtab f (length t) x0))
      (fun k => tab f (2 * k)%nat + (tab f (2 * k + 1)%nat - tab f (2 * k)%nat) * x0)%F x).
    2:{ intros k Hk. unfold tab at 1, rtab. rewrite nth_map_seq by exact Hk. reflexivity. }
    rewrite (mle_ext_ext (length t) (tab (qtab f (length t)))
      (fun k => tab f (2 * k + 1)%nat - tab f (2 * k)%nat)%F t).
    2:{ intros k Hk. unfold tab at 1, qtab. rewrite nth_map_seq by exact Hk. reflexivity. }
    set (A := mle_ext (length t) (fun k => tab f (2 * k)%nat) t).
    set (B := mle_ext (length t) (fun k => tab f (2 * k + 1)%nat - tab f (2 * k)%nat)%F t).
    assert (Hl : forall c, mle_ext (length t) (fun k => tab f (2 * k)%nat + (tab f (2 * k + 1)%nat - tab f (2 * k)%nat) * c)%F t = (A + c * B)%F).
    { intros c. unfold A, B. rewrite mle_ext_add. f_equal. rewrite <- mle_ext_scale. apply mle_ext_ext. intros. ring. }
    rewrite !Hl. ring.
Qed.

Lemma open_loop_ok : forall x t f g, length x = length t -> length f = 2 ^ length t ->
  open_loop (E:=E) f (length t) (combine x (map (gtab g t) (seq 1 (length t)))) = Ok (map (fun q => gmul q g) (qexps f t x)).
Proof.
  induction x as [|x0 x IH]; intros t f g Hx Hf.
  - destruct t; [reflexivity|discriminate].
  - destruct t as [|t0 t]; [discriminate|]. cbn [length] in *. injection Hx as Hx.
    cbn [seq map combine open_loop]. cbn [Nat.leb bind Nat.sub]. rewrite Nat.sub_0_r.
    rewrite open_round_ok by exact Hf. cbn [bind].
    assert (Eg : map (gtab g (t0 :: t)) (seq 2 (length t)) = map (gtab g t) (seq 1 (length t)))
      by (rewrite <- seq_shift, map_map; reflexivity).
    rewrite Eg. rewrite IH by (try exact Hx; apply rtab_length). cbn [bind qexps map]. f_equal. f_equal.
    unfold gtab. cbn [skipn]. rewrite (msm_scaled (pl_1 _ HE)), Fsum_combine_eqk by apply qtab_length. reflexivity.
Qed.

Lemma slice_mid : forall {A} (f : nat -> A) N a n, a + n <= N -> slice (map f (seq 0 N)) a (a + n) = Ok (map f (seq a n)).
Proof.
  intros A f N a n H. assert (Es : seq 0 N = seq 0 a ++ seq a n ++ seq (a + n) (N - a - n)).
  { replace N with (a + (n + (N - a - n))) at 1 by lia. rewrite seq_app, seq_app. reflexivity. }
  rewrite Es, !map_app. apply slice_ok; rewrite map_length, seq_length; reflexivity.
Qed.

Lemma map_gtab_skipn : forall g (t : list (F p)) k n, map (gtab g t) (seq (k + 1) n) = map (gtab g (skipn k t)) (seq 1 n).
Proof.
  intros g t k n.
  assert (Hs : forall m s, seq (k + s) m = map (fun j => k + j) (seq s m)).
  { induction m as [|m IHm]; intros s; [reflexivity|]. cbn [seq map]. rewrite <- (IHm (S s)). f_equal. f_equal. lia. }
  rewrite Hs, map_map. apply map_ext. intros j. unfold gtab. rewrite skipn_skipn_. reflexivity.
Qed.

Lemma open_ok : forall g h (t : list (F p)) f x, wf_mle f -> nv f <= length t -> length x = nv f ->
  kzg_open (srs_pp (srs_of g h t)) f x =
  Ok (map (fun q => gmul q g) (qexps (evs f) (skipn (length t - nv f) t) x), mle_ext (nv f) (tab (evs f)) x).
Proof.
  intros g h t f x Hw Hn Hx. unfold kzg_open. cbn [srs_of srs_pp pp_nv pp_powers].
  assert (E0 : (length t <? nv f) = false) by (apply Nat.ltb_ge; exact Hn). rewrite E0.
  rewrite Hx, Nat.eqb_refl. cbn [negb]. rewrite slice_mid by lia. cbn [bind].
  rewrite map_gtab_skipn. set (s := skipn (length t - nv f) t).
  assert (Hs : length s = nv f) by (unfold s; rewrite skipn_length; lia).
  rewrite <- Hs at 1 2. rewrite open_loop_ok; [|congruence|rewrite Hs; exact Hw]. cbn [bind].
  rewrite evaluate_opt_spec by (try exact Hw; congruence). reflexivity.
Qed.

(** ** Verify *)
Lemma multi_pairing_app : forall l1 l2 : list (gcar (PG1 E) * gcar (PG2 E)),
  multi_pairing (l1 ++ l2) = gadd (multi_pairing l1) (multi_pairing l2).
Proof.
  induction l1 as [|a l1 IH]; intros l2; unfold multi_pairing in *; simpl.
  - symmetry. apply (gl_zero _ (pl_T _ HE)).
  - rewrite IH. apply (gl_assoc _ (pl_T _ HE)).
Qed.

(** The pairing product the verifier compares with one, for exponent vectors. *)
Definition diffs (t x : list (F p)) : list (F p) := map (fun tx => (fst tx - snd tx)%F) (combine t x).

Lemma verify_hvec : forall g h (t x : list (F p)), length x <= length t ->
  mapM (fun i => a <- rnth (map (fun y => gmul y h) t) (length t - length x + i) ;; b <- rnth (map (fun y => gmul y h) x) i ;; Ok (gsub a b))
    (seq 0 (length x)) = Ok (map (fun d => gmul d h) (diffs (skipn (length t - length x) t) x)).
Proof.
  intros _ h t x Hx. set (s := skipn (length t - length x) t).
  assert (Hs : length s = length x) by (unfold s; rewrite skipn_length; lia).
  unfold diffs. rewrite map_map.
  rewrite (mapM_ok _ (fun i => gmul (nth i s F0 - nth i x F0)%F h)).
  2:{ intros i Hi. apply in_seq in Hi. rewrite (rnth_ok _ _ (gmul F0 h)) by (rewrite map_length; lia). cbn [bind].
      rewrite (rnth_ok _ _ (gmul F0 h)) by (rewrite map_length; lia). cbn [bind].
      rewrite !(map_nth (fun y => gmul y h)). rewrite (g_sub_mul (pl_2 _ HE)). unfold s. rewrite nth_skipn_. reflexivity. }
  f_equal. assert (Ec : combine s x = map (fun i => (nth i s F0, nth i x F0)) (seq 0 (length x))).
  { rewrite <- combine_map2, (map_nth_seq F0 x), <- Hs, (map_nth_seq F0 s). reflexivity. }
  rewrite Ec, map_map. reflexivity.
Qed.

Lemma verify_eq : forall g h (t x : list (F p)) c v prf, length x <= length t ->
  kzg_verify (vk_of g h t) c x v prf =
  Ok (geqb (gadd (multi_pairing (combine prf (map (fun d => gmul d h) (diffs (skipn (length t - length x) t) x))))
                 (pair E (gsub (gmul v g) c) h)) gzero).
Proof.
  intros g h t x c v prf Hx. unfold kzg_verify. cbn [vk_of vk_nv vk_g vk_h vk_mask].
  assert (E0 : (length t <? length x) = false) by (apply Nat.ltb_ge; exact Hx). rewrite E0.
  rewrite (verify_hvec g h t x Hx). cbn [bind]. rewrite multi_pairing_app. unfold multi_pairing at 2. cbn [map fold_right fst snd].
  rewrite (g_zero_r (pl_T _ HE)). reflexivity.
Qed.

Lemma verify_too_long : forall (vk : vparam E) c x v prf, vk_nv vk < length x -> kzg_verify vk c x v prf = Err PCSInvalidParameters.
Proof. intros. unfold kzg_verify. apply Nat.ltb_lt in H. rewrite H. reflexivity. Qed.

Lemma pair_exps : forall a b g h, pair E (gmul a g) (gmul b h) = gmul (a * b)%F (pair E g h).
Proof.
  intros. rewrite (pl_mul_l _ HE), (pl_mul_r _ HE), <- (gl_mul _ (pl_T _ HE)). reflexivity.
Qed.

Lemma multi_pairing_exps : forall (qs ds : list (F p)) g h,
  multi_pairing (combine (map (fun q => gmul q g) qs) (map (fun d => gmul d h) ds)) =
  gmul (Fsum (map (fun qd => (fst qd * snd qd)%F) (combine qs ds))) (pair E g h).
Proof.
  induction qs as [|q qs IH]; intros ds g h; [unfold multi_pairing; simpl; rewrite (g_mul_0 (pl_T _ HE)); reflexivity|].
  destruct ds as [|d ds]; [unfold multi_pairing; simpl; rewrite (g_mul_0 (pl_T _ HE)); reflexivity|].
  unfold multi_pairing in *. cbn [map combine fold_right fst snd]. rewrite IH, pair_exps, Fsum_cons, (gl_add_l _ (pl_T _ HE)). reflexivity.
Qed.

Lemma verify_exps : forall g h (t x : list (F p)) c v qs, length x <= length t ->
  kzg_verify (vk_of g h t) (gmul c g) x v (map (fun q => gmul q g) qs) =
  Ok (geqb (gmul (Fsum (map (fun qd => (fst qd * snd qd)%F) (combine qs (diffs (skipn (length t - length x) t) x))) + (v - c))%F
                 (pair E g h)) gzero).
Proof.
  intros g h t x c v qs Hx. rewrite verify_eq by exact Hx. do 2 f_equal.
  rewrite multi_pairing_exps, (g_sub_mul (pl_1 _ HE)), (pl_mul_l _ HE), <- (gl_add_l _ (pl_T _ HE)). reflexivity.
Qed.

Lemma verify_honest : forall g h (t : list (F p)) f x v, wf_mle f -> nv f <= length t -> length x = nv f ->
  kzg_verify (vk_of g h t) (gmul (mle_ext (nv f) (tab (evs f)) (skipn (length t - nv f) t)) g) x v
    (map (fun q => gmul q g) (qexps (evs f) (skipn (length t - nv f) t) x)) =
  Ok (geqb (gmul (v - mle_ext (nv f) (tab (evs f)) x)%F (pair E g h)) gzero).
Proof.
  intros g h t f x v Hw Hn Hx. rewrite verify_exps by lia. rewrite Hx.
  set (s := skipn (length t - nv f) t). assert (Hs : length s = nv f) by (unfold s; rewrite skipn_length; lia).
  do 3 f_equal. unfold diffs. rewrite <- quotient_identity; [rewrite Hs; ring|congruence|rewrite Hs; exact Hw].
Qed.
End S.
