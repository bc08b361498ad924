(** Lagrange interpolation, and the two interpolation algorithms of the sum check. *)
From Coq Require Import String List Arith Lia Bool ZArith Znumtheory Field.
Import ListNotations.
From Verif Require Import Res ResLemmas Fp FSum SpecMle SpecPoly MleLemmas PolyLemmas ModelMle ModelVp ModelTranscript ModelSumcheck.
Local Open Scope nat_scope.

Section S.
Context {p : positive}.
Hypothesis Hp : prime (Zpos p).
Add Ring Fr : (@F_ring p).
Add Field Ff : (F_field Hp).

Lemma ofN_inj' : forall a b n, n <= fsize p -> a < n -> b < n -> @ofN p a = ofN b -> a = b.
Proof. intros a b n Hn Ha Hb. unfold fsize in Hn. apply (@ofN_inj p); lia. Qed.

Lemma node_diff : forall n i j, n <= fsize p -> i < n -> j < n -> i <> j -> (@ofN p j - ofN i)%F <> F0.
Proof. intros n i j Hn Hi Hj Hne E. apply sub_eq_0 in E. apply Hne. symmetry. exact (ofN_inj' _ _ n Hn Hj Hi E). Qed.

Definition others (n j : nat) : list nat := filter (fun i => negb (i =? j)) (seq 0 n).

Lemma others_in : forall n j i, In i (others n j) <-> i < n /\ i <> j.
Proof.
  intros n j i. unfold others. rewrite filter_In, in_seq, negb_true_iff, Nat.eqb_neq. lia.
Qed.

Lemma filter_all : forall {A} (f : A -> bool) l, (forall a, In a l -> f a = true) -> filter f l = l.
Proof.
  intros A f l. induction l as [|a l IH]; intros H; [reflexivity|]. simpl. rewrite (H a (or_introl eq_refl)).
  f_equal. apply IH. intros b Hb. apply H. right. exact Hb.
Qed.

Lemma others_split : forall n j, j < n -> others n j = seq 0 j ++ seq (S j) (n - 1 - j).
Proof.
  intros n j Hj. unfold others. replace n with (j + S (n - 1 - j)) at 1 by lia.
  rewrite seq_app, filter_app. simpl. rewrite Nat.eqb_refl. simpl.
  rewrite !filter_all; [reflexivity| |]; intros a Ha; apply in_seq in Ha; apply negb_true_iff; apply Nat.eqb_neq; lia.
Qed.

Lemma others_length : forall n j, j < n -> length (others n j) = n - 1.
Proof. intros n j Hj. rewrite others_split by exact Hj. rewrite app_length, !seq_length. lia. Qed.

Lemma lagr_polyfun : forall n j, j < n -> polyfun (n - 1) (lagr (p:=p) n j).
Proof.
  intros n j Hj. unfold lagr. fold (others n j). rewrite <- (others_length n j Hj).
  apply (polyfun_Fprod (fun i x => ((x - ofN i) / (ofN j - ofN i))%F)). intros i Hi.
  apply (polyfun_ext 1 (fun x => (- ofN i / (ofN j - ofN i)) + x * Finv (ofN j - ofN i))%F).
  - intros x. unfold Fdiv. ring.
  - apply polyfun_linear.
Qed.

Lemma lagr_node : forall n j k, n <= fsize p -> j < n -> k < n ->
  lagr n j (@ofN p k) = if k =? j then F1 else F0.
Proof.
  intros n j k Hn Hj Hk. unfold lagr. fold (others n j). destruct (Nat.eqb_spec k j) as [-> | Hne].
  - rewrite (Fprod_map_ext _ (fun _ => F1)).
    + clear Hn Hj. induction (others n j) as [|a l IH]; simpl; [reflexivity|]. rewrite IH. ring.
    + intros i Hi. apply others_in in Hi. destruct Hi as [Hi Hij].
      pose proof (node_diff n i j Hn Hi Hj Hij). field. assumption.
  - apply Fprod_in_0. apply in_map_iff. exists k. split; [|apply others_in; auto].
    unfold Fdiv. ring.
Qed.

Lemma interp_polyfun : forall d ys, length ys <= S d -> polyfun d (interp (p:=p) ys).
Proof.
  intros d ys Hd. unfold interp.
  apply (polyfun_sumN d (fun j x => nth j ys F0 * lagr (length ys) j x)%F). intros j Hj.
  apply polyfun_scale. apply (polyfun_mono (length ys - 1)); [lia|]. apply lagr_polyfun. exact Hj.
Qed.

Lemma interp_node : forall ys k, length ys <= fsize p -> k < length ys -> interp ys (@ofN p k) = nth k ys F0.
Proof.
  intros ys k Hn Hk. unfold interp. rewrite (sumN_single _ k); [|exact Hk|].
  - rewrite lagr_node by assumption. rewrite Nat.eqb_refl. ring.
  - intros j Hj Hne. rewrite lagr_node by assumption. destruct (Nat.eqb_spec k j); [congruence|ring].
Qed.

(** Interpolation recovers every polynomial of small degree from its values at the nodes. *)
Lemma interp_unique : forall d f ys, polyfun d f -> length ys = S d -> S d <= fsize p ->
  (forall i, i <= d -> nth i ys F0 = f (ofN i)) -> forall x : F p, interp ys x = f x.
Proof.
  intros d f ys Hf Hl Hd H x. apply (polyfun_unique_nodes Hp d); auto.
  - apply interp_polyfun. lia.
  - intros i Hi. rewrite interp_node by lia. apply H. exact Hi.
Qed.

(** ** Products of differences *)
Definition full (n : nat) (x : F p) : F p := Fprod (map (fun i => (x - ofN i)%F) (seq 0 n)).
Definition dnm (n j : nat) : F p := Fprod (map (fun i => (ofN j - ofN i)%F) (others n j)).

Lemma full_neq_0 : forall n x, nonnode n x -> full n x <> F0.
Proof.
  intros n x H. unfold full. apply (Fprod_neq_0 Hp). intros y Hy. apply in_map_iff in Hy. destruct Hy as [i [<- Hi]].
  apply in_seq in Hi. intros E. apply sub_eq_0 in E. apply (H i); [lia|exact E].
Qed.

Lemma dnm_neq_0 : forall n j, n <= fsize p -> j < n -> dnm n j <> F0.
Proof.
  intros n j Hn Hj. unfold dnm. apply (Fprod_neq_0 Hp). intros y Hy. apply in_map_iff in Hy. destruct Hy as [i [<- Hi]].
  apply others_in in Hi. apply (node_diff n); tauto.
Qed.

Lemma full_others : forall n j x, j < n ->
  full n x = ((x - ofN j) * Fprod (map (fun i => (x - ofN i)%F) (others n j)))%F.
Proof.
  intros n j x Hj. unfold full. rewrite others_split by exact Hj. replace n with (j + S (n - 1 - j)) at 1 by lia.
  rewrite seq_app, !map_app, !Fprod_app. simpl. ring.
Qed.

Lemma Fprod_div : forall (a b : nat -> F p) l, (forall i, In i l -> b i <> F0) ->
  Fprod (map (fun i => (a i / b i)%F) l) = (Fprod (map a l) / Fprod (map b l))%F.
Proof.
  intros a b l. induction l as [|i l IH]; intros H; simpl.
  - field. apply (F1_neq_0 Hp).
  - rewrite IH by (intros k Hk; apply H; right; exact Hk). field. split.
    + apply (Fprod_neq_0 Hp). intros y Hy. apply in_map_iff in Hy. destruct Hy as [k [<- Hk]]. apply H. right. exact Hk.
    + apply H. left. reflexivity.
Qed.

Lemma lagr_full : forall n j x, n <= fsize p -> j < n -> nonnode n x ->
  lagr n j x = (full n x / ((x - ofN j) * dnm n j))%F.
Proof.
  intros n j x Hn Hj Hx. unfold lagr. fold (others n j).
  rewrite (Fprod_div (fun i => x - ofN i)%F (fun i => ofN j - ofN i)%F).
  2:{ intros i Hi. apply others_in in Hi. apply (node_diff n); tauto. }
  rewrite (full_others n j x Hj). fold (dnm n j). field. split; [apply dnm_neq_0; assumption|].
  intros E. apply sub_eq_0 in E. exact (Hx j Hj E).
Qed.

(** *** dnm as factorials *)
Definition factF (a : nat) : F p := Fprod (map ofN (seq 1 a)).
Definition nfactF (a : nat) : F p := Fprod (map (fun k => (- ofN k)%F) (seq 1 a)).

Lemma factF_S : forall a, factF (S a) = (factF a * ofN (S a))%F.
Proof. intros a. unfold factF. rewrite seq_S, map_app, Fprod_app. simpl. ring. Qed.
Lemma nfactF_S : forall a, nfactF (S a) = (nfactF a * - ofN (S a))%F.
Proof. intros a. unfold nfactF. rewrite seq_S, map_app, Fprod_app. simpl. ring. Qed.

Lemma below_fact : forall j, Fprod (map (fun i => (@ofN p j - ofN i)%F) (seq 0 j)) = factF j.
Proof.
  intros j. assert (G : forall k, k <= j -> Fprod (map (fun i => (@ofN p j - ofN i)%F) (seq (j - k) k)) = factF k).
  { induction k as [|k IH]; intros Hk; [reflexivity|]. rewrite factF_S, <- IH by lia.
    replace (seq (j - S k) (S k)) with ((j - S k) :: seq (j - k) k).
    - simpl map. rewrite Fprod_cons, <- ofN_sub by lia. replace (j - (j - S k)) with (S k) by lia. ring.
    - simpl. replace (S (j - S k)) with (j - k) by lia. reflexivity. }
  rewrite <- (G j) by lia. rewrite Nat.sub_diag. reflexivity.
Qed.

Lemma above_fact : forall j m, Fprod (map (fun i => (@ofN p j - ofN i)%F) (seq (S j) m)) = nfactF m.
Proof.
  intros j m. induction m as [|m IH]; [reflexivity|]. rewrite nfactF_S, <- IH, seq_S, map_app, Fprod_app. simpl.
  replace (S (j + m)) with (j + S m) by lia. rewrite ofN_add. ring.
Qed.

Lemma dnm_fact : forall n j, j < n -> dnm n j = (factF j * nfactF (n - 1 - j))%F.
Proof.
  intros n j Hj. unfold dnm. rewrite others_split by exact Hj. rewrite map_app, Fprod_app, below_fact, above_fact. reflexivity.
Qed.

Lemma dnm_step : forall n i, S i < n -> (dnm n i * ofN (S i))%F = (dnm n (S i) * - ofN (n - S i))%F.
Proof.
  intros n i Hi. rewrite !dnm_fact by lia. rewrite factF_S. replace (n - 1 - i) with (S (n - 1 - S i)) by lia.
  rewrite nfactF_S. replace (S (n - 1 - S i)) with (n - S i) by lia. ring.
Qed.

Lemma dnm_last : forall n, 0 < n -> dnm n (n - 1) = factF (n - 1).
Proof. intros n Hn. rewrite dnm_fact by lia. rewrite Nat.sub_diag. unfold nfactF. simpl. ring. Qed.

(** ** interpolate_uni_poly *)
Lemma fdiv_ok : forall a b : F p, b <> F0 -> fdiv a b = Ok (a / b)%F.
Proof. intros a b H. unfold fdiv. apply Feqb_neq in H. rewrite H. reflexivity. Qed.

(** Tail of the Lagrange sum: terms i < k. *)
Definition tail (ys : list (F p)) (n k : nat) (x : F p) : F p := sumN k (fun j => nth j ys F0 * lagr n j x)%F.

Definition evals_of (n : nat) (x : F p) : list (F p) := map (fun i => (x - ofN i)%F) (seq 0 n).

Lemma evals_of_nth : forall n x i, i < n -> rnth (evals_of n x) i = Ok (x - ofN i)%F.
Proof.
  intros n x i Hi. unfold evals_of. rewrite (rnth_ok _ _ F0) by (rewrite map_length, seq_length; exact Hi).
  rewrite (nth_map_seq (fun i => x - ofN i)%F) by exact Hi. reflexivity.
Qed.

Lemma term_eq : forall y n i x num den, n <= fsize p -> i < n -> nonnode n x ->
  den <> F0 -> num = (dnm n i * den)%F ->
  fdiv (y * full n x * den)%F (num * (x - ofN i))%F = Ok (y * lagr n i x)%F.
Proof.
  intros y n i x num den Hn Hi Hx Hden Hnum.
  assert (Hxi : (x - ofN i)%F <> F0) by (intros E; apply sub_eq_0 in E; exact (Hx i Hi E)).
  pose proof (dnm_neq_0 n i Hn Hi) as Hd.
  rewrite fdiv_ok.
  - f_equal. rewrite lagr_full, Hnum by assumption. field. auto.
  - rewrite Hnum. intros E. destruct (Fmul_integral Hp _ _ E) as [E1|E1]; [|contradiction].
    destruct (Fmul_integral Hp _ _ E1); contradiction.
Qed.

(** The integer part of the loop never overflows. *)
Fixpoint int_ok (iok uok : Z -> bool) (len k : nat) (num den : Z) : bool :=
  match k with
  | O => true
  | S i => if i =? 0 then true
           else iok (num * - (Z.of_nat len - Z.of_nat i))%Z && uok (den * Z.of_nat i)%Z &&
                int_ok iok uok len i (num * - (Z.of_nat len - Z.of_nat i)) (den * Z.of_nat i)
  end.

Lemma num_f_eq : forall num : Z, (if (num <? 0)%Z then (- ofZ (- num))%F else ofZ num) = @ofZ p num.
Proof.
  intros num. destruct (num <? 0)%Z; [|reflexivity]. rewrite ofZ_opp. ring.
Qed.

Lemma ofN_nonzero : forall n i, n <= fsize p -> 0 < i -> i < n -> @ofN p i <> F0.
Proof. intros n i Hn H0 Hi. unfold fsize in Hn. apply (@ofN_neq_0 p); lia. Qed.

Lemma Fmul_neq_0 : forall a b : F p, a <> F0 -> b <> F0 -> (a * b)%F <> F0.
Proof. intros a b Ha Hb E. destruct (Fmul_integral Hp _ _ E); contradiction. Qed.

Lemma interp_int_spec : forall iok uok ys n x last, n = length ys -> n <= fsize p -> nonnode n x ->
  forall k num den r, k <= n -> int_ok iok uok n k num den = true ->
  (0 < k -> ofZ den <> @F0 p /\ (last * ofZ num)%F = (dnm n (k - 1) * ofZ den)%F) ->
  interp_int iok uok ys (evals_of n x) (full n x) last n k num den r = Ok (r + tail ys n k x)%F.
Proof.
  intros iok uok ys n x last Hys Hn Hx. induction k as [|i IH]; intros num den r Hk Hok H; cbn [interp_int].
  - unfold tail. rewrite sumN_0. f_equal. ring.
  - destruct H as [Hden Hnum]; [lia|]. replace (S i - 1) with i in Hnum by lia.
    rewrite (rnth_ok ys i F0) by lia. cbn [bind]. rewrite evals_of_nth by lia. cbn [bind].
    rewrite num_f_eq. rewrite (term_eq (nth i ys F0) n i x (last * ofZ num)%F (ofZ den)) by (auto; lia). cbn [bind].
    cbn [int_ok] in Hok. destruct (Nat.eqb_spec i 0) as [-> | Hi0].
    + unfold tail. rewrite sumN_S, sumN_0. f_equal. ring.
    + apply andb_true_iff in Hok. destruct Hok as [Hok Hrec]. apply andb_true_iff in Hok. destruct Hok as [Hi Hu].
      unfold cmul. rewrite Hi. cbn [bind]. rewrite Hu. cbn [bind]. rewrite IH; [|lia|exact Hrec|].
      * unfold tail. rewrite sumN_S. f_equal. ring.
      * intros _. change (ofZ (Z.of_nat i)) with (@ofN p i). split.
        -- rewrite ofZ_mul. apply Fmul_neq_0; [exact Hden|]. apply (ofN_nonzero n); lia.
        -- destruct i as [|i]; [congruence|]. replace (S i - 1) with i by lia.
           rewrite !ofZ_mul, ofZ_opp. change (ofZ (Z.of_nat (S i))) with (@ofN p (S i)).
           replace (ofZ (Z.of_nat n - Z.of_nat (S i))) with (@ofN p (n - S i)).
           2:{ unfold ofN. f_equal. lia. }
           transitivity (last * ofZ num * - ofN (n - S i))%F; [ring|]. rewrite Hnum.
           transitivity (dnm n (S i) * - ofN (n - S i) * ofZ den)%F; [ring|].
           rewrite <- dnm_step by lia. ring.
Qed.

Lemma interp_field_spec : forall ys n x, n = length ys -> n <= fsize p -> nonnode n x ->
  forall k up down r, k <= n ->
  (0 < k -> down <> F0 /\ up = (dnm n (k - 1) * down)%F) ->
  interp_field ys (evals_of n x) (full n x) n k up down r = Ok (r + tail ys n k x)%F.
Proof.
  intros ys n x Hys Hn Hx. induction k as [|i IH]; intros up down r Hk H; cbn [interp_field].
  - unfold tail. rewrite sumN_0. f_equal. ring.
  - destruct H as [Hden Hnum]; [lia|]. replace (S i - 1) with i in Hnum by lia.
    rewrite (rnth_ok ys i F0) by lia. cbn [bind]. rewrite evals_of_nth by lia. cbn [bind].
    rewrite (term_eq (nth i ys F0) n i x up down) by (auto; lia). cbn [bind].
    destruct (Nat.eqb_spec i 0) as [-> | Hi0].
    + unfold tail. rewrite sumN_S, sumN_0. f_equal. ring.
    + rewrite IH; [|lia|].
      * unfold tail. rewrite sumN_S. f_equal. ring.
      * intros _. split; [apply Fmul_neq_0; [exact Hden|]; apply (ofN_nonzero n); lia|].
        destruct i as [|i]; [congruence|]. replace (S i - 1) with i by lia. rewrite Hnum.
        transitivity (dnm n (S i) * - ofN (n - S i) * down)%F; [ring|].
        rewrite <- dnm_step by lia. ring.
Qed.

(** Branch bounds: 20 and 33 are the constants of verifier.rs 229 and 250. *)
Lemma int64_fits : forall n, n <= 20 -> int_ok i64_ok u64_ok n n 1 1 = true.
Proof.
  assert (E : forallb (fun n => int_ok i64_ok u64_ok n n 1 1) (seq 0 21) = true) by (vm_compute; reflexivity).
  intros n Hn. rewrite forallb_forall in E. apply E. apply in_seq. lia.
Qed.
Lemma int128_fits : forall n, n <= 33 -> int_ok i128_ok u128_ok n n 1 1 = true.
Proof.
  assert (E : forallb (fun n => int_ok i128_ok u128_ok n n 1 1) (seq 0 34) = true) by (vm_compute; reflexivity).
  intros n Hn. rewrite forallb_forall in E. apply E. apply in_seq. lia.
Qed.

Definition zfact (a : nat) : Z := fold_left (fun r i => (r * Z.of_nat i)%Z) (seq 2 (a - 1)) 1%Z.

Lemma zfact_F : forall a, @ofZ p (zfact a) = factF a.
Proof.
  assert (G : forall l z, @ofZ p (fold_left (fun r i => (r * Z.of_nat i)%Z) l z) = (ofZ z * Fprod (map ofN l))%F).
  { induction l as [|i l IH]; intros z; simpl; [ring|]. rewrite IH, ofZ_mul. unfold ofN. ring. }
  intros a. unfold zfact. rewrite G. unfold factF. destruct a as [|a]; [simpl; change (ofZ 1) with (@F1 p); ring|].
  replace (S a - 1) with a by lia. simpl. change (ofZ 1) with (@F1 p). change (@ofN p 1) with (@F1 p). ring.
Qed.

Lemma field_factorial_spec : forall a, @field_factorial p a = factF a.
Proof.
  assert (G : forall l z, fold_left (fun r i => (r * ofN i)%F) l z = (z * Fprod (map (@ofN p) l))%F).
  { induction l as [|i l IH]; intros z; simpl; [ring|]. rewrite IH. ring. }
  intros a. unfold field_factorial. rewrite G. unfold factF. destruct a as [|a]; [simpl; ring|].
  replace (S a - 1) with a by lia. simpl. change (@ofN p 1) with (@F1 p). ring.
Qed.

Lemma int_factorial_64 : forall a, a <= 19 -> int_factorial u64_ok a = Ok (zfact a).
Proof.
  assert (E : forallb (fun a => match int_factorial u64_ok a with Ok z => (z =? zfact a)%Z | _ => false end) (seq 0 20) = true)
    by (vm_compute; reflexivity).
  intros a Ha. rewrite forallb_forall in E. specialize (E a). destruct (int_factorial u64_ok a) as [z| |].
  - f_equal. apply Z.eqb_eq. apply E. apply in_seq. lia.
  - exfalso. assert (false = true) by (apply E; apply in_seq; lia). discriminate.
  - exfalso. assert (false = true) by (apply E; apply in_seq; lia). discriminate.
Qed.
Lemma int_factorial_128 : forall a, a <= 32 -> int_factorial u128_ok a = Ok (zfact a).
Proof.
  assert (E : forallb (fun a => match int_factorial u128_ok a with Ok z => (z =? zfact a)%Z | _ => false end) (seq 0 33) = true)
    by (vm_compute; reflexivity).
  intros a Ha. rewrite forallb_forall in E. specialize (E a). destruct (int_factorial u128_ok a) as [z| |].
  - f_equal. apply Z.eqb_eq. apply E. apply in_seq. lia.
  - exfalso. assert (false = true) by (apply E; apply in_seq; lia). discriminate.
  - exfalso. assert (false = true) by (apply E; apply in_seq; lia). discriminate.
Qed.

Lemma evals_code : forall n (x : F p), 0 < n ->
  x :: map (fun e => (x - ofN e)%F) (seq 1 (n - 1)) = evals_of n x.
Proof.
  intros n x Hn. unfold evals_of. destruct n as [|n]; [lia|]. replace (S n - 1) with n by lia. simpl. f_equal.
  change (@ofN p 0) with (@F0 p). ring.
Qed.
Lemma prod_code : forall n (x : F p), 0 < n ->
  fold_left (fun r e => (r * e)%F) (map (fun e => (x - ofN e)%F) (seq 1 (n - 1))) x = full n x.
Proof.
  intros n x Hn. change (fun r e : F p => (r * e)%F) with (@Fmul p). rewrite fold_left_Fmul.
  unfold full. destruct n as [|n]; [lia|]. replace (S n - 1) with n by lia. simpl.
  change (@ofN p 0) with (@F0 p). ring.
Qed.

Lemma interpolate_spec : forall (ys : list (F p)) x, ys <> [] -> length ys <= fsize p -> nonnode (length ys) x ->
  interpolate_uni_poly ys x = Ok (interp ys x).
Proof.
  intros ys x Hne Hn Hx. unfold interpolate_uni_poly.
  assert (Hl : 0 < length ys) by (destruct ys; [congruence|simpl; lia]).
  rewrite evals_code, prod_code by exact Hl. unfold usub.
  replace (1 <=? length ys) with true by (symmetry; apply Nat.leb_le; lia). cbn [bind].
  assert (Ht : (F0 + tail ys (length ys) (length ys) x)%F = interp ys x) by (unfold tail, interp; ring).
  assert (H0 : @ofZ p 1 <> F0) by exact (F1_neq_0 Hp).
  assert (Hst : forall last, @ofZ p last = factF (length ys - 1) -> 0 < length ys ->
    ofZ 1 <> @F0 p /\ (@ofZ p last * ofZ 1)%F = (dnm (length ys) (length ys - 1) * ofZ 1)%F).
  { intros last E _. split; [exact H0|]. rewrite dnm_last by exact Hl. rewrite E. reflexivity. }
  destruct (Nat.leb_spec (length ys) 20) as [H20|H20].
  - rewrite int_factorial_64 by lia. cbn [bind].
    rewrite interp_int_spec; auto; [rewrite Ht; reflexivity|apply int64_fits; exact H20|].
    apply Hst. apply zfact_F.
  - destruct (Nat.leb_spec (length ys) 33) as [H33|H33].
    + rewrite int_factorial_128 by lia. cbn [bind].
      rewrite interp_int_spec; auto; [rewrite Ht; reflexivity|apply int128_fits; exact H33|].
      apply Hst. apply zfact_F.
    + rewrite interp_field_spec; auto; [rewrite Ht; reflexivity|]. intros _. split; [exact (F1_neq_0 Hp)|].
      rewrite dnm_last by exact Hl. rewrite field_factorial_spec. ring.
Qed.

(** At an interpolation node the code divides by zero. *)
Lemma fdiv_0 : forall a b : F p, b = F0 -> fdiv a b = Panic.
Proof. intros a b ->. unfold fdiv. rewrite Feqb_refl. reflexivity. Qed.

Lemma fdiv_cases : forall a b : F p, fdiv a b = Panic \/ exists q, fdiv a b = Ok q.
Proof. intros a b. unfold fdiv. destruct (Feqb b F0); eauto. Qed.
Lemma rnth_cases : forall {A} (l : list A) i, rnth l i = Panic \/ exists q, rnth l i = Ok q.
Proof. intros A l i. unfold rnth. destruct (nth_error l i); simpl; eauto. Qed.
Lemma cmul_cases : forall ok a b, cmul ok a b = Panic \/ exists q, cmul ok a b = Ok q.
Proof. intros ok a b. unfold cmul. destruct (ok (a * b)%Z); eauto. Qed.

Lemma interp_int_panic : forall iok uok ys ev prod last n j, nth_error ev j = Some (@F0 p) ->
  forall k num den r, j < k -> interp_int iok uok ys ev prod last n k num den r = Panic.
Proof.
  intros iok uok ys ev prod last n j Hj. induction k as [|i IH]; intros num den r Hk; [lia|]. cbn [interp_int].
  destruct (rnth_cases ys i) as [-> | [y ->]]; [reflexivity|]. cbn [bind].
  destruct (Nat.eq_dec i j) as [-> | Hne].
  - unfold rnth. rewrite Hj. cbn [ounwrap bind]. rewrite fdiv_0 by ring. reflexivity.
  - destruct (rnth_cases ev i) as [-> | [e ->]]; [reflexivity|]. cbn [bind].
    match goal with |- context [fdiv ?a ?b] => destruct (fdiv_cases a b) as [-> | [q ->]]; [reflexivity|] end. cbn [bind].
    destruct (Nat.eqb_spec i 0) as [E|_]; [lia|].
    match goal with |- context [cmul ?a ?b ?c] => destruct (cmul_cases a b c) as [-> | [u ->]]; [reflexivity|] end. cbn [bind].
    match goal with |- context [cmul ?a ?b ?c] => destruct (cmul_cases a b c) as [-> | [w ->]]; [reflexivity|] end. cbn [bind].
    apply IH. lia.
Qed.

Lemma interp_field_panic : forall ys ev prod n j, nth_error ev j = Some (@F0 p) ->
  forall k up down r, j < k -> interp_field ys ev prod n k up down r = Panic.
Proof.
  intros ys ev prod n j Hj. induction k as [|i IH]; intros num den r Hk; [lia|]. cbn [interp_field].
  destruct (rnth_cases ys i) as [-> | [y ->]]; [reflexivity|]. cbn [bind].
  destruct (Nat.eq_dec i j) as [-> | Hne].
  - unfold rnth. rewrite Hj. cbn [ounwrap bind]. rewrite fdiv_0 by ring. reflexivity.
  - destruct (rnth_cases ev i) as [-> | [e ->]]; [reflexivity|]. cbn [bind].
    match goal with |- context [fdiv ?a ?b] => destruct (fdiv_cases a b) as [-> | [q ->]]; [reflexivity|] end. cbn [bind].
    destruct (Nat.eqb_spec i 0) as [E|_]; [lia|]. apply IH. lia.
Qed.

Lemma interpolate_node : forall (ys : list (F p)) k, k < length ys -> interpolate_uni_poly ys (ofN k) = Panic.
Proof.
  intros ys k Hk. unfold interpolate_uni_poly. rewrite evals_code by lia.
  assert (E : nth_error (evals_of (length ys) (@ofN p k)) k = Some F0).
  { unfold evals_of. rewrite nth_error_map, (nth_error_nth' _ 0) by (rewrite seq_length; exact Hk).
    rewrite seq_nth by exact Hk. simpl. f_equal. ring. }
  unfold usub. replace (1 <=? length ys) with true by (symmetry; apply Nat.leb_le; lia). cbn [bind].
  destruct (length ys <=? 20) eqn:E20.
  - apply Nat.leb_le in E20. rewrite int_factorial_64 by lia. cbn [bind]. eapply interp_int_panic; eauto.
  - destruct (length ys <=? 33) eqn:E33.
    + apply Nat.leb_le in E33. rewrite int_factorial_128 by lia. cbn [bind]. eapply interp_int_panic; eauto.
    + eapply interp_field_panic; eauto.
Qed.

(** Whatever interpolate returns is the interpolation. *)
Lemma interpolate_total : forall (ys : list (F p)) x, ys <> [] -> length ys <= fsize p ->
  interpolate_uni_poly ys x = if existsb (fun i => Feqb x (ofN i)) (seq 0 (length ys)) then Panic else Ok (interp ys x).
Proof.
  intros ys x Hne Hl. destruct (existsb _ _) eqn:E.
  - apply existsb_exists in E. destruct E as [i [Hi E]]. apply Feqb_eq in E. apply in_seq in Hi. subst x.
    apply interpolate_node. lia.
  - apply interpolate_spec; auto. intros i Hi Ex. assert (existsb (fun i => Feqb x (ofN i)) (seq 0 (length ys)) = true).
    { apply existsb_exists. exists i. split; [apply in_seq; lia|]. apply Feqb_eq. exact Ex. }
    congruence.
Qed.

(** ** Barycentric extrapolation *)
Lemma combine_seq_map : forall {A} (f : nat -> A) n, combine (seq 0 n) (map f (seq 0 n)) = map (fun i => (i, f i)) (seq 0 n).
Proof.
  intros A f n. generalize 0. induction n as [|n IH]; intros a; [reflexivity|]. simpl. rewrite IH. reflexivity.
Qed.

Lemma combine_maps : forall {A B C} (f : A -> B) (g : A -> C) l, combine (map f l) (map g l) = map (fun a => (f a, g a)) l.
Proof. intros A B C f g l. induction l as [|a l IH]; [reflexivity|]. simpl. rewrite IH. reflexivity. Qed.

Lemma filter_map_comm : forall {A B} (f : A -> B) (P : B -> bool) l, filter P (map f l) = map f (filter (fun a => P (f a)) l).
Proof. intros A B f P l. induction l as [|a l IH]; [reflexivity|]. simpl. rewrite IH. destruct (P (f a)); reflexivity. Qed.

Lemma nth_repeat_lt : forall {A} (a d : A) n i, i < n -> nth i (repeat a n) d = a.
Proof. intros A a d n. induction n as [|n IH]; intros [|i] H; simpl; try lia; auto. apply IH. lia. Qed.

Lemma weights_spec : forall n, barycentric_weights (map (@ofN p) (seq 0 n)) = map (fun j => Finv (dnm n j)) (seq 0 n).
Proof.
  intros n. unfold barycentric_weights, batch_inversion. rewrite map_length, seq_length, combine_seq_map, !map_map.
  apply map_ext. intros j. f_equal. rewrite iprod_Fprod. unfold dnm. cbn [fst snd].
  rewrite filter_map_comm, map_map. reflexivity.
Qed.

Lemma combine_map_l : forall {A B C} (f : A -> B) (l : list A) (m : list C),
  combine (map f l) m = map (fun ac => (f (fst ac), snd ac)) (combine l m).
Proof. intros A B C f l. induction l as [|a l IH]; intros [|c m]; try reflexivity. simpl. rewrite IH. reflexivity. Qed.

Lemma extrapolate_spec : forall n (ys : list (F p)) x, 0 < n -> n <= fsize p -> length ys = n -> nonnode n x ->
  extrapolate (map ofN (seq 0 n)) (barycentric_weights (map ofN (seq 0 n))) ys x = interp ys x.
Proof.
  intros n ys x H0 Hn Hl Hx. unfold extrapolate. rewrite weights_spec. unfold batch_inversion. rewrite !map_map.
  rewrite combine_maps, map_map. cbn [fst snd].
  set (cf := fun j => (Finv (x - ofN j) * Finv (dnm n j))%F).
  assert (Hcf : forall j, j < n -> cf j = (lagr n j x / full n x)%F).
  { intros j Hj. unfold cf. rewrite lagr_full by assumption. pose proof (dnm_neq_0 n j Hn Hj).
    pose proof (full_neq_0 n x Hx).
    assert ((x - ofN j)%F <> F0) by (intros E; apply sub_eq_0 in E; exact (Hx j Hj E)). field. auto. }
  pose proof (full_neq_0 n x Hx) as Hf.
  rewrite !isum_Fsum.
  assert (E1 : Fsum (map cf (seq 0 n)) = (F1 / full n x)%F).
  { rewrite (Fsum_map_ext _ (fun j => lagr n j x * Finv (full n x))%F).
    - rewrite Fsum_map_mul_r. assert (E : Fsum (map (fun j => lagr n j x) (seq 0 n)) = F1).
      { transitivity (interp (repeat F1 n) x).
        - unfold interp. rewrite repeat_length. apply sumN_ext. intros j Hj. rewrite nth_repeat_lt by exact Hj. ring.
        - rewrite (interp_unique (n - 1) (fun _ => F1)); [reflexivity|apply polyfun_const|rewrite repeat_length; lia|lia|].
          intros i Hi. apply nth_repeat_lt. lia. }
      rewrite E. unfold Fdiv. ring.
    - intros j Hj. apply in_seq in Hj. rewrite Hcf by lia. unfold Fdiv. ring. }
  rewrite E1.
  assert (E2 : Fsum (map (fun ce : F p * F p => (fst ce * snd ce)%F) (combine (map cf (seq 0 n)) ys)) = (interp ys x / full n x)%F).
  { rewrite <- (map_nth_seq F0 ys) at 1. rewrite Hl, combine_maps, map_map. cbn [fst snd].
    unfold interp. rewrite Hl. unfold Fdiv. rewrite <- sumN_mul_r. unfold sumN. apply Fsum_map_ext.
    intros j Hj. apply in_seq in Hj. rewrite Hcf by lia. unfold Fdiv. ring. }
  rewrite E2. field. split; [exact Hf|]. exact (F1_neq_0 Hp).
Qed.
End S.
