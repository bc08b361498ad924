(** Batching of zero checks and the random generators. *)
From Coq Require Import List Arith Lia Bool ZArith Znumtheory Field Permutation.
Import ListNotations.
From Verif Require Import Res ResLemmas Fp FSum SpecMle SpecVp SpecPoly MleLemmas PolyLemmas ModelMle MleProofs MleExtra
  ModelVp VpHist VpProofs.
Local Open Scope nat_scope.

Section S.
Context {p : positive}.
Add Ring Fr : (@F_ring p).

Lemma built_evaluate : forall (v : vp p) e, built v e -> forall x, length x = num_variables v ->
  vp_evaluate v x = Ok (pden e x).
Proof.
  intros v e H x Hx. destruct (built_inv v e H) as [Hi [_ Hv]]. rewrite vp_evaluate_spec by assumption.
  rewrite Hv by exact Hx. reflexivity.
Qed.

Lemma built_materialize : forall (v : vp p) e, built v e ->
  vp_materialize v = Ok (mkMle (num_variables v)
    (map (fun k => pden e (bpoint (num_variables v) k)) (seq 0 (2 ^ num_variables v)))).
Proof.
  intros v e H. destruct (built_inv v e H) as [Hi [_ Hv]]. rewrite vp_materialize_spec by exact Hi.
  f_equal. f_equal. apply map_ext. intros k. apply Hv. apply bpoint_length.
Qed.

Lemma built_add_total : forall (v w : vp p) e e', built v e -> built w e' -> coherent (flat v ++ flat w) ->
  if (num_variables v =? num_variables w) || match products w with [] => true | _ => false end
  then exists u, vp_add v w = Ok u /\ num_variables u = num_variables v /\ built u (PAdd e e')
  else vp_add v w = Panic.
Proof.
  intros v w e e' Hv Hw Hc. destruct (built_inv v e Hv) as [Hi [_ _]]. destruct (built_inv w e' Hw) as [Hi' [_ _]].
  destruct (Nat.eqb_spec (num_variables v) (num_variables w)) as [E|E]; cbn [orb].
  - destruct (vp_add_spec v w Hi Hi' Hc (or_intror E)) as [u [U1 [U2 [[U3 _] _]]]].
    exists u. split; [exact U1|]. split; [exact U3|]. eapply B_plus; eauto.
  - destruct (products w) as [|a l] eqn:Ep.
    + destruct (vp_add_spec v w Hi Hi' Hc (or_introl Ep)) as [u [U1 [U2 [[U3 _] _]]]].
      exists u. split; [exact U1|]. split; [exact U3|]. eapply B_plus; eauto.
    + apply vp_add_mismatch; auto. rewrite Ep. discriminate.
Qed.

Lemma built_mul_total : forall (v : vp p) e m c, built v e -> wf_mle (snd m) -> coherent (flat v ++ [m]) ->
  if nv (snd m) =? num_variables v then exists u, mul_by_mle v m c = Ok u /\ num_variables u = num_variables v
     /\ max_degree u = max_degree v + 1
     /\ built u (PScale c (PMul e (aexpr m)))
  else mul_by_mle v m c = Err ArithInvalidParameters.
Proof.
  intros v e m c Hv Hm Hc. destruct (built_inv v e Hv) as [Hi [_ _]].
  pose proof (mul_by_mle_spec v m c Hi Hm Hc) as H. destruct (nv (snd m) =? num_variables v); [|exact H].
  destruct H as [u [U1 [U2 [[U3 _] [_ [U5 _]]]]]]. exists u. repeat split; auto. eapply B_mul; eauto.
Qed.

Lemma built_add_list_total : forall (v : vp p) e l c, built v e -> wf_arcs l -> coherent (flat v ++ l) ->
  exists v', num_variables v' = num_variables v /\
  if negb (match l with [] => true | _ => false end) && forallb (fun m => nv (snd m) =? num_variables v) l
  then add_mle_list v l c = (v', Ok tt) /\
    built v' (PAdd e (PScale c (PProd (map (fun m => (nv (snd m), evs (snd m))) l))))
  else add_mle_list v l c = (v', Err ArithInvalidParameters) /\ built v' e.
Proof.
  intros v e l c Hv Hw Hc. destruct (built_inv v e Hv) as [Hi [_ _]].
  pose proof (add_mle_list_spec v l c Hi Hw Hc) as H. destruct (add_mle_list v l c) as [v' r] eqn:Ea.
  exists v'. destruct H as [_ [[Hn _] [_ H]]]. split; [exact Hn|].
  destruct H as [[Hne [Hnv [-> [_ _]]]]|[Hbad [-> [_ _]]]].
  - replace (negb _ && _) with true.
    + split; [reflexivity|]. eapply B_add; eauto.
    + symmetry. apply andb_true_iff. split; [destruct l; [congruence|reflexivity]|]. apply forallb_nv. exact Hnv.
  - replace (negb _ && _) with false.
    + split; [reflexivity|]. eapply B_add_rejected; eauto.
    + symmetry. destruct Hbad as [->|[m [Hm Hne]]]; [reflexivity|]. apply andb_false_iff. right.
      match goal with |- ?b = false => destruct b eqn:Ef; [|reflexivity] end. exfalso. apply Hne.
      apply (proj1 (forallb_nv (num_variables v) l) Ef). exact Hm.
Qed.

(** A rejected call does not change what evaluate and materialize return. *)
Lemma rejected_keeps_value : forall (v v' : vp p) e l c er, built v e -> wf_arcs l -> coherent (flat v ++ l) ->
  add_mle_list v l c = (v', Err er) ->
  num_variables v' = num_variables v /\ (forall x, vp_evaluate v' x = vp_evaluate v x) /\
  vp_materialize v' = vp_materialize v.
Proof.
  intros v v' e l c er Hv Hw Hc Ha.
  assert (Hv' : built v' e) by (eapply B_add_rejected; eauto).
  assert (Hn : num_variables v' = num_variables v).
  { destruct (built_add_list_total v e l c Hv Hw Hc) as [v2 [Hn H]].
    destruct (negb _ && _); destruct H as [H _]; rewrite Ha in H; inversion H; subst; exact Hn. }
  split; [exact Hn|]. split.
  - intros x. destruct (Nat.eq_dec (length x) (num_variables v)) as [E|E].
    + rewrite (built_evaluate v e Hv x E). apply built_evaluate; [exact Hv'|congruence].
    + rewrite !vp_evaluate_err; congruence.
  - rewrite (built_materialize v e Hv), (built_materialize v' e Hv'), Hn. reflexivity.
Qed.

(** ** Batching *)
Lemma fhat_sum : forall n (g : list (F p) -> F p) r, length r = n ->
  cube_sum n (fun x => g x * eqf x r)%F = mle_ext n (fun k => g (bpoint n k)) r.
Proof.
  intros n g r Hr. unfold cube_sum. rewrite mle_ext_as_sum. reflexivity.
Qed.

Lemma built_fhat : forall (v : vp p) e r a, built v e -> (forall m, In m (flat v) -> fst m <> a) ->
  length r = num_variables v -> r <> [] ->
  exists u, build_f_hat v r a = Ok u /\ num_variables u = num_variables v /\ max_degree u = max_degree v + 1 /\
    built u (PMul e (eq_expr r)) /\
    (forall x, length x = num_variables v -> vp_evaluate u x = Ok (pden e x * eqf x r)%F) /\
    exists T, vp_materialize u = Ok T /\
      Fsum (evs T) = mle_ext (num_variables v) (fun k => pden e (bpoint (num_variables v) k)) r.
Proof.
  intros v e r a Hv Hfr Hl Hr. destruct (built_inv v e Hv) as [Hi [Hc _]].
  destruct (build_f_hat_spec v r a Hi Hfr Hl Hr Hc) as [u [U1 [U2 [[U3 _] [U4 _]]]]].
  assert (Hu : built u (PMul e (eq_expr r))) by (eapply B_fhat; eauto).
  exists u. split; [exact U1|]. split; [exact U3|]. split; [exact U4|]. split; [exact Hu|]. split.
  - intros x Hx. rewrite (built_evaluate u _ Hu) by congruence. simpl. f_equal. f_equal.
    apply mle_ext_eq_expr. congruence.
  - rewrite (built_materialize u _ Hu). eexists. split; [reflexivity|]. cbn [evs]. rewrite U3.
    rewrite <- fhat_sum by exact Hl. unfold cube_sum, sumN. apply Fsum_map_ext.
    intros k Hk. cbn [pden]. rewrite mle_ext_eq_expr by (rewrite bpoint_length; congruence). reflexivity.
Qed.

Lemma built_fhat_err : forall (v : vp p) r a, (length r <> num_variables v \/ r = []) ->
  build_f_hat v r a = Err ArithInvalidParameters.
Proof.
  intros v r a H. unfold build_f_hat. destruct (Nat.eqb_spec (num_variables v) (length r)) as [E|E]; [|reflexivity].
  destruct H as [H| ->]; [congruence|]. reflexivity.
Qed.

(** ** Generators *)
Section Gen.
Context {R : Type} (g : rng p R).

Fixpoint snoc_all (ms : list (list (F p))) (vs : list (F p)) : list (list (F p)) :=
  match ms, vs with
  | e :: r, v :: w => (e ++ [v]) :: snoc_all r w
  | _, _ => []
  end.

Lemma push_rand_spec : forall ms prod s, exists vs s', length vs = length ms /\
  push_rand g ms prod s = (snoc_all ms vs, (prod * Fprod vs)%F, s').
Proof.
  induction ms as [|e ms IH]; intros prod s; simpl.
  - exists [], s. split; [reflexivity|]. simpl. f_equal. f_equal. ring.
  - destruct (rand_f g s) as [v s1]. destruct (IH (prod * v)%F s1) as [vs [s' [Hl E]]]. rewrite E.
    exists (v :: vs), s'. split; [simpl; lia|]. simpl. f_equal. f_equal. ring.
Qed.

Lemma snoc_all_length : forall ms vs, length vs = length ms -> length (snoc_all ms vs) = length ms.
Proof. induction ms as [|e ms IH]; intros [|v vs] H; simpl in *; try lia. rewrite IH by lia. reflexivity. Qed.

(** [after L ms ms']: ms' extends every row of ms (rows of length L). *)
Definition after (L k : nat) (ms ms' : list (list (F p))) : Prop :=
  length ms' = length ms /\ forall i, i < length ms ->
    length (nth i ms' []) = L + k /\ firstn L (nth i ms' []) = nth i ms [].

Lemma snoc_all_nth : forall ms vs i, length vs = length ms -> i < length ms ->
  nth i (snoc_all ms vs) [] = nth i ms [] ++ [nth i vs F0].
Proof.
  induction ms as [|e ms IH]; intros [|v vs] i H Hi; simpl in *; try lia.
  destruct i; [reflexivity|]. apply IH; lia.
Qed.

Lemma map_nth_seq' : forall {A B} (f : A -> B) (d : A) (l : list A), map f l = map (fun i => f (nth i l d)) (seq 0 (length l)).
Proof. intros A B f d l. rewrite <- (map_nth_seq d l) at 1. rewrite map_map. reflexivity. Qed.

Lemma nth_firstn_lt : forall {A} (l : list A) L j d, j < L -> nth j (firstn L l) d = nth j l d.
Proof.
  induction l as [|a l IH]; intros [|L] [|j] d H; simpl; try lia; try reflexivity. apply IH. lia.
Qed.

Lemma random_rows_spec : forall k ms sum s L, (forall e, In e ms -> length e = L) ->
  exists ms' s', random_rows g k ms sum s =
    (ms', (sum + sumN k (fun j => Fprod (map (fun e => nth (L + j) e F0) ms')))%F, s') /\ after L k ms ms'.
Proof.
  induction k as [|k IH]; intros ms sum s L HL; simpl.
  - exists ms, s. split; [rewrite sumN_0; f_equal; f_equal; ring|].
    split; [reflexivity|]. intros i Hi. pose proof (HL (nth i ms []) (nth_In _ _ Hi)) as E.
    split; [lia|]. apply firstn_all2. lia.
  - destruct (push_rand_spec ms F1 s) as [vs [s1 [Hvs E]]]. rewrite E.
    destruct (IH (snoc_all ms vs) (sum + F1 * Fprod vs)%F s1 (S L)) as [ms' [s' [E2 [A1 A2]]]].
    { intros e He. destruct (In_nth _ _ [] He) as [i [Hi <-]]. rewrite snoc_all_length in Hi by exact Hvs.
      rewrite snoc_all_nth by assumption. rewrite app_length, (HL _ (nth_In _ _ Hi)). simpl. lia. }
    rewrite snoc_all_length in * by exact Hvs.
    rewrite E2. exists ms', s'. split.
    + f_equal. f_equal. rewrite sumN_S_l, Nat.add_0_r.
      assert (Ev : Fprod (map (fun e => nth L e F0) ms') = Fprod vs).
      { f_equal. rewrite (map_nth_seq' _ []), A1. rewrite <- (map_nth_seq F0 vs), Hvs. apply map_ext_in.
        intros i Hi. apply in_seq in Hi. destruct (A2 i) as [_ B]; [lia|].
        rewrite <- (nth_firstn_lt _ (S L)) by lia. rewrite B, snoc_all_nth by (try assumption; lia).
        rewrite app_nth2; rewrite (HL (nth i ms [])) by (apply nth_In; lia); [|lia].
        rewrite Nat.sub_diag. reflexivity. }
      rewrite Ev. replace (sumN k (fun j => Fprod (map (fun e => nth (L + S j) e F0) ms')))
        with (sumN k (fun j => Fprod (map (fun e => nth (S L + j) e F0) ms'))); [ring|].
      apply sumN_ext. intros j Hj. rewrite Nat.add_succ_r. reflexivity.
    + split; [exact A1|]. intros i Hi. destruct (A2 i) as [B1 B2]; [lia|]. split; [lia|].
      rewrite snoc_all_nth in B2 by assumption.
      replace L with (Nat.min L (S L)) at 1 by lia. rewrite <- firstn_firstn, B2.
      rewrite firstn_app. pose proof (HL _ (nth_In ms [] Hi)) as E3. rewrite E3, Nat.sub_diag. simpl.
      rewrite app_nil_r. apply firstn_all2. lia.
Qed.

(** Addresses handed out by the allocator are new. *)
Variable used : R -> list nat.
Definition fresh_alloc : Prop :=
  (forall s, let '(a, s') := alloc g s in ~ In a (used s) /\ used s' = a :: used s) /\
  (forall s, used (snd (rand_f g s)) = used s) /\ (forall s, used (snd (rand_u64 g s)) = used s) /\
  (forall lo hi s, used (snd (rand_range g lo hi s)) = used s).

Lemma to_arcs_spec : forall n ms s, (forall e, In e ms -> length e = 2 ^ n) ->
  exists l s', to_arcs g n ms s = Ok (l, s') /\ map snd l = map (mkMle n) ms /\
    (fresh_alloc -> incl (used s) (used s') /\ incl (map fst l) (used s') /\ NoDup (map fst l) /\
        (forall a, In a (map fst l) -> ~ In a (used s))).
Proof.
  induction ms as [|e ms IH]; intros s H; simpl.
  - exists [], s. repeat split; try (intros; contradiction); try constructor; try apply incl_refl. intros a [].
  - rewrite from_evaluations_ok by (apply H; left; reflexivity). cbn [bind].
    destruct (alloc g s) as [a s1] eqn:Ea.
    destruct (IH s1) as [l [s' [E1 [E2 E3]]]]; [intros e' He; apply H; right; exact He|].
    rewrite E1. cbn [bind]. exists ((a, mkMle n e) :: l), s'. split; [reflexivity|].
    split; [simpl; rewrite E2; reflexivity|]. intros Hf. destruct (E3 Hf) as [I1 [I2 [I3 I4]]].
    destruct Hf as [Hf _]. specialize (Hf s). rewrite Ea in Hf. destruct Hf as [F1' F2']. rewrite F2' in *.
    split; [intros x Hx; apply I1; right; exact Hx|].
    split; [simpl; intros x [<-|Hx]; [apply I1; left; reflexivity|apply I2; exact Hx]|].
    split.
    + simpl. constructor; [|exact I3]. intros Hin. apply (I4 a Hin). left. reflexivity.
    + simpl. intros x [<-|Hx]; [exact F1'|]. intros Hin. apply (I4 x Hx). right. exact Hin.
Qed.

Lemma rand_used_push : forall ms prod s, fresh_alloc -> used (snd (push_rand g ms prod s)) = used s.
Proof.
  intros ms prod s [_ [Hf _]]. revert prod s. induction ms as [|e ms IH]; intros prod s; simpl; [reflexivity|].
  pose proof (Hf s) as E. destruct (rand_f g s) as [v s1]. simpl in E.
  pose proof (IH (prod * v)%F s1) as E2. destruct (push_rand g ms (prod * v)%F s1) as [[r pr] s2]. simpl in *. congruence.
Qed.
Lemma rand_used_rows : forall k ms sum s, fresh_alloc -> used (snd (random_rows g k ms sum s)) = used s.
Proof.
  intros k ms sum s Hf. revert ms sum s. induction k as [|k IH]; intros ms sum s; simpl; [reflexivity|].
  pose proof (rand_used_push ms F1 s Hf) as E. destruct (push_rand g ms F1 s) as [[r pr] s2]. rewrite IH. exact E.
Qed.

Definition arcs_fresh (s s' : R) (l : list (arc p)) : Prop :=
  incl (used s) (used s') /\ incl (map fst l) (used s') /\ NoDup (map fst l) /\
  (forall a, In a (map fst l) -> ~ In a (used s)).

(** random_mle_list returns well-formed polynomials and the true sum of their product. *)
Lemma random_mle_list_spec : forall n d s, exists l sum s',
  random_mle_list g n d s = Ok (l, sum, s') /\ length l = d /\
  (forall m, In m l -> wf_mle (snd m) /\ nv (snd m) = n) /\
  sum = sumN (2 ^ n) (fun k => Fprod (map (fun m : arc p => tab (evs (snd m)) k) l)) /\
  (fresh_alloc -> arcs_fresh s s' l).
Proof.
  intros n d s. unfold random_mle_list.
  destruct (random_rows_spec (2 ^ n) (repeat [] d) F0 s 0) as [ms [s1 [E [A1 A2]]]].
  { intros e He. apply repeat_spec in He. subst e. reflexivity. }
  pose proof (rand_used_rows (2 ^ n) (repeat [] d) F0 s) as Hu. rewrite E in *.
  rewrite repeat_length in *.
  assert (Hlen : forall e, In e ms -> length e = 2 ^ n).
  { intros e He. destruct (In_nth _ _ [] He) as [i [Hi <-]]. destruct (A2 i) as [B _]; [lia|]. exact B. }
  destruct (to_arcs_spec n ms s1 Hlen) as [l [s' [E1 [E2 E3]]]]. rewrite E1. cbn [bind].
  eexists l, _, s'. split; [reflexivity|].
  assert (Hl : length l = d).
  { rewrite <- A1, <- (map_length (mkMle n) ms), <- E2, map_length. reflexivity. }
  split; [exact Hl|]. split.
  - intros m Hm. assert (Hs : In (snd m) (map (mkMle n) ms)) by (rewrite <- E2; apply in_map; exact Hm).
    apply in_map_iff in Hs. destruct Hs as [e [<- He]]. split; [apply Hlen; exact He|reflexivity].
  - split.
    + replace (F0 + sumN (2 ^ n) (fun j => Fprod (map (fun e => nth (0 + j) e F0) ms)))%F
        with (sumN (2 ^ n) (fun j => Fprod (map (fun e => nth (0 + j) e F0) ms))) by ring.
      apply sumN_ext. intros k Hk. f_equal. symmetry.
      transitivity (map (fun m => tab (evs m) k) (map (@snd nat (mle p)) l)); [rewrite map_map; reflexivity|].
      rewrite E2, map_map. reflexivity.
    + intros Hf. specialize (Hu Hf). simpl in Hu. unfold arcs_fresh. rewrite <- Hu. apply E3. exact Hf.
Qed.

Lemma random_zero_rows_spec : forall k ms s L, ms <> [] -> (forall e, In e ms -> length e = L) ->
  exists ms' s', random_zero_rows g k ms s = Ok (ms', s') /\ after L k ms ms' /\
    (forall j, L <= j -> nth j (nth 0 ms' []) F0 = F0) /\ (fresh_alloc -> used s' = used s).
Proof.
  induction k as [|k IH]; intros ms s L Hne HL; simpl.
  - exists ms, s. split; [reflexivity|]. split.
    + split; [reflexivity|]. intros i Hi. pose proof (HL (nth i ms []) (nth_In _ _ Hi)) as E.
      split; [lia|]. apply firstn_all2. lia.
    + split; [|reflexivity]. intros j Hj. apply nth_overflow.
      destruct ms as [|e ms]; [congruence|]. simpl. rewrite (HL e (or_introl eq_refl)). exact Hj.
  - destruct ms as [|e ms]; [congruence|].
    destruct (push_rand_spec ms F1 s) as [vs [s1 [Hvs E]]].
    pose proof (rand_used_push ms F1 s) as Hu. rewrite E in *.
    set (ms1 := snoc_all (e :: ms) (F0 :: vs)).
    assert (Hs : S (length vs) = length (e :: ms)) by (simpl; lia).
    destruct (IH ms1 s1 (S L)) as [ms' [s' [E2 [[A1 A2] [A3 A4]]]]].
    { discriminate. }
    { intros e' He. destruct (In_nth _ _ [] He) as [i [Hi <-]]. unfold ms1 in Hi. rewrite snoc_all_length in Hi by exact Hs.
      unfold ms1. rewrite snoc_all_nth by assumption. rewrite app_length, (HL _ (nth_In _ _ Hi)). simpl. lia. }
    change ((e ++ [F0]) :: snoc_all ms vs) with ms1. rewrite E2. exists ms', s'. split; [reflexivity|].
    unfold ms1 in A1, A2. rewrite snoc_all_length in A1, A2 by exact Hs.
    split.
    + split; [exact A1|]. intros i Hi. destruct (A2 i Hi) as [B1 B2]. split; [lia|].
      rewrite snoc_all_nth in B2 by assumption.
      replace L with (Nat.min L (S L)) at 1 by lia. rewrite <- firstn_firstn, B2.
      rewrite firstn_app. pose proof (HL _ (nth_In (e :: ms) [] Hi)) as E3. rewrite E3, Nat.sub_diag. simpl firstn at 2.
      rewrite app_nil_r. apply firstn_all2. lia.
    + split.
      * intros j Hj. destruct (Nat.eq_dec j L) as [-> | Hjl]; [|apply A3; lia].
        destruct (A2 0) as [_ B2]; [simpl; lia|]. rewrite <- (nth_firstn_lt _ (S L)) by lia. rewrite B2. simpl.
        rewrite app_nth2; rewrite (HL e (or_introl eq_refl)); [|lia]. rewrite Nat.sub_diag. reflexivity.
      * intros Hf. rewrite (A4 Hf). apply (Hu Hf).
Qed.

Lemma random_zero_mle_list_spec : forall n d s, 1 <= d -> exists l s',
  random_zero_mle_list g n d s = Ok (l, s') /\ length l = d /\
  (forall m, In m l -> wf_mle (snd m) /\ nv (snd m) = n) /\
  (forall k, Fprod (map (fun m : arc p => tab (evs (snd m)) k) l) = F0) /\
  (fresh_alloc -> arcs_fresh s s' l).
Proof.
  intros n d s Hd. unfold random_zero_mle_list.
  destruct (random_zero_rows_spec (2 ^ n) (repeat [] d) s 0) as [ms [s1 [E [[A1 A2] [A3 A4]]]]].
  { destruct d; [lia|discriminate]. }
  { intros e He. apply repeat_spec in He. subst e. reflexivity. }
  rewrite E. cbn [bind]. rewrite repeat_length in *.
  assert (Hlen : forall e, In e ms -> length e = 2 ^ n).
  { intros e He. destruct (In_nth _ _ [] He) as [i [Hi <-]]. destruct (A2 i) as [B _]; [lia|]. exact B. }
  destruct (to_arcs_spec n ms s1 Hlen) as [l [s' [E1 [E2 E3]]]]. rewrite E1.
  exists l, s'. split; [reflexivity|].
  assert (Hl : length l = d).
  { rewrite <- A1, <- (map_length (mkMle n) ms), <- E2, map_length. reflexivity. }
  split; [exact Hl|]. split; [|split].
  - intros m Hm. assert (Hs : In (snd m) (map (mkMle n) ms)) by (rewrite <- E2; apply in_map; exact Hm).
    apply in_map_iff in Hs. destruct Hs as [e [<- He]]. split; [apply Hlen; exact He|reflexivity].
  - intros k. apply Fprod_in_0.
    assert (E4 : map (fun m : arc p => tab (evs (snd m)) k) l = map (fun e => nth k e F0) ms).
    { transitivity (map (fun m => tab (evs m) k) (map (@snd nat (mle p)) l)); [rewrite map_map; reflexivity|].
      rewrite E2, map_map. reflexivity. }
    rewrite E4. apply in_map_iff. exists (nth 0 ms []). split; [apply A3; lia|]. apply nth_In. lia.
  - intros Hf. unfold arcs_fresh. rewrite <- (A4 Hf). apply E3. exact Hf.
Qed.

Lemma random_zero_mle_list_0 : forall n s, random_zero_mle_list g n 0 s = Panic.
Proof.
  intros n s. unfold random_zero_mle_list. pose proof (pow2_pos n). destruct (2 ^ n); [lia|]. reflexivity.
Qed.

Lemma coherent_fresh : forall (fl l : list (arc p)) U, coherent fl -> incl (map fst fl) U ->
  NoDup (map fst l) -> (forall a, In a (map fst l) -> ~ In a U) -> coherent (fl ++ l).
Proof.
  intros fl l U Hc Hi Hn Hf m1 m2 H1 H2 E. apply in_app_iff in H1. apply in_app_iff in H2.
  destruct H1 as [H1|H1]; destruct H2 as [H2|H2].
  - apply Hc; assumption.
  - exfalso. apply (Hf (fst m2)); [apply in_map; exact H2|]. rewrite <- E. apply Hi. apply in_map. exact H1.
  - exfalso. apply (Hf (fst m1)); [apply in_map; exact H1|]. rewrite E. apply Hi. apply in_map. exact H2.
  - f_equal. clear -Hn H1 H2 E. induction l as [|m l IH]; [contradiction|]. simpl in Hn. inversion Hn; subst.
    destruct H1 as [<-|H1]; destruct H2 as [<-|H2].
    + reflexivity.
    + exfalso. apply H3. rewrite E. apply in_map. exact H2.
    + exfalso. apply H3. rewrite <- E. apply in_map. exact H1.
    + apply IH; assumption.
Qed.

Lemma mle_ext_tab_bpoint : forall n (t : list (F p)) k, k < 2 ^ n -> mle_ext n (tab t) (bpoint n k) = tab t k.
Proof. intros. apply mle_ext_bpoint. exact H. Qed.

(** Adding one freshly generated product. *)
Lemma add_fresh : forall (v : vp p) s s' l c n, vp_inv v -> coherent (flat v) -> incl (map fst (flat v)) (used s) ->
  num_variables v = n -> l <> [] -> (forall m, In m l -> wf_mle (snd m) /\ nv (snd m) = n) -> arcs_fresh s s' l ->
  exists v', add_mle_list v l c = (v', Ok tt) /\ vp_inv v' /\ coherent (flat v') /\ incl (map fst (flat v')) (used s') /\
    num_variables v' = n /\
    forall k, k < 2 ^ n -> vp_val v' (bpoint n k) =
       (vp_val v (bpoint n k) + c * Fprod (map (fun m : arc p => tab (evs (snd m)) k) l))%F.
Proof.
  intros v s s' l c n Hi Hc Hu Hn Hne Hl [F1' [F2' [F3' F4']]].
  assert (Hc' : coherent (flat v ++ l)) by (eapply coherent_fresh; eauto).
  pose proof (add_mle_list_spec v l c Hi (fun m Hm => proj1 (Hl m Hm)) Hc') as H.
  destruct (add_mle_list v l c) as [v' r]. destruct H as [H1 [[H2 _] [H3 H4]]].
  destruct H4 as [[_ [_ [-> [_ H5]]]]|[Hbad _]].
  - exists v'. split; [reflexivity|]. split; [exact H1|].
    split; [eapply coherent_incl; [exact Hc'|exact H3]|]. split.
    + intros a Ha. apply in_map_iff in Ha. destruct Ha as [m [<- Hm]]. specialize (H3 m Hm).
      apply in_app_iff in H3. destruct H3 as [H3|H3].
      * apply F1'. apply Hu. apply in_map. exact H3.
      * apply F2'. apply in_map. exact H3.
    + split; [congruence|]. intros k Hk. rewrite H5, Hn. f_equal. f_equal. apply Fprod_map_ext.
      intros m Hm. apply mle_ext_tab_bpoint. exact Hk.
  - exfalso. destruct Hbad as [->|[m [Hm Hb]]]; [contradiction Hne; reflexivity|]. apply Hb. rewrite Hn. apply Hl. exact Hm.
Qed.

Definition in_range : Prop := forall lo hi s, lo < hi -> lo <= fst (rand_range g lo hi s) < hi.

Lemma vp_rand_loop_spec : fresh_alloc -> in_range -> forall n lo hi k v sum s, 1 <= lo -> lo < hi ->
  vp_inv v -> coherent (flat v) -> incl (map fst (flat v)) (used s) -> num_variables v = n ->
  sum = cube_sum n (vp_val v) ->
  exists v' sum' s', vp_rand_loop g n lo hi k v sum s = Ok (v', sum', s') /\ vp_inv v' /\ num_variables v' = n /\
    length (products v') = length (products v) + k /\ sum' = cube_sum n (vp_val v').
Proof.
  intros Hf Hr n lo hi k. induction k as [|k IH]; intros v sum s Hlo Hhi Hi Hc Hu Hn Hs; cbn [vp_rand_loop].
  - exists v, sum, s. split; [reflexivity|]. split; [exact Hi|]. split; [exact Hn|]. split; [lia|exact Hs].
  - replace (lo <? hi) with true by (symmetry; apply Nat.ltb_lt; exact Hhi). cbn [rassert bind].
    pose proof (Hr lo hi s Hhi) as Hd. pose proof (proj2 (proj2 (proj2 Hf)) lo hi s) as Hu1.
    destruct (rand_range g lo hi s) as [d s1]. simpl in Hd, Hu1.
    destruct (random_mle_list_spec n d s1) as [l [ps [s2 [E [Hl [Hw [Hps Hfr]]]]]]]. rewrite E. cbn [bind].
    pose proof (proj1 (proj2 Hf) s2) as Hu2. destruct (rand_f g s2) as [c s3]. simpl in Hu2.
    specialize (Hfr Hf). rewrite <- Hu1 in Hu.
    destruct (add_fresh v s1 s2 l c n Hi Hc Hu Hn) as [v' [E2 [I1 [I2 [I3 [I4 I5]]]]]]; auto.
    { destruct l; [simpl in Hl; lia|discriminate]. }
    rewrite E2. rewrite <- Hu2 in I3.
    destruct (IH v' (sum + ps * c)%F s3 Hlo Hhi I1 I2 I3 I4) as [v2 [sum2 [s4 [J1 [J2 [J3 [J4 J5]]]]]]].
    { rewrite Hs, Hps. unfold cube_sum. rewrite <- sumN_mul_r, <- sumN_add. apply sumN_ext.
      intros j Hj. rewrite I5 by exact Hj. ring. }
    exists v2, sum2, s4. split; [exact J1|]. split; [exact J2|]. split; [exact J3|]. split; [|exact J5].
    rewrite J4. unfold add_mle_list in E2. destruct l as [|m0 l0]; [discriminate|].
    match type of E2 with context [add_loop ?a ?b ?c] => pose proof (add_loop_products b a c) as EP; destruct (add_loop a b c) as [v3 [idx| |]] end;
      inversion E2; subst. cbn [products fst] in *. rewrite app_length, EP. simpl. lia.
Qed.

Lemma vp_new_inv : forall n, vp_inv (vp_new (p:=p) n).
Proof. intros n. constructor; simpl; intros; try contradiction; discriminate. Qed.

Lemma vp_rand_spec : fresh_alloc -> in_range -> forall n lo hi k s, 1 <= lo -> lo < hi ->
  exists v sum s' T, vp_rand g n lo hi k s = Ok (v, sum, s') /\ num_variables v = n /\ length (products v) = k /\
    vp_materialize v = Ok T /\ nv T = n /\ Fsum (evs T) = sum.
Proof.
  intros Hf Hr n lo hi k s Hlo Hhi. unfold vp_rand.
  destruct (vp_rand_loop_spec Hf Hr n lo hi k (vp_new n) F0 s Hlo Hhi (vp_new_inv n)) as [v [sum [s' [E [E1 [E2 [E3 E4]]]]]]].
  - intros m1 m2 [].
  - intros a [].
  - reflexivity.
  - unfold cube_sum. rewrite sumN_zero; [reflexivity|]. intros; reflexivity.
  - eexists v, sum, s', _. split; [exact E|]. split; [exact E2|]. split; [exact E3|].
    split; [apply vp_materialize_spec; exact E1|]. split; [exact E2|]. cbn [evs]. rewrite E2, E4. reflexivity.
Qed.

Lemma vp_rand_zero_loop_spec : fresh_alloc -> in_range -> forall n lo hi k v s, 1 <= lo -> lo < hi ->
  vp_inv v -> coherent (flat v) -> incl (map fst (flat v)) (used s) -> num_variables v = n ->
  (forall j, j < 2 ^ n -> vp_val v (bpoint n j) = F0) ->
  exists v' s', vp_rand_zero_loop g n lo hi k v s = Ok (v', s') /\ vp_inv v' /\ num_variables v' = n /\
    length (products v') = length (products v) + k /\ (forall j, j < 2 ^ n -> vp_val v' (bpoint n j) = F0).
Proof.
  intros Hf Hr n lo hi k. induction k as [|k IH]; intros v s Hlo Hhi Hi Hc Hu Hn Hs; cbn [vp_rand_zero_loop].
  - exists v, s. split; [reflexivity|]. split; [exact Hi|]. split; [exact Hn|]. split; [lia|exact Hs].
  - replace (lo <? hi) with true by (symmetry; apply Nat.ltb_lt; exact Hhi). cbn [rassert bind].
    pose proof (Hr lo hi s Hhi) as Hd. pose proof (proj2 (proj2 (proj2 Hf)) lo hi s) as Hu1.
    destruct (rand_range g lo hi s) as [d s1]. simpl in Hd, Hu1.
    destruct (random_zero_mle_list_spec n d s1) as [l [s2 [E [Hl [Hw [Hps Hfr]]]]]]; [lia|]. rewrite E. cbn [bind].
    pose proof (proj1 (proj2 Hf) s2) as Hu2. destruct (rand_f g s2) as [c s3]. simpl in Hu2.
    specialize (Hfr Hf). rewrite <- Hu1 in Hu.
    destruct (add_fresh v s1 s2 l c n Hi Hc Hu Hn) as [v' [E2 [I1 [I2 [I3 [I4 I5]]]]]]; auto.
    { destruct l; [simpl in Hl; lia|discriminate]. }
    rewrite E2. rewrite <- Hu2 in I3.
    destruct (IH v' s3 Hlo Hhi I1 I2 I3 I4) as [v2 [s4 [J1 [J2 [J3 [J4 J5]]]]]].
    { intros j Hj. rewrite I5 by exact Hj. rewrite Hps, Hs by exact Hj. ring. }
    exists v2, s4. split; [exact J1|]. split; [exact J2|]. split; [exact J3|]. split; [|exact J5].
    rewrite J4. unfold add_mle_list in E2. destruct l as [|m0 l0]; [discriminate|].
    match type of E2 with context [add_loop ?a ?b ?c] => pose proof (add_loop_products b a c) as EP; destruct (add_loop a b c) as [v3 [idx| |]] end;
      inversion E2; subst. cbn [products fst] in *. rewrite app_length, EP. simpl. lia.
Qed.

Lemma vp_rand_zero_spec : fresh_alloc -> in_range -> forall n lo hi k s, 1 <= lo -> lo < hi ->
  exists v s' T, vp_rand_zero g n lo hi k s = Ok (v, s') /\ num_variables v = n /\ length (products v) = k /\
    vp_materialize v = Ok T /\ nv T = n /\ evs T = repeat F0 (2 ^ n).
Proof.
  intros Hf Hr n lo hi k s Hlo Hhi. unfold vp_rand_zero.
  destruct (vp_rand_zero_loop_spec Hf Hr n lo hi k (vp_new n) s Hlo Hhi (vp_new_inv n)) as [v [s' [E [E1 [E2 [E3 E4]]]]]].
  - intros m1 m2 [].
  - intros a [].
  - reflexivity.
  - reflexivity.
  - eexists v, s', _. split; [exact E|]. split; [exact E2|]. split; [exact E3|].
    split; [apply vp_materialize_spec; exact E1|]. split; [exact E2|]. cbn [evs]. rewrite E2.
    rewrite (map_ext_in _ (fun _ => F0)).
    + clear. generalize (2 ^ n). intros q. generalize 0. induction q as [|q IH]; intros a; [reflexivity|]. simpl. rewrite IH. reflexivity.
    + intros j Hj. apply in_seq in Hj. apply E4. lia.
Qed.

(** ** Permutations *)
Lemma remove_nth_perm : forall {A} i (l : list A) d, i < length l -> Permutation l (nth i l d :: remove_nth i l).
Proof.
  induction i as [|i IH]; intros [|x l] d H; simpl in *; try lia; [reflexivity|].
  rewrite perm_swap. constructor. apply IH. lia.
Qed.

Lemma perm_loop_spec : forall k ids s, length ids = k -> exists l s', perm_loop g k ids s = Ok (l, s') /\ Permutation ids l.
Proof.
  induction k as [|k IH]; intros ids s H; cbn [perm_loop].
  - exists [], s. split; [reflexivity|]. destruct ids; [constructor|discriminate].
  - replace (negb (length ids =? 0)) with true by (rewrite H; reflexivity). cbn [rassert bind].
    destruct (rand_u64 g s) as [u s1]. set (i := u mod length ids).
    assert (Hi : i < length ids) by (apply Nat.mod_upper_bound; lia).
    rewrite (rnth_ok ids i F0 Hi). cbn [bind]. pose proof (remove_nth_perm i ids F0 Hi) as P.
    destruct (IH (remove_nth i ids) s1) as [l [s' [E Pl]]].
    { apply Permutation_length in P. simpl in P. lia. }
    rewrite E. cbn [bind]. eexists _, s'. split; [reflexivity|]. eapply Permutation_trans; [exact P|]. constructor. exact Pl.
Qed.

Lemma random_permutation_spec : forall n c s, exists l s', random_permutation g n c s = Ok (l, s') /\
  Permutation (map ofN (seq 0 (c * 2 ^ n))) l.
Proof.
  intros n c s. unfold random_permutation, identity_permutation. apply perm_loop_spec. rewrite map_length, seq_length. reflexivity.
Qed.

Lemma skipn_firstn_length : forall {A} (l : list A) a b, a + b <= length l -> length (skipn a (firstn (a + b) l)) = b.
Proof. intros. rewrite skipn_length, firstn_length. lia. Qed.

Lemma chunks_concat : forall {A} (l : list A) n c, length l = c * n ->
  concat (map (fun i => skipn (i * n) (firstn (i * n + n) l)) (seq 0 c)) = l.
Proof.
  intros A l n c H.
  assert (G : forall c', c' <= c -> concat (map (fun i => skipn (i * n) (firstn (i * n + n) l)) (seq 0 c')) = firstn (c' * n) l).
  { induction c' as [|c' IH]; intros Hc; [reflexivity|]. rewrite seq_S, map_app, concat_app, IH by lia. simpl.
    rewrite app_nil_r. replace (n + c' * n) with (c' * n + n) by lia.
    rewrite <- (firstn_skipn (c' * n) (firstn (c' * n + n) l)) at 2. f_equal. rewrite firstn_firstn. f_equal. lia. }
  rewrite G by lia. apply firstn_all2. lia.
Qed.

Lemma random_permutation_mles_spec : forall n c s, exists ms s', random_permutation_mles g n c s = Ok (ms, s') /\
  length ms = c /\ (forall m, In m ms -> wf_mle m /\ nv m = n) /\
  Permutation (map ofN (seq 0 (c * 2 ^ n))) (concat (map evs ms)).
Proof.
  intros n c s. unfold random_permutation_mles.
  destruct (random_permutation_spec n c s) as [l [s' [E P]]]. rewrite E. cbn [bind].
  assert (Hl : length l = c * 2 ^ n) by (rewrite <- (Permutation_length P), map_length, seq_length; reflexivity).
  rewrite (mapM_ok _ (fun i => mkMle n (skipn (i * 2 ^ n) (firstn (i * 2 ^ n + 2 ^ n) l)))).
  - cbn [bind]. eexists _, s'. split; [reflexivity|]. split; [rewrite map_length, seq_length; reflexivity|]. split.
    + intros m Hm. apply in_map_iff in Hm. destruct Hm as [i [<- Hi]]. apply in_seq in Hi. split; [|reflexivity].
      unfold wf_mle. simpl. apply skipn_firstn_length. rewrite Hl. nia.
    + rewrite map_map. cbn [evs]. rewrite chunks_concat by exact Hl. exact P.
  - intros i Hi. apply in_seq in Hi. rewrite slice_to_ok by (rewrite Hl; nia). cbn [bind].
    apply from_evaluations_ok. apply skipn_firstn_length. rewrite Hl. nia.
Qed.
End Gen.

Lemma identity_permutation_mles_spec : forall n c, exists ms, identity_permutation_mles (p:=p) n c = Ok ms /\
  length ms = c /\ forall i k, i < c -> k < 2 ^ n -> exists m, nth_error ms i = Some m /\ wf_mle m /\ nv m = n /\
     tab (evs m) k = ofN (i * 2 ^ n + k).
Proof.
  intros n c. unfold identity_permutation_mles.
  rewrite (mapM_ok _ (fun i => mkMle n (map ofN (seq (i * 2 ^ n) (2 ^ n))))).
  - eexists. split; [reflexivity|]. split; [rewrite map_length, seq_length; reflexivity|].
    intros i k Hi Hk. exists (mkMle n (map ofN (seq (i * 2 ^ n) (2 ^ n)))). split.
    + rewrite nth_error_map. rewrite (nth_error_nth' _ 0) by (rewrite seq_length; exact Hi).
      rewrite seq_nth by exact Hi. reflexivity.
    + split; [unfold wf_mle; simpl; rewrite map_length, seq_length; reflexivity|]. split; [reflexivity|].
      unfold tab. cbn [evs]. rewrite (nth_indep _ F0 (ofN 0)) by (rewrite map_length, seq_length; exact Hk).
      rewrite map_nth, seq_nth by exact Hk. reflexivity.
  - intros i Hi. apply from_evaluations_ok. rewrite map_length, seq_length. reflexivity.
Qed.
End S.
