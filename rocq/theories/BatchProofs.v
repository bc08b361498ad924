(** Proofs about batch opening and batch verification. *)
From Coq Require Import String List Arith Lia Bool ZArith Znumtheory Field.
Import ListNotations.
From Verif Require Import Res ResLemmas Fp FSum SpecMle SpecPoly SpecVp SpecKzg SpecSumcheck ModelMle MleLemmas MleProofs MleExtra
  PolyLemmas ModelVp VpHist VpProofs VpExtra ModelTranscript ModelSumcheck SumcheckHist SumcheckProofs SumcheckVerify TranscriptProofs SumcheckExtra
  Pairing ModelKzg KzgHist KzgProofs KzgExtra SpecBatch ZerocheckProofs ModelBatch.
Local Open Scope string_scope.
Local Open Scope list_scope.
Local Open Scope nat_scope.

Section B.
Context {p : positive}.
Add Ring Fr : (@F_ring p).
Implicit Types (f m : mle p) (x pt : list (F p)).

Lemma pt_eqb_eq : forall a b : list (F p), pt_eqb a b = true <-> a = b.
Proof.
  induction a as [|x a IH]; intros [|y b]; cbn [pt_eqb]; try (split; congruence).
  rewrite andb_true_iff, Feqb_eq, IH. split; [intros [-> ->]; reflexivity|intros E; injection E; auto].
Qed.

(** A table of n variables, or the constant zero. *)
Definition okm (n : nat) m : Prop := m = mle_zero \/ (wf_mle m /\ nv m = n).

Lemma value_zero : forall x, value (p:=p) mle_zero x = F0.
Proof.
  intros x. unfold value. apply mle_ext_zero. intros k Hk. cbn in Hk. assert (k = 0) by lia. subst k. reflexivity.
Qed.

Lemma value_scale : forall c f x, value (mkMle (nv f) (map (fun y => (c * y)%F) (evs f))) x = (c * value f x)%F.
Proof.
  intros c f x. unfold value. cbn [nv evs]. rewrite <- mle_ext_scale. apply mle_ext_ext. intros k _. unfold tab.
  rewrite <- (map_nth (fun y => (c * y)%F) (evs f) F0 k). f_equal. ring.
Qed.

Lemma mle_add_scaled_ok : forall n m c f, 0 < n -> okm n m -> wf_mle f -> nv f = n ->
  exists m', mle_add_scaled m c f = Ok m' /\ wf_mle m' /\ nv m' = n /\ forall x, value m' x = (value m x + c * value f x)%F.
Proof.
  intros n m c f Hn Hm Hf En. unfold mle_add_scaled, mle_add, mle_is_zero. cbn [nv evs].
  assert (Z : (nv f =? 0) = false) by (apply Nat.eqb_neq; lia). rewrite Z. cbn [bind].
  assert (Wf : wf_mle (mkMle (nv f) (map (fun y => (c * y)%F) (evs f)))).
  { unfold wf_mle in *. cbn [nv evs]. rewrite map_length. exact Hf. }
  destruct Hm as [-> | [Wm Em]].
  - cbn [nv evs mle_zero Nat.eqb rnth nth_error ounwrap bind].
    assert (EZ : Feqb (p:=p) F0 F0 = true) by (apply Feqb_eq; reflexivity). rewrite EZ.
    eexists. split; [reflexivity|]. split; [exact Wf|]. split; [exact En|]. intros x. rewrite value_scale, value_zero. ring.
  - assert (Z2 : (nv m =? 0) = false) by (apply Nat.eqb_neq; lia). rewrite Z2. cbn [bind].
    rewrite (proj2 (Nat.eqb_eq (nv m) (nv f))) by congruence. cbn [rassert bind].
    set (l := map _ _). assert (L : length l = 2 ^ nv m).
    { unfold l. rewrite map_length, combine_length, map_length. unfold wf_mle in *. rewrite Wm, Hf, En, Em. apply Nat.min_id. }
    rewrite (from_evaluations_ok _ _ L). eexists. split; [reflexivity|]. split; [exact L|]. split; [exact Em|].
    intros x. rewrite <- value_scale. unfold value. cbn [nv evs]. rewrite Em, En. rewrite <- mle_ext_add. apply mle_ext_ext.
    intros k Hk. unfold tab, l.
    rewrite (nth_indep _ F0 (fst (@F0 p, @F0 p) + snd (@F0 p, @F0 p))%F) by (rewrite map_length, combine_length, map_length; unfold wf_mle in *; rewrite Wm, Hf, En, Em; rewrite Nat.min_id; exact Hk).
    rewrite (map_nth (fun xy : F p * F p => (fst xy + snd xy)%F)). rewrite combine_nth; [reflexivity|].
    rewrite map_length. unfold wf_mle in *. rewrite Wm, Hf, En, Em. reflexivity.
Qed.

(** The different points. *)
Lemma dedup_acc_spec : forall (pts acc : list (list (F p))), NoDup acc ->
  let r := fold_left (fun acc pt => if existsb (pt_eqb pt) acc then acc else acc ++ [pt]) pts acc in
  NoDup r /\ forall q, In q r <-> In q acc \/ In q pts.
Proof.
  induction pts as [|q pts IH]; intros acc Hn; cbn [fold_left].
  - split; [exact Hn|]. intros q. simpl. tauto.
  - destruct (existsb (pt_eqb q) acc) eqn:E.
    + destruct (IH acc Hn) as [A B]. split; [exact A|]. intros q'. rewrite B. apply existsb_exists in E. destruct E as [q2 [H1 H2]].
      apply pt_eqb_eq in H2. subst q2. simpl. intuition (subst; auto).
    + assert (Hq : ~ In q acc).
      { intros H. assert (existsb (pt_eqb q) acc = true); [|congruence]. apply existsb_exists. exists q. split; [exact H|]. apply pt_eqb_eq. reflexivity. }
      assert (N2 : NoDup (acc ++ [q])).
      { apply NoDup_rev in Hn. rewrite <- (rev_involutive (acc ++ [q])). apply NoDup_rev. rewrite rev_app_distr. simpl. constructor; [|exact Hn].
        rewrite <- in_rev. exact Hq. }
      destruct (IH (acc ++ [q]) N2) as [A B]. split; [exact A|]. intros q'. rewrite B, in_app_iff. simpl. tauto.
Qed.

Lemma dedup_spec : forall pts : list (list (F p)), NoDup (dedup_points pts) /\ forall q, In q (dedup_points pts) <-> In q pts.
Proof.
  intros pts. destruct (dedup_acc_spec pts [] (NoDup_nil _)) as [A B]. split; [exact A|]. intros q. unfold dedup_points. rewrite B. simpl. tauto.
Qed.

Lemma point_index_spec : forall (dd : list (list (F p))) pt, In pt dd ->
  exists i, point_index dd pt = Ok i /\ i < length dd /\ nth i dd [] = pt.
Proof.
  induction dd as [|q dd IH]; intros pt H; [destruct H|]. cbn [point_index]. destruct (pt_eqb pt q) eqn:E.
  - exists 0. apply pt_eqb_eq in E. subst. simpl. repeat split; auto. lia.
  - destruct H as [-> | H]; [exfalso; assert (pt_eqb pt pt = true) by (apply pt_eqb_eq; reflexivity); congruence|].
    destruct (IH pt H) as [i [A [B C]]]. rewrite A. exists (S i). cbn [bind length nth]. repeat split; auto. lia.
Qed.

(** Sum over the zipped lists after an update of one position. *)
Lemma Fsum_upd : forall {A B} (w : A -> B -> F p) (ms : list A) (dd : list B) i (m' dm : A) (db : B), i < length ms -> length ms = length dd ->
  Fsum (map (fun md => w (fst md) (snd md)) (combine (upd ms i m') dd)) =
  (Fsum (map (fun md => w (fst md) (snd md)) (combine ms dd)) + (w m' (nth i dd db) - w (nth i ms dm) (nth i dd db)))%F.
Proof.
  intros A B w. induction ms as [|m ms IH]; intros dd i m' dm db Hi Hl; [simpl in Hi; lia|].
  destruct dd as [|b dd]; [simpl in Hl; lia|]. destruct i as [|i].
  - cbn [upd combine map nth]. rewrite !Fsum_cons. cbn [fst snd]. ring.
  - cbn [upd combine map nth]. rewrite !Fsum_cons. cbn [fst snd]. rewrite (IH dd i m' dm db); [ring|simpl in Hi; lia|simpl in Hl; lia].
Qed.

Definition wsum (w : list (F p) -> F p) (x : list (F p)) (ms : list (mle p)) (dd : list (list (F p))) : F p :=
  Fsum (map (fun mq => (value (fst mq) x * w (snd mq))%F) (combine ms dd)).

Definition tsum (w : list (F p) -> F p) (x : list (F p)) (l : list ((mle p * list (F p)) * F p)) : F p :=
  Fsum (map (fun t => (snd t * value (fst (fst t)) x * w (snd (fst t)))%F) l).

Lemma merge_ok : forall n dd, 0 < n -> forall (l : list ((mle p * list (F p)) * F p)) ms,
  (forall f q c, In ((f, q), c) l -> wf_mle f /\ nv f = n /\ In q dd) ->
  length ms = length dd -> (forall m, In m ms -> okm n m) ->
  exists ms', foldM (merge_step dd) ms l = Ok ms' /\ length ms' = length dd /\ (forall m, In m ms' -> okm n m) /\
    (forall w x, wsum w x ms' dd = (wsum w x ms dd + tsum w x l)%F) /\
    (forall i, i < length dd -> (exists f c, In ((f, nth i dd []), c) l) \/ (wf_mle (nth i ms mle_zero) /\ nv (nth i ms mle_zero) = n) ->
        NoDup dd -> wf_mle (nth i ms' mle_zero) /\ nv (nth i ms' mle_zero) = n).
Proof.
  intros n dd Hn. induction l as [|[[f q] c] l IH]; intros ms Hl Hlen Hok.
  - exists ms. cbn [foldM]. split; [reflexivity|]. split; [exact Hlen|]. split; [exact Hok|]. split.
    + intros w x. unfold tsum. cbn [map]. rewrite Fsum_nil. ring.
    + intros i Hi [[f [c []]]|H] _. exact H.
  - destruct (Hl f q c (or_introl eq_refl)) as [Wf [En Hq]]. cbn [foldM merge_step].
    destruct (point_index_spec dd q Hq) as [i [-> [Hi Eq]]]. cbn [bind].
    rewrite (rnth_ok ms i mle_zero) by lia. cbn [bind].
    destruct (mle_add_scaled_ok n (nth i ms mle_zero) c f Hn) as [m' [-> [Wm [Em Vm]]]]; auto.
    { apply Hok. apply nth_In. lia. }
    cbn [bind]. unfold rupd. rewrite (proj2 (Nat.ltb_lt i (length ms))) by lia. cbn [bind].
    destruct (IH (upd ms i m')) as [ms' [A [B [C [D D2]]]]].
    + intros f' q' c' H. apply (Hl f' q' c'). right. exact H.
    + rewrite upd_length. exact Hlen.
    + intros m H. apply (In_nth _ _ mle_zero) in H. destruct H as [j [Hj Ej]]. rewrite upd_length in Hj. destruct (Nat.eq_dec i j) as [<- | Hne].
      * rewrite upd_nth_eq in Ej by lia. right. subst m. auto.
      * rewrite upd_nth_neq in Ej by exact Hne. subst m. apply Hok. apply nth_In. exact Hj.
    + exists ms'. split; [exact A|]. split; [exact B|]. split; [exact C|]. split.
      * intros w x. rewrite D. unfold wsum. rewrite (Fsum_upd (fun m q => (value m x * w q)%F) ms dd i m' mle_zero []) by lia.
        rewrite Vm, Eq. unfold tsum. cbn [map fst snd]. rewrite Fsum_cons. ring.
      * intros j Hj Hc Hnd. apply D2; auto. destruct Hc as [[f' [c' [H|H]]]|H].
        -- injection H as E1 E2 E3. assert (j = i).
           { apply (proj1 (NoDup_nth dd []) Hnd); auto. congruence. }
           subst j. right. rewrite upd_nth_eq by lia. auto.
        -- left. eauto.
        -- right. destruct (Nat.eq_dec i j) as [<- | Hne]; [rewrite upd_nth_eq by lia; auto|rewrite upd_nth_neq by exact Hne; exact H].
Qed.

(** The opened combination. *)
Lemma gprime_ok : forall n (w : list (F p) -> F p) a2, 0 < n -> forall (l : list (mle p * list (F p))) g,
  (forall m q, In (m, q) l -> wf_mle m /\ nv m = n /\ kzg_eq_eval a2 q = Ok (w q)) -> okm n g ->
  exists g', foldM (fun (g : mle p) (mq : mle p * list (F p)) => e <- kzg_eq_eval a2 (snd mq) ;; mle_add_scaled g e (fst mq)) g l = Ok g' /\
    (l <> [] \/ (wf_mle g /\ nv g = n) -> wf_mle g' /\ nv g' = n) /\
    forall x, value g' x = (value g x + Fsum (map (fun mq => (value (fst mq) x * w (snd mq))%F) l))%F.
Proof.
  intros n w a2 Hn. induction l as [|[m q] l IH]; intros g Hl Hg.
  - exists g. split; [reflexivity|]. split; [intros [H|H]; [congruence|exact H]|]. intros x. cbn [map]. rewrite Fsum_nil. ring.
  - destruct (Hl m q (or_introl eq_refl)) as [Wm [Em Ew]]. cbn [foldM fst snd]. rewrite Ew. cbn [bind].
    destruct (mle_add_scaled_ok n g (w q) m Hn Hg Wm Em) as [g1 [-> [W1 [E1 V1]]]]. cbn [bind].
    destruct (IH g1) as [g' [A [B C]]].
    + intros m' q' H. apply Hl. right. exact H.
    + right. auto.
    + exists g'. split; [exact A|]. split; [intros _; apply B; auto|]. intros x. rewrite C, V1. cbn [map fst snd]. rewrite Fsum_cons. ring.
Qed.

Definition pairs_expr (v0 : list (mle p * mle p)) x : F p :=
  Fsum (map (fun ge => (value (fst ge) x * value (snd ge) x)%F) v0).

(** The virtual polynomial handed to the sum check. *)
Lemma vp_pairs_ok : forall n addr, (forall i j, addr i = addr j -> i = j) -> forall (l : list (mle p * mle p)) k v e,
  built v e -> num_variables v = n -> (forall a m, In (a, m) (flat v) -> exists i, i < 2 * k /\ a = addr i) ->
  (forall g q, In (g, q) l -> wf_mle g /\ nv g = n /\ wf_mle q /\ nv q = n) ->
  (max_degree v = 2 \/ max_degree v = 0) -> 
  exists v' e', foldM (fun (v : vp p) (ige : nat * (mle p * mle p)) =>
                let '(i, (g, e)) := ige in add_listT v [(addr (2 * i), g); (addr (2 * i + 1), e)] F1) v
                (combine (seq k (length l)) l) = Ok v' /\ built v' e' /\ num_variables v' = n /\
    (l <> [] -> max_degree v' = 2 /\ products v' <> []) /\ 
    forall x, pden e' x = (pden e x + pairs_expr l x)%F.
Proof.
  intros n addr Hinj. induction l as [|[g q] l IH]; intros k v e Hb En Hfl Hl Hd.
  - exists v, e. cbn [length seq combine foldM]. split; [reflexivity|]. split; [exact Hb|]. split; [exact En|]. split; [congruence|].
    intros x. unfold pairs_expr. cbn [map]. rewrite Fsum_nil. ring.
  - destruct (Hl g q (or_introl eq_refl)) as [Wg [Eg [Wq Eq]]]. cbn [length seq combine foldM].
    set (arcs := [(addr (2 * k), g); (addr (2 * k + 1), q)]).
    assert (Wa : wf_arcs arcs) by (intros m [<- | [<- | []]]; cbn [snd]; assumption).
    destruct (built_inv v e Hb) as [Hi [Hco _]].
    assert (Ca : coherent (flat v ++ arcs)).
    { intros m1 m2 H1 H2 E. apply in_app_iff in H1. apply in_app_iff in H2.
      assert (Dis : forall (m m' : arc p), In m (flat v) -> In m' arcs -> fst m = fst m' -> False).
      { intros [a m] m' A B C. destruct (Hfl a m A) as [i [I1 I2]]. destruct B as [<- | [<- | []]]; cbn [fst] in C; rewrite I2 in C; apply Hinj in C; lia. }
      destruct H1 as [H1|H1], H2 as [H2|H2].
      - apply Hco; assumption.
      - exfalso. eapply Dis; eauto.
      - exfalso. symmetry in E. eapply Dis; eauto.
      - destruct H1 as [<- | [<- | []]], H2 as [<- | [<- | []]]; cbn [fst snd] in *; auto; apply Hinj in E; lia. }
    pose proof (add_mle_list_spec v arcs F1 Hi Wa Ca) as S. unfold add_listT.
    destruct (add_mle_list v arcs F1) as [v1 r] eqn:EA. destruct S as [Hi1 [Hx1 [Hf1 S]]].
    destruct S as [[_ [_ [-> [Hd1 Hv1]]]]|[[H|[m [[<- | [<- | []]] Hm]]] _]]; [|discriminate H|cbn [snd] in Hm; congruence|cbn [snd] in Hm; congruence].
    cbn [bind].
    assert (Hb1 : built v1 (PAdd e (PScale F1 (PProd (map (fun m : arc p => (nv (snd m), evs (snd m))) arcs))))) by (eapply B_add; eauto).
    destruct (IH (S k) v1 _ Hb1) as [v' [e' [A [B [C [D G]]]]]].
    + rewrite (proj1 Hx1). exact En.
    + intros a m H. apply Hf1 in H. apply in_app_iff in H. destruct H as [H|H].
      * destruct (Hfl a m H) as [i [I1 I2]]. exists i. split; [lia|exact I2].
      * destruct H as [H | [H | []]]; injection H as <- <-; eexists; (split; [|reflexivity]); lia.
    + intros g' q' H. apply Hl. right. exact H.
    + left. rewrite Hd1. cbn [length]. destruct Hd as [-> | ->]; reflexivity.
    + exists v', e'. split; [exact A|]. split; [exact B|]. split; [exact C|]. split.
      * intros _. destruct l as [|gq l]; [|apply D; congruence]. cbn [length seq combine foldM] in A. injection A as <-.
        split; [rewrite Hd1; destruct Hd as [-> | ->]; reflexivity|]. eapply add_mle_list_products; eauto.
      * intros x. rewrite G. cbn [pden]. unfold pairs_expr. cbn [map fst snd arcs]. rewrite Fsum_cons. rewrite pden_PProd. cbn [map fst snd].
        rewrite !Fprod_cons, Fprod_nil. unfold value. ring.
Qed.
End B.

Section K.
Context {p : positive} {C : Type} {E : pairing p}.
Add Ring Fr2 : (@F_ring p).
Hypothesis HE : pairing_laws E.
Hypothesis Hp : prime (Zpos p).
Local Notation dm := (mkMle 0 (@nil (F p))).

Lemma combine_seq : forall {A} (d : A) (l : list A) s, combine (seq s (length l)) l = map (fun i => (i, nth (i - s) l d)) (seq s (length l)).
Proof.
  intros A d. induction l as [|a l IH]; intros s; [reflexivity|]. cbn [length seq combine map]. rewrite Nat.sub_diag. cbn [nth]. f_equal.
  rewrite IH. apply map_ext_in. intros i Hi. apply in_seq in Hi. replace (i - s) with (S (i - S s)) by lia. reflexivity.
Qed.

Lemma combine_idx : forall {A B} (da : A) (db : B) (la : list A) (lb : list B) k, k = Nat.min (length la) (length lb) ->
  combine la lb = map (fun i => (nth i la da, nth i lb db)) (seq 0 k).
Proof.
  intros A B da db. induction la as [|a la IH]; intros lb k Hk; [subst; reflexivity|]. destruct lb as [|b lb]; [subst; reflexivity|].
  cbn [length Nat.min] in Hk. subst k. cbn [seq map combine nth]. f_equal. rewrite (IH lb _ eq_refl). rewrite <- seq_shift, map_map. reflexivity.
Qed.

Definition terms (polys : list (mle p)) (points : list (list (F p))) (ts : list (F p)) : list ((mle p * list (F p)) * F p) :=
  map (fun i => ((nth i polys dm, nth i points []), eqk (bits (length ts) i) ts)) (seq 0 (length polys)).

Lemma terms_eq : forall polys points ts, length points = length polys -> length polys <= 2 ^ length ts ->
  combine (combine polys points) (eq_table ts) = terms polys points ts.
Proof.
  intros polys points ts Hl Hk. unfold terms. rewrite (combine_idx (dm, []) F0 _ _ (length polys)).
  - apply map_ext_in. intros i Hi. apply in_seq in Hi. rewrite combine_nth by lia. f_equal. unfold eq_table.
    apply (nth_map_seq (fun k => eqk (bits (length ts) k) ts)). lia.
  - rewrite combine_length, Hl, eq_table_length. lia.
Qed.

Lemma combination_sum : forall (ts vs : list (F p)) k, length vs = k -> k <= 2 ^ length ts ->
  combination ts vs = sumN k (fun i => (eqk (bits (length ts) i) ts * nth i vs F0)%F).
Proof.
  intros ts vs k Hk Hl. unfold combination, mle_ext. replace (2 ^ length ts) with (k + (2 ^ length ts - k)) by lia.
  rewrite sumN_plus. rewrite (sumN_zero (2 ^ length ts - k)).
  - transitivity (sumN k (fun i => (tab vs i * eqk (bits (length ts) i) ts)%F)); [ring|]. apply sumN_ext. intros i _. unfold tab. ring.
  - intros i _. unfold tab. rewrite (nth_overflow vs) by lia. ring.
Qed.

Lemma value_sum : forall n (f : mle p) z, wf_mle f -> nv f = n -> length z = n ->
  cube_sum n (fun x => value f x * eqf x z)%F = value f z.
Proof.
  intros n f z W En Hz. rewrite (fhat_sum n (value f) z Hz). unfold value. rewrite En. apply mle_ext_ext.
  intros k Hk. apply mle_ext_bpoint. exact Hk.
Qed.

(** The polynomial handed to the sum check. *)
Definition batched polys points ts (x : list (F p)) : F p := tsum (eqf x) x (terms polys points ts).

Lemma cube_sum_Fsum : forall {A} n (g : A -> list (F p) -> F p) (l : list A),
  cube_sum n (fun x => Fsum (map (fun a => g a x) l)) = Fsum (map (fun a => cube_sum n (g a)) l).
Proof. intros A n g l. unfold cube_sum, sumN. rewrite Fsum_swap. reflexivity. Qed.

Lemma cube_sum_scale : forall n c (g : list (F p) -> F p), cube_sum n (fun x => c * g x)%F = (c * cube_sum n g)%F.
Proof. intros n c g. unfold cube_sum. apply sumN_mul_l. Qed.

Lemma open_values_nth : forall polys points i, length points = length polys -> i < length polys ->
  nth i (open_values polys points) F0 = value (nth i polys dm) (nth i points []).
Proof.
  intros polys points i Hl Hi. unfold open_values. rewrite (combine_idx dm [] polys points (length polys)) by lia. rewrite map_map.
  apply (nth_map_seq (fun i => value (nth i polys dm) (nth i points []))). exact Hi.
Qed.

Lemma open_values_length : forall (polys : list (mle p)) points, length points = length polys -> length (open_values polys points) = length polys.
Proof. intros. unfold open_values. rewrite map_length, combine_length. lia. Qed.

Lemma batched_sum : forall n polys points ts, batch_wf n polys points -> length polys <= 2 ^ length ts ->
  cube_sum n (batched polys points ts) = combination ts (open_values polys points).
Proof.
  intros n polys points ts [Hl [Hf Hz]] Hk. rewrite (combination_sum ts _ (length polys)) by (auto using open_values_length).
  unfold batched, tsum.
  rewrite (cube_sum_Fsum n (fun t x => (snd t * value (fst (fst t)) x * eqf x (snd (fst t)))%F)). unfold terms. rewrite map_map. unfold sumN.
  apply Fsum_map_ext. intros i Hi. apply in_seq in Hi. cbn [fst snd].
  destruct (Hf (nth i polys dm)) as [W En]; [apply nth_In; lia|].
  assert (Lz : length (nth i points []) = n) by (apply Hz; apply nth_In; lia).
  rewrite open_values_nth by lia. rewrite <- (value_sum n _ _ W En Lz). rewrite <- cube_sum_scale. unfold cube_sum. apply sumN_ext.
  intros j _. ring.
Qed.

(** The run of the prover, up to the passed-through values. *)
Lemma multi_open_run : forall o sc addr g h (tau : list (F p)) n polys points t ts t1,
  distinct_addresses addr -> 0 < n -> n <= length tau -> 2 <= length polys -> batch_wf n polys points -> is_empty t = false -> 2 < fsize p ->
  run_draws (C:=C) o "t" (Nat.log2_up (length polys)) t = (ts, t1) ->
  length ts = Nat.log2_up (length polys) /\ length polys <= 2 ^ length ts /\ ts <> [] /\
  exists v e pf t2 gp pfo, built v e /\ num_variables v = n /\ max_degree v = 2 /\ products v <> [] /\
    (forall x, length x = n -> pden e x = batched polys points ts x) /\
    sc_prove o sc v t1 = Ok (pf, t2) /\ length (pf_point pf) = n /\
    wf_mle gp /\ nv gp = n /\ (forall x, value gp x = tsum (eqf (pf_point pf)) x (terms polys points ts)) /\
    pfo = map (fun q => gmul q g) (qexps (evs gp) (suffix n tau) (pf_point pf)) /\
    forall evals, multi_open o sc addr (srs_pp (srs_of (E:=E) g h tau)) polys points evals t = Ok (mkBatch pf evals pfo, t2).
Proof.
  intros o sc addr g h tau n polys points t ts t1 Hinj Hn Htau Hk Hwf Ht Hf Hd.
  pose proof Hwf as [Hl [Hpol Hpts]].
  assert (Lts : length ts = Nat.log2_up (length polys)).
  { pose proof (run_draws_length o "t" (Nat.log2_up (length polys)) t) as L. rewrite Hd in L. exact L. }
  assert (Hpow : length polys <= 2 ^ length ts) by (rewrite Lts; apply log2_up_pow).
  assert (Hne : ts <> []).
  { intros ->. cbn [length] in Lts. pose proof (Nat.log2_up_pos (length polys)). lia. }
  split; [exact Lts|]. split; [exact Hpow|]. split; [exact Hne|].
  set (dd := dedup_points points). destruct (dedup_spec points) as [Hnd Hin]. fold dd in Hnd, Hin.
  assert (Hdl : forall q, In q dd -> length q = n) by (intros q Hq; apply Hpts, Hin, Hq).
  (* merged tables *)
  destruct (merge_ok n dd Hn (terms polys points ts) (repeat mle_zero (length dd))) as [merged [M1 [M2 [M3 [M4 M5]]]]].
  { intros f q c H. unfold terms in H. apply in_map_iff in H. destruct H as [i [E1 Hi]]. apply in_seq in Hi. injection E1 as <- <- _.
    destruct (Hpol (nth i polys dm)) as [A B]; [apply nth_In; lia|]. split; [exact A|]. split; [exact B|]. apply Hin. apply nth_In. lia. }
  { apply repeat_length. }
  { intros m Hm. apply repeat_spec in Hm. left. exact Hm. }
  assert (M6 : forall m, In m merged -> wf_mle m /\ nv m = n).
  { intros m Hm. apply (In_nth _ _ mle_zero) in Hm. destruct Hm as [i [Hi Ei]]. rewrite <- Ei. apply M5; [lia| |exact Hnd].
    left. assert (Hq : In (nth i dd []) points) by (apply Hin, nth_In; lia). apply (In_nth _ _ []) in Hq. destruct Hq as [j [Hj Ej]].
    exists (nth j polys dm), (eqk (bits (length ts) j) ts). unfold terms. apply in_map_iff. exists j. rewrite Ej. split; [reflexivity|]. apply in_seq. lia. }
  assert (M7 : forall w x, wsum w x merged dd = tsum w x (terms polys points ts)).
  { intros w x. rewrite M4. assert (Z : wsum w x (repeat mle_zero (length dd)) dd = F0); [|rewrite Z; ring].
    unfold wsum. apply Fsum_map_0. intros [m q] H. apply in_combine_l in H. apply repeat_spec in H. subst m. cbn [fst]. rewrite value_zero. ring. }
  assert (Hpt0 : dd <> []).
  { destruct points as [|q0 points']; [simpl in Hl; lia|]. intros Z. assert (In q0 dd) by (apply Hin; left; reflexivity). rewrite Z in H. destruct H. }
  (* eq tables *)
  set (tilde := map (fun q => mkMle n (eq_table q)) dd).
  assert (T1 : mapM (fun pt => e <- unwrap (build_eq_x_r_vec pt) ;; from_evaluations n e) dd = Ok tilde).
  { apply mapM_ok. intros q Hq. rewrite build_eq_x_r_vec_spec by (intros ->; specialize (Hdl _ Hq); simpl in Hdl; lia). cbn [unwrap bind].
    apply from_evaluations_ok. rewrite eq_table_length, (Hdl q Hq). reflexivity. }
  destruct (vp_pairs_ok n addr Hinj (combine merged tilde) 0 (vp_new n) PZero (B_new n) eq_refl) as [v [e [V1 [V2 [V3 [V4 V5]]]]]].
  { intros a m H. destruct H. }
  { intros m q H. destruct (M6 m (in_combine_l _ _ _ _ H)) as [A B]. apply in_combine_r in H. unfold tilde in H. apply in_map_iff in H.
    destruct H as [z [<- Hz]]. split; [exact A|]. split; [exact B|]. split; [|reflexivity]. unfold wf_mle. cbn [evs nv].
    rewrite eq_table_length, (Hdl z Hz). reflexivity. }
  { right. reflexivity. }
  assert (Lc : length (combine merged tilde) = length dd) by (rewrite combine_length; unfold tilde; rewrite map_length; lia).
  rewrite Lc in V1.
  destruct V4 as [V4 V6].
  { destruct (combine merged tilde); [|congruence]. simpl in Lc. destruct dd; [congruence|discriminate]. }
  assert (V7 : forall x, length x = n -> pden e x = batched polys points ts x).
  { intros x Hx. rewrite V5. cbn [pden]. unfold batched. rewrite <- M7. unfold pairs_expr, wsum.
    rewrite (combine_idx dm dm merged tilde (length dd)) by (unfold tilde; rewrite map_length; lia).
    rewrite (combine_idx dm [] merged dd (length dd)) by lia. rewrite !map_map. cbn [fst snd].
    match goal with |- (F0 + ?a)%F = ?b => transitivity a; [ring|] end. apply Fsum_map_ext. intros i Hi. apply in_seq in Hi.
    f_equal. unfold tilde. rewrite (nth_indep _ dm (mkMle n (eq_table []))) by (rewrite map_length; lia).
    rewrite (map_nth (fun q => mkMle n (eq_table q))). unfold value. cbn [nv evs].
    assert (Lq : length (nth i dd []) = n) by (apply Hdl, nth_In; lia).
    rewrite <- Lq at 1. apply eq_table_ext. congruence. }
  destruct (sc_complete_built Hp o sc v e t1 V2) as [pf [t2 [S1 [S2 _]]]]; [rewrite V4; exact Hf|rewrite V3; exact Hn|exact V6|].
  rewrite V3 in S2.
  destruct (gprime_ok n (eqf (pf_point pf)) (pf_point pf) Hn (combine merged dd) mle_zero) as [gp [G1 [G2 G3]]].
  { intros m q H. destruct (M6 m (in_combine_l _ _ _ _ H)) as [A B]. split; [exact A|]. split; [exact B|].
    apply kzg_eq_eval_spec. rewrite S2. symmetry. apply Hdl. apply in_combine_r in H. exact H. }
  { left. reflexivity. }
  destruct G2 as [G2 G4].
  { left. intros Z. apply (f_equal (@length _)) in Z. rewrite combine_length in Z. simpl in Z. destruct dd; [congruence|simpl in *; lia]. }
  exists v, e, pf, t2, gp, (map (fun q => gmul q g) (qexps (evs gp) (suffix n tau) (pf_point pf))).
  split; [exact V2|]. split; [exact V3|]. split; [exact V4|]. split; [exact V6|]. split; [exact V7|]. split; [exact S1|]. split; [exact S2|].
  split; [exact G2|]. split; [exact G4|]. split.
  { intros x. rewrite G3, value_zero. rewrite <- (M7 (eqf (pf_point pf)) x). unfold wsum. ring. }
  split; [reflexivity|].
  intros evals. unfold multi_open. rewrite (rnth_ok polys 0 dm) by lia. cbn [bind]. rewrite (draw_vecT_ok o "t" _ t Ht), Hd. cbn [bind].
  rewrite (build_eq_x_r_vec_spec ts Hne). cbn [bind]. fold dd. rewrite (terms_eq polys points ts Hl Hpow), M1. cbn [bind].
  destruct (Hpol (nth 0 polys dm)) as [_ ->]; [apply nth_In; lia|]. rewrite T1. cbn [bind]. rewrite V1. cbn [bind]. rewrite S1. cbn [map_err bind].
  rewrite slice_to_ok by lia. cbn [bind]. rewrite firstn_all2 by lia. rewrite G1. cbn [bind].
  rewrite (open_ok HE g h tau gp (pf_point pf)) by (auto; lia). cbn [bind]. rewrite G4. reflexivity.
Qed.

Lemma batch_terms_ok : forall n polys points ts (tau a2 : list (F p)) (g : gcar (PG1 E)), batch_wf n polys points -> length polys <= 2 ^ length ts ->
  length a2 = n ->
  batch_terms a2 (eq_table ts) (map (fun f => gmul (value f tau) g) polys) points =
  Ok (map (fun i => (gmul (value (nth i polys dm) tau) g, (eqf a2 (nth i points []) * eqk (bits (length ts) i) ts)%F)) (seq 0 (length polys))).
Proof.
  intros n polys points ts tau a2 g [Hl [Hf Hz]] Hk Ha. unfold batch_terms. rewrite (combine_seq (@nil (F p)) points 0), mapM_map, Hl. apply mapM_ok.
  intros i Hi. apply in_seq in Hi. cbn [fst snd]. rewrite Nat.sub_0_r. rewrite kzg_eq_eval_spec by (rewrite Ha; symmetry; apply Hz; apply nth_In; lia).
  cbn [bind]. rewrite (rnth_ok _ i F0) by (rewrite eq_table_length; lia). cbn [bind].
  rewrite (rnth_ok _ i (gmul (value dm tau) g)) by (rewrite map_length; lia). cbn [bind].
  rewrite (map_nth (fun f => gmul (value f tau) g)). unfold eq_table. rewrite (nth_map_seq (fun k => eqk (bits (length ts) k) ts)) by lia. reflexivity.
Qed.

Lemma batch_msm : forall polys points ts (tau a2 : list (F p)) (g : gcar (PG1 E)),
  let l := map (fun i => (gmul (value (nth i polys dm) tau) g, (eqf a2 (nth i points []) * eqk (bits (length ts) i) ts)%F)) (seq 0 (length polys)) in
  msm (map fst l) (map snd l) = gmul (tsum (eqf a2) tau (terms polys points ts)) g.
Proof.
  intros polys points ts tau a2 g l. unfold l. rewrite !map_map. cbn [fst snd].
  rewrite <- (map_map (fun i => value (nth i polys dm) tau) (fun x => gmul x g)). rewrite (msm_scaled (pl_1 _ HE)). f_equal.
  rewrite combine_map2, map_map. cbn [fst snd]. unfold tsum, terms. rewrite map_map. cbn [fst snd]. apply Fsum_map_ext. intros i _. ring.
Qed.

Lemma batch_sum_ok : forall (ts vs : list (F p)) k, length vs = k -> k <= 2 ^ length ts ->
  batch_sum (eq_table ts) vs k = Ok (combination ts vs).
Proof.
  intros ts vs k Hv Hk. unfold batch_sum. rewrite (combine_seq (@F0 p)). rewrite eq_table_length. rewrite firstn_map.
  assert (Fk : firstn k (seq 0 (2 ^ length ts)) = seq 0 k).
  { replace (2 ^ length ts) with (k + (2 ^ length ts - k)) by lia. rewrite seq_app, firstn_app, seq_length, Nat.sub_diag, firstn_all2 by (rewrite seq_length; lia).
    simpl. apply app_nil_r. }
  rewrite Fk. rewrite (combination_sum ts vs k Hv Hk). unfold sumN.
  assert (G : forall l s, (forall i, In i l -> i < k) -> foldM (fun (s : F p) (ie : nat * F p) => v <- rnth vs (fst ie) ;; Ok (s + snd ie * v)%F) s
      (map (fun i => (i, nth (i - 0) (eq_table ts) F0)) l) = Ok (s + Fsum (map (fun i => eqk (bits (length ts) i) ts * nth i vs F0)%F l))%F).
  { induction l as [|i l IH]; intros s Hs; [cbn; f_equal; ring|]. cbn [map foldM fst snd]. rewrite (rnth_ok vs i F0) by (rewrite Hv; apply Hs; left; reflexivity).
    cbn [bind]. rewrite IH by (intros j Hj; apply Hs; right; exact Hj). f_equal. rewrite Fsum_cons. rewrite Nat.sub_0_r. unfold eq_table.
    rewrite (nth_map_seq (fun k => eqk (bits (length ts) k) ts)) by (specialize (Hs i (or_introl eq_refl)); lia). ring. }
  rewrite G by (intros i Hi; apply in_seq in Hi; lia). f_equal. ring.
Qed.

(** One evaluation of the verifier on honest commitments and any proof of the right size. *)
Lemma batch_verify_run : forall o g h (tau : list (F p)) n polys points t ts t1 bp,
  0 < n -> n <= length tau -> 2 <= length polys -> batch_wf n polys points -> is_empty t = false ->
  run_draws (C:=C) o "t" (Nat.log2_up (length polys)) t = (ts, t1) -> length (bp_evals bp) = length polys -> length (pf_point (bp_sc bp)) = n ->
  batch_verify o (vk_of (E:=E) g h tau) (map (fun f => gmul (value f (suffix n tau)) g) polys) points bp t =
  ' (sub, t2) <- map_err (sc_verify o (combination ts (bp_evals bp)) (bp_sc bp) 2 n t1) PCSInvalidProver ;;
  b <- kzg_verify (vk_of g h tau) (gmul (tsum (eqf (pf_point (bp_sc bp))) (suffix n tau) (terms polys points ts)) g)
         (pf_point (bp_sc bp)) (sub_eval sub) (bp_open bp) ;;
  Ok (b, t2).
Proof.
  intros o g h tau n polys points t ts t1 bp Hn Htau Hk Hwf Ht Hd He Hpt.
  assert (Lts : length ts = Nat.log2_up (length polys)).
  { pose proof (run_draws_length o "t" (Nat.log2_up (length polys)) t) as L. rewrite Hd in L. exact L. }
  assert (Hpow : length polys <= 2 ^ length ts) by (rewrite Lts; apply log2_up_pow).
  assert (Hne : ts <> []).
  { intros ->. cbn [length] in Lts. pose proof (Nat.log2_up_pos (length polys)). lia. }
  unfold batch_verify. rewrite map_length, (draw_vecT_ok o "t" _ t Ht), Hd. cbn [bind]. rewrite (build_eq_x_r_vec_spec ts Hne). cbn [bind].
  rewrite (batch_terms_ok n) by assumption. cbn [bind]. rewrite batch_msm. rewrite (batch_sum_ok ts _ _ He Hpow). cbn [bind]. rewrite Hpt. reflexivity.
Qed.
End K.
