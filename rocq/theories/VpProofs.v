(** Virtual polynomial lemmas. *)
From Coq Require Import List Arith Lia Bool ZArith Znumtheory Field.
Import ListNotations.
From Verif Require Import Res ResLemmas Fp FSum SpecMle SpecVp MleLemmas ModelMle MleProofs MleExtra ModelVp VpHist.
Local Open Scope nat_scope.

Section S.
Context {p : positive}.
Add Ring Fr : (@F_ring p).

Definition dummy : arc p := (0, mkMle 0 []).

(** Value of a stored extension at x. *)
Definition flat_val (v : vp p) (x : list (F p)) (i : nat) : F p :=
  mle_ext (num_variables v) (tab (evs (snd (nth i (flat v) dummy)))) x.

Definition prod_val (v : vp p) (x : list (F p)) (cp : F p * list nat) : F p :=
  (fst cp * Fprod (map (flat_val v x) (snd cp)))%F.

Definition vp_val (v : vp p) (x : list (F p)) : F p := Fsum (map (prod_val v x) (products v)).

Record vp_inv (v : vp p) : Prop := {
  inv_flat : forall m, In m (flat v) -> wf_mle (snd m) /\ nv (snd m) = num_variables v;
  inv_prod : forall c idx, In (c, idx) (products v) ->
    idx <> [] /\ length idx <= max_degree v /\ (forall i, In i idx -> i < length (flat v));
  inv_look : forall a i, ptr_get (lookup v) a = Some i -> exists m, nth_error (flat v) i = Some (a, m)
}.

Lemma vp_evaluate_spec : forall v x, vp_inv v -> length x = num_variables v ->
  vp_evaluate v x = Ok (vp_val v x).
Proof.
  intros v x Hi Hx. unfold vp_evaluate. rewrite Hx, Nat.eqb_refl. cbn [ensure bind].
  rewrite (mapM_ok _ (fun m => mle_ext (num_variables v) (tab (evs (snd m))) x)).
  2:{ intros m Hm. destruct (inv_flat v Hi m Hm) as [Hw Hn]. rewrite ark_evaluate_spec by exact Hw.
      rewrite Hn, Hx, Nat.eqb_refl. reflexivity. }
  cbn [bind]. rewrite (mapM_ok _ (prod_val v x)).
  - cbn [bind]. rewrite isum_Fsum. reflexivity.
  - intros [c idx] Hc. cbn [snd fst]. destruct (inv_prod v Hi c idx Hc) as [_ [_ Hb]].
    rewrite (mapM_ok _ (flat_val v x)).
    + cbn [bind]. rewrite iprod_Fprod. reflexivity.
    + intros i Hii. specialize (Hb i Hii).
      set (g := fun m : arc p => mle_ext (num_variables v) (tab (evs (snd m))) x).
      rewrite (rnth_ok _ i (g dummy)) by (rewrite map_length; exact Hb).
      rewrite (map_nth g). reflexivity.
Qed.

Lemma vp_evaluate_err : forall (v : vp p) x, length x <> num_variables v -> vp_evaluate v x = Err ArithInvalidParameters.
Proof.
  intros v x H. unfold vp_evaluate. replace (num_variables v =? length x) with false; [reflexivity|].
  symmetry. apply Nat.eqb_neq. lia.
Qed.

Lemma vp_materialize_spec : forall v, vp_inv v ->
  vp_materialize v = Ok (mkMle (num_variables v)
     (map (fun k => vp_val v (bpoint (num_variables v) k)) (seq 0 (2 ^ num_variables v)))).
Proof.
  intros v Hi. unfold vp_materialize.
  rewrite (mapM_ok _ (fun k => vp_val v (bpoint (num_variables v) k))).
  - cbn [bind]. apply from_evaluations_ok. rewrite map_length, seq_length. reflexivity.
  - intros k Hk. apply in_seq in Hk.
    rewrite (mapM_ok _ (prod_val v (bpoint (num_variables v) k))).
    + cbn [bind]. rewrite isum_Fsum. reflexivity.
    + intros [c idx] Hc. cbn [snd fst]. destruct (inv_prod v Hi c idx Hc) as [_ [_ Hb]].
      rewrite (mapM_ok _ (flat_val v (bpoint (num_variables v) k))).
      * cbn [bind]. rewrite iprod_Fprod. reflexivity.
      * intros i Hii. specialize (Hb i Hii). rewrite (rnth_ok _ i dummy) by exact Hb. cbn [bind].
        assert (Hin : In (nth i (flat v) dummy) (flat v)) by (apply nth_In; exact Hb).
        destruct (inv_flat v Hi _ Hin) as [Hw Hn]. unfold wf_mle in Hw.
        rewrite (rnth_ok _ k F0) by (rewrite Hw, Hn; lia). f_equal.
        unfold flat_val. rewrite mle_ext_bpoint by lia. reflexivity.
Qed.

(** ** Growing the pool *)
Definition ext_flat (v v' : vp p) : Prop :=
  num_variables v' = num_variables v /\ exists t, flat v' = flat v ++ t.

Lemma flat_val_ext : forall v v' x i, ext_flat v v' -> i < length (flat v) -> flat_val v' x i = flat_val v x i.
Proof.
  intros v v' x i [Hn [t Ht]] Hi. unfold flat_val. rewrite Hn, Ht, app_nth1 by exact Hi. reflexivity.
Qed.

Lemma prod_val_ext : forall v v' x cp, ext_flat v v' -> (forall i, In i (snd cp) -> i < length (flat v)) ->
  prod_val v' x cp = prod_val v x cp.
Proof.
  intros v v' x cp He Hb. unfold prod_val. f_equal. apply Fprod_map_ext. intros i Hi.
  apply flat_val_ext; [exact He|]. apply Hb. exact Hi.
Qed.

Lemma inv_prod_bound : forall v cp, vp_inv v -> In cp (products v) -> forall i, In i (snd cp) -> i < length (flat v).
Proof. intros v [c idx] Hi Hc i Hii. destruct (inv_prod v Hi c idx Hc) as [_ [_ H]]. apply H. exact Hii. Qed.

(** Specification of the loop: indices point to tables with the right contents. *)
Lemma add_loop_spec : forall l v idx,
  (forall m, In m (flat v) -> wf_mle (snd m) /\ nv (snd m) = num_variables v) ->
  (forall a i, ptr_get (lookup v) a = Some i -> exists m, nth_error (flat v) i = Some (a, m)) ->
  wf_arcs l -> coherent (flat v ++ l) ->
  let '(v', r) := add_loop v l idx in
  max_degree v' = max_degree v /\ products v' = products v /\ ext_flat v v' /\
  (forall m, In m (flat v') -> In m (flat v ++ l)) /\
  (forall m, In m (flat v') -> wf_mle (snd m) /\ nv (snd m) = num_variables v') /\
  (forall a i, ptr_get (lookup v') a = Some i -> exists m, nth_error (flat v') i = Some (a, m)) /\
  (if forallb (fun m => nv (snd m) =? num_variables v) l then
     exists js, r = Ok (idx ++ js) /\ length js = length l /\ (forall j, In j js -> j < length (flat v')) /\
       forall k, k < length l -> snd (nth (nth k js 0) (flat v') dummy) = snd (nth k l dummy)
   else r = Err ArithInvalidParameters).
Proof.
  induction l as [|m l IH]; intros v idx Hf Hl Hw Hc.
  - cbn [add_loop forallb]. repeat split; auto.
    + exists []. rewrite app_nil_r. reflexivity.
    + intros m Hm. rewrite app_nil_r. exact Hm.
    + apply Hf. assumption.
    + apply Hf. assumption.
    + exists []. rewrite app_nil_r. repeat split; auto; simpl; intros; try contradiction; lia.
  - cbn [add_loop forallb].
    destruct (Nat.eqb_spec (nv (snd m)) (num_variables v)) as [En|En]; cbn [negb andb].
    2:{ repeat split; auto.
        - exists []. rewrite app_nil_r. reflexivity.
        - intros m' Hm'. apply in_or_app. left. exact Hm'.
        - apply Hf. assumption.
        - apply Hf. assumption. }
    assert (Hwl : wf_arcs l) by (intros m' Hm'; apply Hw; right; exact Hm').
    destruct (ptr_get (lookup v) (fst m)) as [i|] eqn:Ei.
    + assert (Hc' : coherent (flat v ++ l)).
      { intros m1 m2 H1 H2. apply Hc; apply in_app_iff; [apply in_app_iff in H1|apply in_app_iff in H2]; simpl; tauto. }
      specialize (IH v (idx ++ [i]) Hf Hl Hwl Hc').
      destruct (add_loop v l (idx ++ [i])) as [v' r].
      destruct IH as [H1 [H2 [H3 [H4 [H5 [H6 H7]]]]]].
      split; [exact H1|]. split; [exact H2|]. split; [exact H3|].
      split. { intros m' Hm'. specialize (H4 m' Hm'). apply in_app_iff in H4. apply in_app_iff. simpl. tauto. }
      split; [exact H5|]. split; [exact H6|].
      destruct (forallb (fun m0 => nv (snd m0) =? num_variables v) l); [|exact H7].
      destruct H7 as [js [J1 [J2 [J3 J4]]]].
      destruct (Hl _ _ Ei) as [mm Hmm].
      assert (Hib : i < length (flat v)) by (apply nth_error_Some; congruence).
      destruct H3 as [Hn' [t Ht]].
      exists (i :: js). rewrite J1, <- app_assoc. split; [reflexivity|]. simpl. split; [lia|].
      split. { intros j [<-|Hj]; [rewrite Ht, app_length; lia|apply J3; exact Hj]. }
      intros [|k] Hk.
      * rewrite Ht, app_nth1 by exact Hib. rewrite (nth_error_nth _ _ _ Hmm).
        apply (Hc (fst m, mm) m).
        -- apply in_app_iff. left. apply nth_error_In with i. exact Hmm.
        -- apply in_app_iff. right. left. reflexivity.
        -- reflexivity.
      * apply J4. lia.
    + set (v1 := mkVp (max_degree v) (num_variables v) (products v) (flat v ++ [m]) ((fst m, length (flat v)) :: lookup v)).
      assert (Hf1 : forall m', In m' (flat v1) -> wf_mle (snd m') /\ nv (snd m') = num_variables v1).
      { intros m' Hm'. simpl in Hm'. apply in_app_iff in Hm'. destruct Hm' as [Hm'|[<-|[]]].
        - apply Hf. exact Hm'.
        - split; [apply Hw; left; reflexivity|exact En]. }
      assert (Hl1 : forall a i, ptr_get (lookup v1) a = Some i -> exists m, nth_error (flat v1) i = Some (a, m)).
      { intros a i Ha. simpl in Ha. destruct (Nat.eqb_spec a (fst m)) as [->|Hne].
        - inversion Ha; subst i. exists (snd m). simpl. rewrite nth_error_app2, Nat.sub_diag by lia.
          destruct m; reflexivity.
        - destruct (Hl a i Ha) as [mm Hmm]. exists mm. simpl. rewrite nth_error_app1; [exact Hmm|].
          apply nth_error_Some. congruence. }
      assert (Hc1 : coherent (flat v1 ++ l)).
      { simpl. rewrite <- app_assoc. exact Hc. }
      specialize (IH v1 (idx ++ [length (flat v)]) Hf1 Hl1 Hwl Hc1).
      destruct (add_loop v1 l (idx ++ [length (flat v)])) as [v' r].
      destruct IH as [H1 [H2 [H3 [H4 [H5 [H6 H7]]]]]].
      destruct H3 as [Hn' [t Ht]]. simpl in Hn', Ht, H1, H2.
      split; [exact H1|]. split; [exact H2|].
      split. { split; [exact Hn'|]. exists (m :: t). rewrite Ht, <- app_assoc. reflexivity. }
      split. { intros m' Hm'. specialize (H4 m' Hm'). simpl in H4. rewrite <- app_assoc in H4. exact H4. }
      split; [exact H5|]. split; [exact H6|].
      simpl num_variables in H7.
      destruct (forallb (fun m0 => nv (snd m0) =? num_variables v) l); [|exact H7].
      destruct H7 as [js [J1 [J2 [J3 J4]]]].
      exists (length (flat v) :: js). rewrite J1, <- app_assoc. split; [reflexivity|]. simpl. split; [lia|].
      split. { intros j [<-|Hj]; [rewrite Ht, !app_length; simpl; lia|apply J3; exact Hj]. }
      intros [|k] Hk.
      * rewrite Ht, app_nth1 by (rewrite app_length; simpl; lia).
        rewrite app_nth2, Nat.sub_diag by lia. reflexivity.
      * apply J4. lia.
Qed.

Lemma forallb_nv : forall n (l : list (arc p)), forallb (fun m => nv (snd m) =? n) l = true <-> forall m, In m l -> nv (snd m) = n.
Proof.
  intros n l. rewrite forallb_forall. split; intros H m Hm.
  - apply Nat.eqb_eq. apply H. exact Hm.
  - apply Nat.eqb_eq. apply H. exact Hm.
Qed.

(** Everything about one call of add_mle_list. *)
Lemma add_mle_list_spec : forall v l c, vp_inv v -> wf_arcs l -> coherent (flat v ++ l) ->
  let '(v', r) := add_mle_list v l c in
  vp_inv v' /\ ext_flat v v' /\ (forall m, In m (flat v') -> In m (flat v ++ l)) /\
  ((l <> [] /\ (forall m, In m l -> nv (snd m) = num_variables v) /\ r = Ok tt /\
     max_degree v' = Nat.max (max_degree v) (length l) /\
     forall x, vp_val v' x = (vp_val v x + c * Fprod (map (fun m : arc p => mle_ext (num_variables v) (tab (evs (snd m))) x) l))%F)
   \/
   ((l = [] \/ exists m, In m l /\ nv (snd m) <> num_variables v) /\ r = Err ArithInvalidParameters /\
     max_degree v' = Nat.max (max_degree v) (length l) /\
     products v' = products v /\ forall x, vp_val v' x = vp_val v x)).
Proof.
  intros v l c Hi Hw Hc. unfold add_mle_list. destruct l as [|m0 l0] eqn:El.
  { split; [exact Hi|]. split; [split; [reflexivity|exists []; rewrite app_nil_r; reflexivity]|].
    split. { intros m Hm. rewrite app_nil_r. exact Hm. }
    right. repeat split; auto. simpl. lia. }
  rewrite <- El in *. assert (Hne : l <> []) by (rewrite El; discriminate). clear El m0 l0.
  set (v1 := mkVp (Nat.max (max_degree v) (length l)) (num_variables v) (products v) (flat v) (lookup v)).
  pose proof (add_loop_spec l v1 [] (inv_flat v Hi) (inv_look v Hi) Hw Hc) as H.
  destruct (add_loop v1 l []) as [v2 r2].
  destruct H as [H1 [H2 [[Hn [t Ht]] [H4 [H5 [H6 H7]]]]]]. simpl in H1, H2, Hn, Ht.
  assert (Hext : ext_flat v v2) by (split; [exact Hn|exists t; exact Ht]).
  assert (Hlen : length (flat v) <= length (flat v2)) by (rewrite Ht, app_length; lia).
  assert (Hprods : forall x, map (prod_val v2 x) (products v) = map (prod_val v x) (products v)).
  { intros x. apply map_ext_in. intros cp Hcp. apply prod_val_ext; [exact Hext|].
    apply inv_prod_bound; assumption. }
  simpl num_variables in H7.
  destruct (forallb (fun m => nv (snd m) =? num_variables v) l) eqn:Efb.
  - destruct H7 as [js [J1 [J2 [J3 J4]]]]. simpl in J1. rewrite J1.
    split; [|split; [|split]].
    + constructor; simpl.
      * exact H5.
      * intros c' idx Hin. apply in_app_iff in Hin. destruct Hin as [Hin|[Hin|[]]].
        -- rewrite H2 in Hin. destruct (inv_prod v Hi c' idx Hin) as [A [B C]].
           split; [exact A|]. split; [rewrite H1; lia|]. intros i Hii. specialize (C i Hii). lia.
        -- inversion Hin; subst c' idx. split.
           { intros Ejs. subst js. simpl in J2. destruct l; [congruence|discriminate]. }
           split; [rewrite H1, J2; lia|exact J3].
      * exact H6.
    + split; [exact Hn|exists t; exact Ht].
    + exact H4.
    + left. split; [exact Hne|]. split; [apply forallb_nv; exact Efb|]. split; [reflexivity|]. split; [exact H1|].
      intros x. unfold vp_val. simpl products. rewrite H2, map_app, Fsum_app. simpl map.
      rewrite Fsum_cons, Fsum_nil.
      set (v3 := mkVp (max_degree v2) (num_variables v2) (products v ++ [(c, js)]) (flat v2) (lookup v2)).
      change (map (prod_val v3 x) (products v)) with (map (prod_val v2 x) (products v)). rewrite Hprods.
      assert (Epv : prod_val v3 x (c, js) = (c * Fprod (map (flat_val v3 x) js))%F) by reflexivity.
      assert (E : map (flat_val v3 x) js = map (fun m : arc p => mle_ext (num_variables v) (tab (evs (snd m))) x) l).
      { apply (list_eq_nth F0); [rewrite !map_length; exact J2|].
        intros k Hk. rewrite map_length in Hk.
        rewrite (nth_indep _ F0 (flat_val v3 x 0)) by (rewrite map_length; exact Hk). rewrite map_nth.
        set (g := fun m : arc p => mle_ext (num_variables v) (tab (evs (snd m))) x).
        rewrite (nth_indep (map g l) F0 (g dummy)) by (rewrite map_length; lia).
        rewrite (map_nth g). unfold g, flat_val. simpl. rewrite Hn, J4 by lia. reflexivity. }
      rewrite Epv, E. ring.
  - rewrite H7. split; [|split; [|split]].
    + constructor; [exact H5| |exact H6].
      intros c' idx Hin. rewrite H2 in Hin. destruct (inv_prod v Hi c' idx Hin) as [A [B C]].
      split; [exact A|]. split; [rewrite H1; lia|]. intros i Hii. specialize (C i Hii). lia.
    + exact Hext.
    + exact H4.
    + right. split.
      { right. destruct (existsb (fun m => negb (nv (snd m) =? num_variables v)) l) eqn:Ex.
        - apply existsb_exists in Ex. destruct Ex as [m [Hm Hnq]]. exists m. split; [exact Hm|].
          apply negb_true_iff, Nat.eqb_neq in Hnq. exact Hnq.
        - exfalso. assert (forallb (fun m => nv (snd m) =? num_variables v) l = true); [|congruence].
          apply forallb_forall. intros m Hm.
          destruct (nv (snd m) =? num_variables v) eqn:E; [reflexivity|].
          assert (existsb (fun m => negb (nv (snd m) =? num_variables v)) l = true); [|congruence].
          apply existsb_exists. exists m. rewrite E. auto. }
      split; [reflexivity|]. split; [exact H1|]. split; [exact H2|].
      intros x. unfold vp_val. rewrite H2, Hprods. reflexivity.
Qed.

Lemma mul_by_mle_spec : forall v m c, vp_inv v -> wf_mle (snd m) -> coherent (flat v ++ [m]) ->
  if nv (snd m) =? num_variables v then
    exists v', mul_by_mle v m c = Ok v' /\ vp_inv v' /\ ext_flat v v' /\
      (forall m', In m' (flat v') -> In m' (flat v ++ [m])) /\ max_degree v' = max_degree v + 1 /\
      length (products v') = length (products v) /\
      forall x, vp_val v' x = (vp_val v x * c * mle_ext (num_variables v) (tab (evs (snd m))) x)%F
  else mul_by_mle v m c = Err ArithInvalidParameters.
Proof.
  intros v m c Hi Hw Hc. unfold mul_by_mle.
  destruct (Nat.eqb_spec (nv (snd m)) (num_variables v)) as [En|En]; cbn [negb]; [|reflexivity].
  (* the two cases share everything but the pool *)
  assert (G : forall i fl lk,
    (exists t, fl = flat v ++ t) -> i < length fl -> snd (nth i fl dummy) = snd m ->
    (forall m', In m' fl -> In m' (flat v ++ [m])) ->
    (forall a i, ptr_get lk a = Some i -> exists m, nth_error fl i = Some (a, m)) ->
    exists v', Ok (mkVp (max_degree v + 1) (num_variables v)
             (map (fun cp => ((fst cp * c)%F, snd cp ++ [i])) (products v)) fl lk) = Ok v' /\ vp_inv v' /\ ext_flat v v' /\
      (forall m', In m' (flat v') -> In m' (flat v ++ [m])) /\ max_degree v' = max_degree v + 1 /\
      length (products v') = length (products v) /\
      forall x, vp_val v' x = (vp_val v x * c * mle_ext (num_variables v) (tab (evs (snd m))) x)%F).
  { intros i fl lk [t Ht] Hib Hsn Hin Hlk. eexists. split; [reflexivity|].
    set (v' := mkVp (max_degree v + 1) (num_variables v)
             (map (fun cp : F p * list nat => ((fst cp * c)%F, snd cp ++ [i])) (products v)) fl lk).
    assert (He : ext_flat v v') by (split; [reflexivity|exists t; exact Ht]).
    split; [|split; [exact He|split; [exact Hin|split; [reflexivity|split]]]].
    - constructor.
      + intros m' Hm'. simpl in Hm'. apply Hin in Hm'. apply in_app_iff in Hm'.
        destruct Hm' as [Hm'|[<-|[]]]; [apply (inv_flat v Hi); exact Hm'|split; assumption].
      + intros c' idx Hc'. simpl in Hc'. apply in_map_iff in Hc'. destruct Hc' as [[c0 idx0] [E0 Hc0]].
        inversion E0; subst c' idx. destruct (inv_prod v Hi c0 idx0 Hc0) as [A [B C]].
        split; [intros E; apply app_eq_nil in E; destruct E; discriminate|].
        split; [rewrite app_length; simpl; lia|].
        intros j Hj. apply in_app_iff in Hj. simpl. destruct Hj as [Hj|[<-|[]]]; [|exact Hib].
        specialize (C j Hj). rewrite Ht, app_length. lia.
      + exact Hlk.
    - simpl. apply map_length.
    - intros x. unfold vp_val. simpl products. rewrite map_map.
      rewrite (Fsum_map_ext _ (fun cp => prod_val v x cp * (c * mle_ext (num_variables v) (tab (evs (snd m))) x))%F).
      + rewrite Fsum_map_mul_r. ring.
      + intros [c0 idx0] Hc0. unfold prod_val. cbn [fst snd]. rewrite map_app, Fprod_app. simpl map.
        rewrite Fprod_cons, Fprod_nil.
        assert (Ei : flat_val v' x i = mle_ext (num_variables v) (tab (evs (snd m))) x).
        { unfold flat_val. simpl. rewrite Hsn. reflexivity. }
        rewrite Ei. rewrite (Fprod_map_ext (flat_val v' x) (flat_val v x)).
        * ring.
        * intros j Hj. apply flat_val_ext; [exact He|]. apply (inv_prod_bound v (c0, idx0) Hi Hc0). exact Hj. }
  destruct (ptr_get (lookup v) (fst m)) as [i|] eqn:Ei.
  - destruct (inv_look v Hi _ _ Ei) as [mm Hmm].
    apply G.
    + exists []. rewrite app_nil_r. reflexivity.
    + apply nth_error_Some. congruence.
    + rewrite (nth_error_nth _ _ _ Hmm). apply (Hc (fst m, mm) m).
      * apply in_app_iff. left. apply nth_error_In with i. exact Hmm.
      * apply in_app_iff. right. left. reflexivity.
      * reflexivity.
    + intros m' Hm'. apply in_app_iff. left. exact Hm'.
    + apply (inv_look v Hi).
  - apply G.
    + exists [m]. reflexivity.
    + rewrite app_length. simpl. lia.
    + rewrite app_nth2, Nat.sub_diag by lia. reflexivity.
    + auto.
    + intros a i Ha. simpl in Ha. destruct (Nat.eqb_spec a (fst m)) as [->|Hne].
      * inversion Ha; subst i. exists (snd m). rewrite nth_error_app2, Nat.sub_diag by lia. destruct m; reflexivity.
      * destruct (inv_look v Hi a i Ha) as [mm Hmm]. exists mm. rewrite nth_error_app1; [exact Hmm|].
        apply nth_error_Some. congruence.
Qed.

Lemma coherent_incl : forall (l1 l2 : list (arc p)), coherent l2 -> incl l1 l2 -> coherent l1.
Proof. intros l1 l2 H Hi m1 m2 H1 H2. apply H; apply Hi; assumption. Qed.

Lemma ext_flat_trans : forall a b c : vp p, ext_flat a b -> ext_flat b c -> ext_flat a c.
Proof.
  intros a b c [H1 [t Ht]] [H2 [u Hu]]. split; [congruence|]. exists (t ++ u). rewrite Hu, Ht, app_assoc. reflexivity.
Qed.
Lemma ext_flat_refl : forall a : vp p, ext_flat a a.
Proof. intros a. split; [reflexivity|]. exists []. rewrite app_nil_r. reflexivity. Qed.

(** The loop of [+] over a sublist of the products of w. *)
Lemma vp_add_loop : forall w prods v, vp_inv w -> vp_inv v -> incl prods (products w) ->
  coherent (flat v ++ flat w) -> (prods = [] \/ num_variables v = num_variables w) ->
  exists u, foldM (fun acc cp =>
    cur <- mapM (rnth (flat w)) (snd cp) ;;
    match add_mle_list acc cur (fst cp) with
    | (acc', Ok _) => Ok acc'
    | _ => Panic
    end) v prods = Ok u /\ vp_inv u /\ ext_flat v u /\ (forall m, In m (flat u) -> In m (flat v ++ flat w)) /\
    forall x, vp_val u x = (vp_val v x + Fsum (map (prod_val w x) prods))%F.
Proof.
  intros w prods. induction prods as [|[c idx] prods IH]; intros v Hw Hi Hincl Hc Hnv.
  - exists v. simpl. split; [reflexivity|]. split; [exact Hi|]. split; [apply ext_flat_refl|].
    split; [intros m Hm; apply in_app_iff; left; exact Hm|]. intros x. ring.
  - destruct Hnv as [Hnv|Hnv]; [discriminate|].
    assert (Hin : In (c, idx) (products w)) by (apply Hincl; left; reflexivity).
    destruct (inv_prod w Hw c idx Hin) as [A [B C]].
    cbn [foldM]. cbn [snd fst].
    rewrite (mapM_ok _ (fun i => nth i (flat w) dummy)).
    2:{ intros i Hii. apply rnth_ok. apply C. exact Hii. }
    cbn [bind]. set (cur := map (fun i => nth i (flat w) dummy) idx).
    assert (Hcur : incl cur (flat w)).
    { intros m Hm. apply in_map_iff in Hm. destruct Hm as [i [<- Hii]]. apply nth_In. apply C. exact Hii. }
    assert (Hwc : wf_arcs cur). { intros m Hm. apply (inv_flat w Hw). apply Hcur. exact Hm. }
    assert (Hcc : coherent (flat v ++ cur)).
    { eapply coherent_incl; [exact Hc|]. apply incl_app; [apply incl_appl, incl_refl|apply incl_appr; exact Hcur]. }
    pose proof (add_mle_list_spec v cur c Hi Hwc Hcc) as H.
    destruct (add_mle_list v cur c) as [v' r]. destruct H as [H1 [H2 [H3 H4]]].
    destruct H4 as [[_ [_ [-> [_ H5]]]]|[[E|[m [Hm Hne]]] _]].
    + assert (Hinc' : incl (flat v' ++ flat w) (flat v ++ flat w)).
      { apply incl_app; [|apply incl_appr, incl_refl]. intros m Hm. apply H3 in Hm.
        apply in_app_iff in Hm. apply in_app_iff. destruct Hm as [Hm|Hm]; [left; exact Hm|right; apply Hcur; exact Hm]. }
      destruct (IH v') as [u [U1 [U2 [U3 [U4 U5]]]]].
      * exact Hw.
      * exact H1.
      * intros cp Hcp. apply Hincl. right. exact Hcp.
      * eapply coherent_incl; [exact Hc|exact Hinc'].
      * right. destruct H2 as [Hn _]. congruence.
      * exists u. cbn [bind]. split; [exact U1|]. split; [exact U2|].
        split; [eapply ext_flat_trans; [exact H2|exact U3]|].
        split; [intros m Hm; apply Hinc'; apply U4; exact Hm|].
        intros x. rewrite U5, H5. simpl map. rewrite Fsum_cons.
        assert (E : prod_val w x (c, idx) = (c * Fprod (map (fun m : arc p => mle_ext (num_variables v) (tab (evs (snd m))) x) cur))%F).
        { unfold prod_val. cbn [fst snd]. f_equal. unfold cur. rewrite map_map. apply Fprod_map_ext.
          intros i Hii. unfold flat_val. rewrite Hnv. reflexivity. }
        rewrite E. ring.
    + exfalso. apply A. apply map_eq_nil in E. exact E.
    + exfalso. apply Hne. rewrite Hnv. apply (inv_flat w Hw). apply Hcur. exact Hm.
Qed.

Lemma vp_add_spec : forall v w, vp_inv v -> vp_inv w -> coherent (flat v ++ flat w) ->
  (products w = [] \/ num_variables v = num_variables w) ->
  exists u, vp_add v w = Ok u /\ vp_inv u /\ ext_flat v u /\ (forall m, In m (flat u) -> In m (flat v ++ flat w)) /\
    forall x, vp_val u x = (vp_val v x + vp_val w x)%F.
Proof.
  intros v w Hv Hw Hc Hn. apply (vp_add_loop w (products w) v Hw Hv (incl_refl _) Hc Hn).
Qed.

Lemma vp_add_mismatch : forall v w, vp_inv v -> vp_inv w -> coherent (flat v ++ flat w) ->
  products w <> [] -> num_variables v <> num_variables w -> vp_add v w = Panic.
Proof.
  intros v w Hi Hw Hc Hne Hn. unfold vp_add. destruct (products w) as [|[c idx] prods] eqn:E; [congruence|].
  assert (Hin : In (c, idx) (products w)) by (rewrite E; left; reflexivity).
  destruct (inv_prod w Hw c idx Hin) as [A [B C]].
  cbn [foldM]. cbn [snd fst].
  rewrite (mapM_ok _ (fun i => nth i (flat w) dummy)).
  2:{ intros i Hii. apply rnth_ok. apply C. exact Hii. }
  cbn [bind]. set (cur := map (fun i => nth i (flat w) dummy) idx).
  assert (Hcur : incl cur (flat w)).
  { intros m Hm. apply in_map_iff in Hm. destruct Hm as [i [<- Hii]]. apply nth_In. apply C. exact Hii. }
  assert (Hwc : wf_arcs cur). { intros m Hm. apply (inv_flat w Hw). apply Hcur. exact Hm. }
  assert (Hcc : coherent (flat v ++ cur)).
  { eapply coherent_incl; [exact Hc|]. apply incl_app; [apply incl_appl, incl_refl|apply incl_appr; exact Hcur]. }
  pose proof (add_mle_list_spec v cur c Hi Hwc Hcc) as H.
  destruct (add_mle_list v cur c) as [v' r]. destruct H as [H1 [H2 [H3 H4]]].
  destruct H4 as [[D [F' _]]|[_ [-> _]]]; [|reflexivity].
  exfalso. destruct idx as [|i idx]; [congruence|].
  apply Hn. assert (Hm : In (nth i (flat w) dummy) cur) by (left; reflexivity).
  rewrite <- (F' _ Hm). apply (inv_flat w Hw). apply Hcur. exact Hm.
Qed.

Lemma build_f_hat_spec : forall v r a, vp_inv v -> (forall m, In m (flat v) -> fst m <> a) ->
  length r = num_variables v -> r <> [] -> coherent (flat v) ->
  exists u, build_f_hat v r a = Ok u /\ vp_inv u /\ ext_flat v u /\ max_degree u = max_degree v + 1 /\
    length (products u) = length (products v) /\ coherent (flat u) /\
    forall x, length x = num_variables v -> vp_val u x = (vp_val v x * eqf x r)%F.
Proof.
  intros v r a Hi Hfr Hl Hr Hcoh. unfold build_f_hat. rewrite Hl, Nat.eqb_refl. cbn [ensure bind].
  rewrite build_eq_x_r_spec by exact Hr. cbn [bind].
  assert (Hc : coherent (flat v ++ [(a, mkMle (length r) (eq_table r))])).
  { intros m1 m2 H1 H2 E. apply in_app_iff in H1. apply in_app_iff in H2.
    destruct H1 as [H1|[<-|[]]]; destruct H2 as [H2|[<-|[]]].
    - apply Hcoh; assumption.
    - exfalso. apply (Hfr m1 H1). exact E.
    - exfalso. apply (Hfr m2 H2). symmetry. exact E.
    - reflexivity. }
  pose proof (mul_by_mle_spec v (a, mkMle (length r) (eq_table r)) F1 Hi (eq_table_length r) Hc) as H.
  simpl nv in H. rewrite Hl, Nat.eqb_refl in H.
  destruct H as [u [U1 [U2 [U3 [U4 [U5 [U6 U7]]]]]]].
  rewrite <- Hl in U1. exists u. split; [rewrite <- U1, Hl; reflexivity|].
  split; [exact U2|]. split; [exact U3|]. split; [exact U5|]. split; [exact U6|].
  split; [eapply coherent_incl; [exact Hc|]; intros m Hm; rewrite Hl; apply U4; exact Hm|].
  intros x Hx. rewrite U7. simpl snd. simpl evs. rewrite <- Hl, eq_table_ext by (rewrite Hl; exact Hx). ring.
Qed.

(** ** Histories *)
Lemma mle_ext_eq_expr : forall (r x : list (F p)), length x = length r -> pden (eq_expr r) x = eqf x r.
Proof.
  intros r x Hx. unfold eq_expr. simpl. rewrite <- eq_table_ext by exact Hx. apply mle_ext_ext.
  intros k Hk. unfold tab, eq_table. rewrite !nth_map_seq by exact Hk. symmetry. apply eqk_eqf.
Qed.

Lemma pden_PProd : forall (l : list (nat * list (F p))) x,
  pden (PProd l) x = Fprod (map (fun t => mle_ext (fst t) (tab (snd t)) x) l).
Proof.
  induction l as [|t l IH]; intros x; simpl.
  - unfold mle_ext. simpl. rewrite sumN_S, sumN_0. unfold eqk, tab. simpl. ring.
  - fold (PProd l). rewrite IH. reflexivity.
Qed.

Lemma add_mle_list_products : forall (v v' : vp p) l c, add_mle_list v l c = (v', Ok tt) -> products v' <> [].
Proof.
  intros v v' l c H. unfold add_mle_list in H. destruct l; [discriminate|].
  destruct (add_loop _ _ _) as [v2 [idx| |]]; inversion H. simpl. intros E. apply app_eq_nil in E. destruct E. discriminate.
Qed.

Lemma add_loop_products : forall l (v : vp p) idx, products (fst (add_loop v l idx)) = products v.
Proof.
  induction l as [|m l IH]; intros v idx; [reflexivity|]. simpl.
  destruct (negb (nv (snd m) =? num_variables v)); [reflexivity|].
  destruct (ptr_get (lookup v) (fst m)); rewrite IH; reflexivity.
Qed.

Lemma add_mle_list_err_products : forall (v v' : vp p) l c e, add_mle_list v l c = (v', Err e) -> products v' = products v.
Proof.
  intros v v' l c e H. unfold add_mle_list in H. destruct l; [inversion H; reflexivity|].
  match type of H with context [add_loop ?a ?b ?c] => pose proof (add_loop_products b a c) as E; destruct (add_loop a b c) as [v2 [idx| |]] end;
  inversion H; subst. exact E.
Qed.

Lemma mul_by_mle_products : forall (v v' : vp p) m c, mul_by_mle v m c = Ok v' -> products v' = [] -> products v = [].
Proof.
  intros v v' m c H E. unfold mul_by_mle in H. destruct (negb _); [discriminate|].
  destruct (ptr_get (lookup v) (fst m)); inversion H; subst; simpl in E; apply map_eq_nil in E; exact E.
Qed.

Lemma foldM_add_products : forall (w : vp p) prods v u,
  foldM (fun acc cp =>
    cur <- mapM (rnth (flat w)) (snd cp) ;;
    match add_mle_list acc cur (fst cp) with
    | (acc', Ok _) => Ok acc'
    | _ => Panic
    end) v prods = Ok u -> products u = [] -> products v = [] /\ prods = [].
Proof.
  intros w prods. induction prods as [|cp prods IH]; intros v u H E.
  - simpl in H. inversion H; subst. auto.
  - exfalso. cbn [foldM] in H. destruct (mapM (rnth (flat w)) (snd cp)) as [cur| |]; cbn [bind] in H; try discriminate.
    destruct (add_mle_list v cur (fst cp)) as [v2 [[]| |]] eqn:Ea; cbn [bind] in H; try discriminate.
    destruct (IH v2 u H E) as [E2 _]. exact (add_mle_list_products _ _ _ _ Ea E2).
Qed.

Lemma built_empty : forall (v : vp p) e, built v e -> products v = [] -> forall x, pden e x = F0.
Proof.
  intros v e H. induction H as
    [n|m c Hw|v e l c v' Hb IH Hw Hc Ha|v e l c v' er Hb IH Hw Hc Ha|v e m c v' Hb IH Hw Hc Ha|v w u e e' Hv IHv Hw IHw Hc Ha|v e r a u Hb IH Hfr Ha];
    intros E x.
  - reflexivity.
  - discriminate E.
  - exfalso. exact (add_mle_list_products _ _ _ _ Ha E).
  - apply IH. rewrite <- (add_mle_list_err_products _ _ _ _ _ Ha). exact E.
  - cbn [pden]. rewrite (IH (mul_by_mle_products _ _ _ _ Ha E)). ring.
  - cbn [pden]. destruct (foldM_add_products _ _ _ _ Ha E) as [E1 E2]. rewrite (IHv E1), (IHw E2). ring.
  - cbn [pden]. unfold build_f_hat in Ha. destruct (num_variables v =? length r); cbn [ensure bind] in Ha; [|discriminate].
    destruct (build_eq_x_r r) as [q| |]; cbn [bind] in Ha; try discriminate.
    rewrite (IH (mul_by_mle_products _ _ _ _ Ha E)). ring.
Qed.

Lemma built_inv : forall (v : vp p) e, built v e ->
  vp_inv v /\ coherent (flat v) /\ forall x, length x = num_variables v -> vp_val v x = pden e x.
Proof.
  intros v e H. induction H as
    [n|m c Hw|v e l c v' Hb IH Hw Hc Ha|v e l c v' er Hb IH Hw Hc Ha|v e m c v' Hb IH Hw Hc Ha|v w u e e' Hv IHv Hw IHw Hc Ha|v e r a u Hb IH Hfr Ha].
  - split; [constructor; simpl; intros; try contradiction; discriminate|].
    split; [intros m1 m2 []|reflexivity].
  - split.
    + constructor; simpl.
      * intros m' [<-|[]]. split; [exact Hw|reflexivity].
      * intros c' idx [E|[]]. inversion E; subst. split; [discriminate|]. split; [simpl; lia|].
        intros i [<-|[]]. lia.
      * intros a i Ha. destruct (Nat.eqb_spec a (fst m)); [|discriminate]. inversion Ha; subst.
        exists (snd m). destruct m; reflexivity.
    + split.
      * simpl. intros m1 m2 [<-|[]] [<-|[]] _. reflexivity.
      * intros x Hx. unfold vp_val, prod_val, flat_val. simpl. ring.
  - destruct IH as [Hi [Hco Hval]]. pose proof (add_mle_list_spec v l c Hi Hw Hc) as H. rewrite Ha in H.
    destruct H as [H1 [H2 [H3 H4]]]. split; [exact H1|].
    split; [eapply coherent_incl; [exact Hc|exact H3]|].
    destruct H4 as [[_ [Hn [_ [_ H5]]]]|[_ [E _]]]; [|discriminate].
    intros x Hx. destruct H2 as [Hnv _]. rewrite H5, Hval by congruence.
    cbn [pden]. rewrite pden_PProd, map_map. f_equal. f_equal. apply Fprod_map_ext.
    intros m Hm. simpl. rewrite (Hn m Hm). reflexivity.
  - destruct IH as [Hi [Hco Hval]]. pose proof (add_mle_list_spec v l c Hi Hw Hc) as H. rewrite Ha in H.
    destruct H as [H1 [H2 [H3 H4]]]. split; [exact H1|].
    split; [eapply coherent_incl; [exact Hc|exact H3]|].
    destruct H4 as [[_ [_ [E _]]]|[_ [_ [_ [_ H5]]]]]; [discriminate|].
    intros x Hx. destruct H2 as [Hnv _]. rewrite H5. apply Hval. congruence.
  - destruct IH as [Hi [Hco Hval]]. pose proof (mul_by_mle_spec v m c Hi Hw Hc) as H.
    destruct (Nat.eqb_spec (nv (snd m)) (num_variables v)) as [En|En]; [|congruence].
    destruct H as [v2 [U1 [U2 [U3 [U4 [U5 [U6 U7]]]]]]]. rewrite Ha in U1. inversion U1; subst v2.
    split; [exact U2|]. split; [eapply coherent_incl; [exact Hc|exact U4]|].
    intros x Hx. destruct U3 as [Hnv _]. rewrite U7, Hval by congruence.
    cbn [pden]. unfold aexpr, mexpr. cbn [pden]. rewrite En. ring.
  - destruct IHv as [Hi [Hco Hval]]. destruct IHw as [Hi' [Hco' Hval']].
    assert (D : products w = [] \/ num_variables v = num_variables w).
    { destruct (Nat.eq_dec (num_variables v) (num_variables w)) as [E|E]; [right; exact E|].
      left. destruct (products w) eqn:Ep; [reflexivity|]. exfalso.
      rewrite vp_add_mismatch in Ha; try assumption; [discriminate|rewrite Ep; discriminate]. }
    destruct (vp_add_spec v w Hi Hi' Hc D) as [u2 [U1 [U2 [U3 [U4 U5]]]]].
    rewrite Ha in U1. inversion U1; subst u2. split; [exact U2|].
    split; [eapply coherent_incl; [exact Hc|exact U4]|].
    intros x Hx. destruct U3 as [Hnv _]. rewrite U5, Hval by congruence. cbn [pden]. f_equal.
    destruct D as [D|D].
    + rewrite (built_empty w e' Hw D). unfold vp_val. rewrite D. reflexivity.
    + apply Hval'. congruence.
  - destruct IH as [Hi [Hco Hval]].
    destruct (Nat.eq_dec (num_variables v) (length r)) as [E|E].
    2:{ exfalso. unfold build_f_hat in Ha. apply Nat.eqb_neq in E. rewrite E in Ha. discriminate. }
    destruct r as [|r0 r'] eqn:Er.
    { exfalso. unfold build_f_hat in Ha. rewrite E in Ha. discriminate. }
    rewrite <- Er in *.
    destruct (build_f_hat_spec v r a Hi Hfr (eq_sym E)) as [u2 [U1 [U2 [U3 [U4 [U5 [U6 U7]]]]]]];
      [rewrite Er; discriminate|exact Hco|].
    rewrite Ha in U1. inversion U1; subst u2. split; [exact U2|]. split; [exact U6|].
    intros x Hx. destruct U3 as [Hnv _]. rewrite U7, Hval by congruence. cbn [pden].
    rewrite mle_ext_eq_expr by congruence. reflexivity.
Qed.
End S.
