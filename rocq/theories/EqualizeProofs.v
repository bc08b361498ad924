(** Equalizing the number of variables before a proof is compiled. *)
From Coq Require Import String List Arith Lia Bool ZArith.
Import ListNotations.
From Verif Require Import Res ResLemmas Fp FSum SpecMle SpecKzg SpecTracker ModelMle MleLemmas MleProofs MleExtra ModelVp ModelTranscript Pairing ModelKzg ModelBatch
  ModelProver ProverHist TmapLemmas ProverProofs ProverExtra ProverStep.
Local Open Scope string_scope.
Local Open Scope list_scope.
Local Open Scope nat_scope.

Section S.
Context {p : positive} {E : pairing p}.
Add Ring Fr : (@F_ring p).
Local Notation st := (ptrk E).
Implicit Types s : ptrk E.
Local Arguments mput : simpl never.

Lemma Fsum_mod : forall (f : nat -> F p) m c, Fsum (map (fun i => f (i mod m)) (seq 0 (c * m))) = (ofN c * Fsum (map f (seq 0 m)))%F.
Proof.
  intros f m c. destruct (Nat.eq_dec m 0) as [->|Hm]; [rewrite Nat.mul_0_r; simpl; ring|].
  induction c as [|c IH]; [simpl; rewrite ofN_0; ring|].
  replace (S c * m) with (c * m + m) by lia. rewrite seq_app, map_app, Fsum_app, IH. simpl (0 + c * m).
  rewrite <- (seq_shift_add m (c * m)).
  rewrite map_map. rewrite (map_ext_in (fun x => f ((x + c * m) mod m)) f).
  - rewrite ofN_S. ring.
  - intros x Hx. apply in_seq in Hx. f_equal. rewrite Nat.mod_add by exact Hm. apply Nat.mod_small. lia.
Qed.

Lemma F0_add : forall x : F p, (F0 + x)%F = x. Proof. intros; ring. Qed.

(** The arcs of the map of materialized polynomials. *)
Definition arcs_ok s : Prop :=
  (forall id a, mget (pt_mat s) id = Some a -> wf_mle (snd a) /\ fst a < pt_addr s) /\
  (forall i j a b, mget (pt_mat s) i = Some a -> mget (pt_mat s) j = Some b -> fst a = fst b -> snd a = snd b) /\
  NoDup (map fst (pt_mat s)).

(** [b] is [a] extended at the back to [n] variables. *)
Definition extended (n : nat) (a b : mle p) : Prop :=
  wf_mle b /\ nv b = n /\ nv a <= n /\ forall x y, length x = nv a -> length y = n - nv a -> value b (x ++ y) = value a x.

Definition only_mat s s' : Prop :=
  pt_pp s' = pt_pp s /\ pt_tr s' = pt_tr s /\ pt_next s' = pt_next s /\ pt_virt s' = pt_virt s /\ pt_comm s' = pt_comm s /\ same_claims s s'.

Lemma equalize_loop : forall n (l : list (nat * arc p)) s, arcs_ok s -> NoDup (map fst l) ->
  (forall e, In e l -> mget (pt_mat s) (fst e) = Some (snd e) /\ nv (snd (snd e)) <= n) ->
  exists s', foldM (fun (s : st) (e : nat * arc p) =>
          if nv (snd (snd e)) =? n then Ok s
          else m <- dmle_increase_nv_back (snd (snd e)) n ;;
               let '(a, s') := new_arc s m in Ok (put_mat s' (fst e) a)) s l = Ok s' /\
    arcs_ok s' /\ only_mat s s' /\
    (forall id, ~ In id (map fst l) -> mget (pt_mat s') id = mget (pt_mat s) id) /\
    (forall e, In e l -> exists b, mget (pt_mat s') (fst e) = Some b /\ extended n (snd (snd e)) (snd b)).
Proof.
  intros n l. induction l as [|e l IH]; intros s Ha Hnd Hl.
  - exists s. cbn [foldM]. split; [reflexivity|]. split; [exact Ha|]. split; [repeat split; reflexivity|]. split; [reflexivity|]. intros e [].
  - cbn [map] in Hnd. inversion Hnd as [|x xs Hni Hnd']; subst.
    destruct (Hl e (or_introl eq_refl)) as [Hg Hle]. destruct (proj1 Ha _ _ Hg) as [Hw Hlt].
    assert (Hstep : exists s1, (if nv (snd (snd e)) =? n then Ok s
          else m <- dmle_increase_nv_back (snd (snd e)) n ;;
               let '(a, s') := new_arc s m in Ok (put_mat s' (fst e) a)) = Ok s1 /\ arcs_ok s1 /\ only_mat s s1 /\
          (forall id, id <> fst e -> mget (pt_mat s1) id = mget (pt_mat s) id) /\
          exists b, mget (pt_mat s1) (fst e) = Some b /\ extended n (snd (snd e)) (snd b)).
    { destruct (Nat.eqb_spec (nv (snd (snd e))) n) as [Heq|Hne].
      - exists s. split; [reflexivity|]. split; [exact Ha|]. split; [repeat split; reflexivity|]. split; [reflexivity|].
        exists (snd e). split; [exact Hg|]. split; [exact Hw|]. split; [exact Heq|]. split; [exact Hle|].
        intros x y Hx Hy. rewrite Heq, Nat.sub_diag in Hy. destruct y; [|discriminate]. rewrite app_nil_r. reflexivity.
      - destruct (increase_back_all (snd (snd e)) n Hw Hle) as [q [Q1 [Q2 [Q3 [Q4 _]]]]]. rewrite Q1. cbn [bind new_arc].
        eexists. split; [reflexivity|]. destruct Ha as [A1 [A2 A3]]. split; [split; [|split]|split; [repeat split; reflexivity|split]].
        + intros id a H. cbn [put_mat pt_mat pt_addr] in *. rewrite mget_mput in H. destruct (fst e =? id).
          * inversion H; subst. simpl. split; [exact Q2|lia].
          * destruct (A1 _ _ H). split; [assumption|lia].
        + intros i j a b H1 H2 Hf. cbn [put_mat pt_mat pt_addr] in *. rewrite mget_mput in H1, H2.
          destruct (fst e =? i), (fst e =? j).
          * congruence.
          * inversion H1; subst. simpl in Hf. destruct (A1 _ _ H2). lia.
          * inversion H2; subst. simpl in Hf. destruct (A1 _ _ H1). lia.
          * eapply A2; eassumption.
        + cbn [put_mat pt_mat]. apply mput_nodup. exact A3.
        + intros id Hid. cbn [put_mat pt_mat]. apply mget_mput_other. congruence.
        + exists (pt_addr s, q). cbn [put_mat pt_mat]. rewrite mget_mput_same. split; [reflexivity|]. simpl.
          split; [exact Q2|]. split; [exact Q3|]. split; [exact Hle|]. intros x y Hx Hy. unfold value. rewrite Q3. apply Q4; assumption. }
    destruct Hstep as [s1 [S1 [S2 [S3 [S4 [b [S5 S6]]]]]]].
    destruct (IH s1 S2 Hnd') as [s' [T1 [T2 [T3 [T4 T5]]]]].
    { intros e0 He0. destruct (Hl e0 (or_intror He0)) as [G1 G2]. split; [|exact G2]. rewrite S4; [exact G1|].
      intros Heq. apply Hni. rewrite <- Heq. apply in_map. exact He0. }
    exists s'. cbn [foldM]. rewrite S1. cbn [bind]. split; [exact T1|]. split; [exact T2|]. split.
    { destruct S3 as [P1 [P2 [P3 [P4 [P5 [P6 P7]]]]]], T3 as [Q1 [Q2 [Q3 [Q4 [Q5 [Q6 Q7]]]]]]. repeat split; congruence. }
    split.
    + intros id Hid. cbn [map In] in Hid. rewrite T4, S4; [reflexivity| |]; intros Hx; apply Hid; auto.
    + intros e0 [<-|He0]; [|apply T5; exact He0]. exists b. rewrite T4 by exact Hni. auto.
Qed.

(** Every known polynomial of the equalized state has n variables and ignores the new ones. *)
Definition equalized (n : nat) s s' : Prop :=
  forall id m, known s id m -> m <= n /\ known s' id n /\ forall x y, length x = m -> length y = n - m -> pval s' id (x ++ y) = pval s id x.

Lemma all_extended : forall n s s', pinv s -> arcs_ok s' -> only_mat s s' ->
  (forall id a, mget (pt_mat s) id = Some a -> exists b, mget (pt_mat s') id = Some b /\ extended n (snd a) (snd b)) ->
  (forall id, mget (pt_mat s) id = None -> mget (pt_mat s') id = None) ->
  pinv s' /\ equalized n s s'.
Proof.
  intros n s s' Hi Ha [P1 [P2 [P3 [P4 [P5 [P6 P7]]]]]] Hs Hn.
  assert (Hv : forall v m, vok (pt_mat s) m v -> m <= n /\ vok (pt_mat s') n v /\
     forall x y, length x = m -> length y = n - m -> vval (pt_mat s') v (x ++ y) = vval (pt_mat s) v x).
  { intros v m [V1 V2]. split; [|split].
    - destruct v as [|[c pr] v]; [congruence|]. destruct (V2 c pr (or_introl eq_refl)) as [V3 V4]. destruct pr as [|i pr]; [congruence|].
      destruct (V4 i (or_introl eq_refl)) as [a [A1 A2]]. destruct (Hs _ _ A1) as [b [_ [_ [_ [B _]]]]]. lia.
    - split; [exact V1|]. intros c pr Hin. destruct (V2 c pr Hin) as [V3 V4]. split; [exact V3|]. intros i Hin'.
      destruct (V4 i Hin') as [a [A1 A2]]. destruct (Hs _ _ A1) as [b [B1 [_ [B2 _]]]]. exists b. auto.
    - intros x y Hx Hy. unfold vval. f_equal. apply map_ext_in. intros [c pr] Hin. cbn [fst snd]. f_equal. f_equal. apply map_ext_in. intros i Hin'.
      destruct (proj2 (V2 c pr Hin) i Hin') as [a [A1 A2]]. destruct (Hs _ _ A1) as [b [B1 [_ [B2 [B3 B4]]]]].
      unfold mval. rewrite A1, B1. apply B4; congruence. }
  destruct Ha as [A1 [A2 A3]]. split.
  - constructor.
    + intros id. rewrite P3, P4. split.
      * intros H. apply (i_known s Hi) in H. destruct H as [H|H]; [left|right; exact H].
        destruct (mget (pt_mat s) id) as [a|] eqn:Em; [|congruence]. destruct (Hs _ _ Em) as [b [B _]]. congruence.
      * intros H. apply (i_known s Hi). destruct H as [H|H]; [left|right; exact H]. intros Hx. apply H. apply Hn. exact Hx.
    + intros id a v H1 H2. rewrite P4 in H2. destruct (mget (pt_mat s) id) as [a'|] eqn:Em.
      * apply (i_disj s Hi id a' v Em H2).
      * rewrite (Hn _ Em) in H1. discriminate.
    + intros id v H. rewrite P4 in H. destruct (i_virt s Hi id v H) as [m Hm]. exists n. apply (Hv v m Hm).
    + exact A1.
    + exact A2.
    + intros id c H. rewrite P5 in H. destruct (i_comm s Hi id c H) as [a Ha']. destruct (Hs _ _ Ha') as [b [B _]]. exists b. exact B.
    + split; [exact A3|]. rewrite P4, P5. apply (i_nodup s Hi).
  - intros id m [[a [K1 K2]]|[v [K1 K2]]].
    + destruct (Hs _ _ K1) as [b [B1 [B2 [B3 [B4 B5]]]]]. split; [lia|]. split; [left; exists b; auto|].
      intros x y Hx Hy. unfold pval. rewrite B1, K1. apply B5; congruence.
    + destruct (Hv v m K2) as [V1 [V2 V3]]. split; [exact V1|]. rewrite <- P4 in K1. split; [right; exists v; auto|].
      intros x y Hx Hy. assert (Hm : mget (pt_mat s) id = None).
      { destruct (mget (pt_mat s) id) as [a|] eqn:Em; [|reflexivity]. exfalso. rewrite P4 in K1. apply (i_disj s Hi id a v Em K1). }
      unfold pval. rewrite (Hn _ Hm), Hm, K1. rewrite P4 in K1. rewrite K1. apply V3; assumption.
Qed.

Lemma sums_loop : forall n (l : list (nat * F p)) acc s, pinv s -> (forall cl, In cl l -> known s (fst cl) n) ->
  exists s', foldM (fun (acc : list (nat * F p) * st) (cl : nat * F p) =>
          ' (ev, s') <- evaluations (snd acc) (fst cl) ;;
          Ok (fst acc ++ [(fst cl, fold_left Fadd ev F0)], s')) (acc, s) l =
      Ok (acc ++ map (fun cl => (fst cl, Fsum (ptab s (fst cl) n))) l, s') /\ pinv s' /\ ext s s' /\ quiet s s'.
Proof.
  intros n l. induction l as [|cl l IH]; intros acc s Hi Hl.
  - exists s. cbn [foldM map]. rewrite app_nil_r. split; [reflexivity|]. split; [exact Hi|]. split; [apply ext_refl|]. repeat split; reflexivity.
  - destruct (evaluations_spec s (fst cl) n Hi (Hl cl (or_introl eq_refl))) as [s1 [E1 [E2 [E3 [E4 _]]]]].
    destruct (IH (acc ++ [(fst cl, Fsum (ptab s (fst cl) n))]) s1 E2) as [s' [T1 [T2 [T3 T4]]]].
    { intros c Hc. apply (proj1 (proj2 (proj2 E3)) _ _ (Hl c (or_intror Hc))). }
    exists s'. cbn [foldM map fst snd]. rewrite E1. cbn [bind]. rewrite fold_left_Fadd, F0_add. rewrite T1. split.
    + f_equal. f_equal. rewrite <- app_assoc. f_equal. cbn [app]. f_equal. apply map_ext_in. intros c Hc.
      rewrite (ptab_ext s s1 (fst c) n (Hl c (or_intror Hc)) E3). reflexivity.
    + split; [exact T2|]. split; [eapply ext_trans; eassumption|]. eapply quiet_ext_trans; eassumption.
Qed.

Lemma max_ge : forall (l : list nat) x, In x l -> x <= fold_right Nat.max 0 l.
Proof. induction l as [|y l IH]; intros x H; [destruct H|]. destruct H as [->|H]; simpl; [lia|]. specialize (IH x H). lia. Qed.
Lemma max_in : forall (l : list nat), l <> [] -> In (fold_right Nat.max 0 l) l.
Proof.
  induction l as [|y l IH]; intros H; [congruence|]. simpl. destruct l as [|z l]; [left; simpl; lia|].
  destruct (Nat.max_spec y (fold_right Nat.max 0 (z :: l))) as [[_ ->]|[_ ->]]; [right; apply IH; congruence|left; reflexivity].
Qed.

Lemma equalize_spec : forall s, pinv s -> pt_mat s <> [] -> (forall cl, In cl (pt_sc s) -> fst cl < pt_next s) ->
  exists n s', equalize_materialized_poly_nv s = Ok (n, s') /\ pinv s' /\
    pt_pp s' = pt_pp s /\ pt_tr s' = pt_tr s /\ pt_next s' = pt_next s /\ pt_comm s' = pt_comm s /\ pt_zc s' = pt_zc s /\
    pt_sc s' = map (fun cl => (fst cl, Fsum (ptab s' (fst cl) n))) (pt_sc s) /\
    (exists id a, mget (pt_mat s) id = Some a /\ nv (snd a) = n) /\
    (forall id a, mget (pt_mat s) id = Some a -> exists b, mget (pt_mat s') id = Some b /\ extended n (snd a) (snd b)) /\
    (forall id m, known s id m -> m <= n /\ known s' id n /\
       forall k, k < 2 ^ n -> pval s' id (bpoint n k) = pval s id (bpoint m (k mod 2 ^ m))).
Proof.
  intros s Hi Hne Hcl. unfold equalize_materialized_poly_nv.
  set (n := fold_right Nat.max 0 (map (fun e => nv (snd (snd e))) (pt_mat s))).
  assert (Hmax : forall id a, mget (pt_mat s) id = Some a -> nv (snd a) <= n).
  { intros id a H. apply mget_in in H. apply max_ge. apply (in_map (fun e => nv (snd (snd e))) _ (id, a)). exact H. }
  replace (match pt_mat s with [] => Panic | _ => Ok n end) with (@Ok nat n) by (destruct (pt_mat s); [congruence|reflexivity]).
  cbn [bind].
  destruct (equalize_loop n (pt_mat s) s) as [s1 [L1 [L2 [L3 [L4 L5]]]]].
  { split; [apply (i_wf s Hi)|]. split; [apply (i_coh s Hi)|apply (i_nodup s Hi)]. }
  { apply (i_nodup s Hi). }
  { intros [id a] Hin. cbn [fst snd]. apply in_mget in Hin; [|apply (i_nodup s Hi)]. split; [exact Hin|eapply Hmax; exact Hin]. }
  rewrite L1. cbn [bind].
  assert (Hx : forall id a, mget (pt_mat s) id = Some a -> exists b, mget (pt_mat s1) id = Some b /\ extended n (snd a) (snd b)).
  { intros id a H. apply mget_in in H. apply (L5 (id, a) H). }
  destruct (all_extended n s s1 Hi L2 L3 Hx) as [I1 EQ].
  { intros id H. rewrite L4; [exact H|]. apply mget_none. exact H. }
  destruct L3 as [P1 [P2 [P3 [P4 [P5 [P6 P7]]]]]].
  assert (Hk1 : forall cl, In cl (pt_sc s) -> known s1 (fst cl) n).
  { intros cl H. destruct (lt_known s (fst cl) Hi (Hcl cl H)) as [m Hm]. apply (EQ _ _ Hm). }
  destruct (sums_loop n (pt_sc s1) [] s1 I1) as [s2 [M1 [M2 [M3 M4]]]].
  { rewrite P6. exact Hk1. }
  rewrite M1. cbn [bind app].
  destruct M4 as [Q1 [Q2 [Q3 [Q4 [Q5 Q6]]]]].
  eexists. eexists. split; [reflexivity|].
  set (s' := mkPtrk _ _ _ _ _ _ _ _ _).
  assert (Hpv : forall id x, pval s' id x = pval s2 id x) by reflexivity.
  assert (Hkn : forall id m, known s2 id m -> known s' id m) by (intros id m H; exact H).
  split; [destruct M2; constructor; assumption|].
  split; [unfold s'; simpl; congruence|]. split; [unfold s'; simpl; congruence|]. split; [unfold s'; simpl; congruence|].
  split; [unfold s'; simpl; congruence|]. split; [unfold s'; simpl; congruence|]. split; [|split; [|split]].
  - unfold s' at 1. simpl. rewrite P6. apply map_ext_in. intros cl H. f_equal.
    change (ptab s' (fst cl) n) with (ptab s2 (fst cl) n). rewrite (ptab_ext s1 s2 (fst cl) n (Hk1 cl H) M3). reflexivity.
  - assert (Hin : In n (map (fun e => nv (snd (snd e))) (pt_mat s))) by (apply max_in; destruct (pt_mat s); simpl; congruence).
    apply in_map_iff in Hin. destruct Hin as [[id a] [H1 H2]]. exists id, a. split; [|exact H1]. apply in_mget; [apply (i_nodup s Hi)|exact H2].
  - intros id a H. destruct (Hx id a H) as [b [B1 B2]]. exists b. split; [|exact B2]. apply (proj2 (proj2 (proj2 (proj2 M3)))). exact B1.
  - intros id m Hk. destruct (EQ id m Hk) as [E1 [E2 E3]]. destruct (proj1 (proj2 (proj2 M3)) id n E2) as [E4 E5].
    split; [exact E1|]. split; [apply Hkn; exact E4|]. intros k Hlt. rewrite Hpv, E5 by exact Hlt.
    rewrite <- (firstn_skipn m (bpoint n k)). replace n with (m + (n - m)) at 1 2 by lia.
    rewrite bpoint_firstn. apply E3; [apply bpoint_length|]. rewrite skipn_length, bpoint_length. lia.
Qed.

Lemma equalized_sum : forall s s' id m n, m <= n -> (forall k, k < 2 ^ n -> pval s' id (bpoint n k) = pval s id (bpoint m (k mod 2 ^ m))) ->
  Fsum (ptab s' id n) = (ofN (2 ^ (n - m)) * Fsum (ptab s id m))%F.
Proof.
  intros s s' id m n Hle H. unfold ptab. rewrite <- Fsum_mod. rewrite <- Nat.pow_add_r. replace (n - m + m) with n by lia.
  f_equal. apply map_ext_in. intros k Hk. apply in_seq in Hk. apply (H k). lia.
Qed.

Lemma hist_mat : forall (o : oracle p (gcar (PG1 E))) pp ops s hs, prun o pp ops = Ok (s, hs) -> hs <> [] -> pt_mat s <> [].
Proof.
  intros o pp ops s hs H Hh. apply prun_inv in H. destruct hs as [|h hs]; [congruence|].
  pose proof (w_handles _ H h (or_introl eq_refl)) as K. simpl in K. intros He.
  destruct K as [[a [K1 _]]|[v [K1 [K2 K3]]]]; [rewrite He in K1; discriminate|].
  destruct v as [|[c pr] v]; [congruence|]. destruct (K3 c pr (or_introl eq_refl)) as [K4 K5]. destruct pr as [|i pr]; [congruence|].
  destruct (K5 i (or_introl eq_refl)) as [a [K6 _]]. rewrite He in K6. discriminate.
Qed.

Lemma hist_claims : forall (o : oracle p (gcar (PG1 E))) pp ops s hs, prun o pp ops = Ok (s, hs) ->
  (forall cl, In cl (pt_sc s) -> fst cl < pt_next s) /\ (forall cl, In cl (pt_zc s) -> cl < pt_next s).
Proof.
  intros o pp ops s hs H. apply prun_inv in H. split; intros cl Hin.
  - apply (w_sc _ H cl Hin).
  - apply (w_zc _ H cl Hin).
Qed.

(** C35 *)
Lemma hist_equalize : forall (o : oracle p (gcar (PG1 E))) pp ops s hs, prun o pp ops = Ok (s, hs) -> hs <> [] ->
  exists n s', equalize_materialized_poly_nv s = Ok (n, s') /\
    (exists id a, mget (pt_mat s) id = Some a /\ nv (snd a) = n) /\
    (forall h, In h hs -> tp_nv h <= n /\ exists vs vs' s1 s1', tp_evaluations s h = Ok (vs, s1) /\ evaluations s' (tp_id h) = Ok (vs', s1') /\
       length vs' = 2 ^ n /\ (forall k, k < 2 ^ n -> nth k vs' F0 = nth (k mod 2 ^ tp_nv h) vs F0) /\
       (Forall (fun y => y = F0) vs' <-> Forall (fun y => y = F0) vs) /\
       Fsum vs' = (ofN (2 ^ (n - tp_nv h)) * Fsum vs)%F /\
       (forall c, In (tp_id h, c) (pt_sc s') -> c = Fsum vs')) /\
    map fst (pt_sc s') = map fst (pt_sc s) /\ pt_zc s' = pt_zc s /\ pt_comm s' = pt_comm s /\ pt_tr s' = pt_tr s.
Proof.
  intros o pp ops s hs H Hne. pose proof (hist_mat _ _ _ _ _ H Hne) as Hm. pose proof (proj1 (hist_claims _ _ _ _ _ H)) as Hc.
  apply prun_inv in H. pose proof (w_inv _ H) as Hi. simpl in Hi.
  destruct (equalize_spec s Hi Hm Hc) as [n [s' [E1 [E2 [E3 [E4 [E5 [E6 [E7 [E8 [E9 [E10 E11]]]]]]]]]]]].
  exists n, s'. split; [exact E1|]. split; [exact E9|]. split; [|split; [rewrite E8, map_map; reflexivity|split; [exact E7|split; [exact E6|exact E4]]]].
  intros h Hh. pose proof (w_handles _ H h Hh) as K. simpl in K. unfold hknown in K.
  destruct (E11 _ _ K) as [G1 [G2 G3]]. split; [exact G1|].
  destruct (evaluations_spec s _ _ Hi K) as [s1 [L1 _]]. destruct (evaluations_spec s' _ _ E2 G2) as [s1' [L1' _]].
  exists (ptab s (tp_id h) (tp_nv h)), (ptab s' (tp_id h) n), s1, s1'.
  assert (Hn : forall k, k < 2 ^ n -> nth k (ptab s' (tp_id h) n) F0 = nth (k mod 2 ^ tp_nv h) (ptab s (tp_id h) (tp_nv h)) F0).
  { intros k Hk. change (tab (ptab s' (tp_id h) n) k = tab (ptab s (tp_id h) (tp_nv h)) (k mod 2 ^ tp_nv h)).
    rewrite !ptab_tab; [apply G3; exact Hk| |exact Hk]. apply Nat.mod_upper_bound. apply Nat.pow_nonzero. lia. }
  split; [exact L1|]. split; [exact L1'|]. split; [apply ptab_length|]. split; [exact Hn|]. split; [|split; [apply equalized_sum; assumption|]].
  - rewrite !Forall_forall. split; intros Hz y Hy.
    + apply (In_nth _ _ F0) in Hy. destruct Hy as [k [Hk <-]]. rewrite ptab_length in Hk.
      assert (Hk' : k < 2 ^ n) by (pose proof (Nat.pow_le_mono_r 2 _ _ ltac:(lia) G1); lia).
      apply Hz. rewrite <- (Nat.mod_small k (2 ^ tp_nv h) Hk), <- (Hn k Hk').
      apply nth_In. rewrite ptab_length. exact Hk'.
    + apply (In_nth _ _ F0) in Hy. destruct Hy as [k [Hk <-]]. rewrite ptab_length in Hk. rewrite (Hn k Hk). apply Hz.
      apply nth_In. rewrite ptab_length. apply Nat.mod_upper_bound. apply Nat.pow_nonzero. lia.
  - intros c Hin. rewrite E8 in Hin. apply in_map_iff in Hin. destruct Hin as [cl [Hcl _]]. inversion Hcl; subst. reflexivity.
Qed.
End S.
