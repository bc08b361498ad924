(** What the claims of the composed protocols force: support, disjointness, set operations, join reduction, final join, group by. *)
From Coq Require Import String List Arith Lia Bool ZArith Znumtheory Permutation.
Import ListNotations.
From Verif Require Import Res ResLemmas Fp FSum SpecMle SpecPoly PolyLemmas SpecTracker SpecIop ModelMle MleLemmas MleProofs ModelTranscript Pairing ModelKzg ModelBatch
  ModelProver ModelVerifier ModelAdvice ModelIop ProverHist VerifierHist CompileHist IopHist TmapLemmas LogDeriv BagLemmas EqualizeProofs IopWorld IopBasic IopMulti IopRuns IopSort IopVer IopSound IopSound2 SortSound InterpProofs MleExtra AdviceProofs IopClaims.
Local Open Scope string_scope.
Local Open Scope list_scope.
Local Open Scope nat_scope.
#[local] Opaque track_virtual v_add_scalar.

Section W.
Context {p : positive}.
Add Ring Fw : (@F_ring p).
Notation F := (F p).
Implicit Types (l sl m : list F).
(** In a column whose selected rows are distinct, the weight of a selected row is its own. *)
Lemma distinct_weight : forall l sl m k, length sl = length l -> length m = length l -> NoDup (rows l sl) -> k < length l -> nth k sl F0 <> F0 ->
  weight (wcol l sl m) (nth k l F0) = (nth k sl F0 * nth k m F0)%F.
Proof.
  induction l as [|a l IH]; intros [|s sl] [|y m] k H1 H2 Hn Hk Hs; cbn in H1, H2; try discriminate; [cbn in Hk; lia|].
  rewrite wcol_cons, weight_cons. cbn [fst snd]. rewrite rows_cons in Hn. destruct k as [|k]; cbn [nth] in *.
  - destruct (Feqb s F0) eqn:Q; [apply Feqb_eq in Q; contradiction|]. cbn [app] in Hn. inversion Hn as [|x r N1 N2]; subst. rewrite (proj2 (Feqb_eq a a) eq_refl).
    assert (Hz : weight (wcol l sl m) a = F0).
    { destruct (F_dec (weight (wcol l sl m) a) F0) as [D|D]; [exact D|]. exfalso. apply N1. eapply weight_in; [| |exact D]; lia. }
    rewrite Hz. ring.
  - assert (Hn' : NoDup (rows l sl)) by (destruct (Feqb s F0); cbn [app] in Hn; [exact Hn|inversion Hn; assumption]).
    cbn [length] in Hk. rewrite IH by (auto; lia). destruct (Feqb a (nth k l F0)) eqn:Q; [|ring]. apply Feqb_eq in Q. destruct (Feqb s F0) eqn:Qs.
    + apply Feqb_eq in Qs. subst s. ring.
    + exfalso. cbn [app] in Hn. inversion Hn as [|x r N1 N2]; subst. apply N1. apply rows_In; [lia|]. exists k. repeat split; [lia|exact Hs].
Qed.
Hypothesis Hp : prime (Zpos p).
Lemma rows_count : forall l sl x, length l = length sl -> boolean sl -> weight (combine l sl) x = ofN (count_occ F_dec (rows l sl) x).
Proof.
  intros l sl x H1 H3. rewrite <- wcol_one by lia. unfold ones. apply weight_rows; auto. apply (F1_neq_0 Hp).
Qed.
Lemma rows_weight' : forall l sl x, length l = length sl -> boolean sl -> length l < fsize p -> (In x (rows l sl) <-> weight (combine l sl) x <> F0).
Proof.
  intros l sl x H1 H3 H4. split; intros H; [rewrite <- wcol_one by lia; apply rows_weight; auto|]. eapply weight_in with (m := ones (length l)); [lia|apply repeat_length|]. rewrite wcol_one by lia. exact H.
Qed.
Lemma rows_weight2 : forall l0 sl0 l1 sl1 x, length l0 = length sl0 -> length l1 = length sl1 -> boolean sl0 -> boolean sl1 -> length l0 + length l1 < fsize p ->
  (In x (rows l0 sl0) \/ In x (rows l1 sl1) <-> weight (combine l0 sl0 ++ combine l1 sl1) x <> F0).
Proof.
  intros l0 sl0 l1 sl1 x H1 H3 B0 B1 Hl. rewrite <- combine_app' by exact H1. rewrite <- rows_weight'; [|rewrite !app_length; lia|apply Forall_app; auto|rewrite app_length; exact Hl].
  rewrite rows_app by exact H1. rewrite in_app_iff. reflexivity.
Qed.

(** A support: distinct rows, non-zero multiplicities, and the weights of the bag. *)
Lemma support_rows : forall l' sl' ml (w : wbag (p:=p)), length sl' = length l' -> length ml = length l' -> boolean sl' -> NoDup (rows l' sl') ->
  (forall k, k < length l' -> nth k sl' F0 <> F0 -> nth k ml F0 <> F0) -> same_bag w (wcol l' sl' ml) ->
  (forall x, In x (rows l' sl') <-> weight w x <> F0) /\ (forall k, k < length l' -> nth k sl' F0 <> F0 -> nth k ml F0 = weight w (nth k l' F0)).
Proof.
  intros l' sl' ml w H1 H3 Hb Hn Hz Hs. assert (Hk : forall k, k < length l' -> nth k sl' F0 <> F0 -> nth k ml F0 = weight w (nth k l' F0)).
  { intros k Hk Hs'. rewrite Hs, distinct_weight by auto. assert (Hone : nth k sl' F0 = F1). { unfold boolean in Hb. rewrite Forall_forall in Hb. destruct (Hb (nth k sl' F0)) as [Q|Q]; [apply nth_In; lia|contradiction|exact Q]. } rewrite Hone. ring. }
  split; [|exact Hk]. intros x. split; intros Hx.
  - apply rows_In in Hx; [|lia]. destruct Hx as [k [K1 [K2 K3]]]. rewrite <- K2, <- Hk by assumption. apply Hz; assumption.
  - rewrite Hs in Hx. eapply weight_in; [| |exact Hx]; lia.
Qed.
(** Two bags counted by multiplicities that are never both non-zero. *)
Lemma apart_rows : forall c cs ma mb (u w : wbag (p:=p)) x, length cs = length c -> length ma = length c -> length mb = length c -> NoDup (rows c cs) ->
  (forall k, k < length c -> (nth k ma F0 * nth k mb F0)%F = F0) -> same_bag u (wcol c cs ma) -> same_bag w (wcol c cs mb) -> weight u x <> F0 -> weight w x <> F0 -> False.
Proof.
  intros c cs ma mb u w x H1 H3 H4 Hn Hz Hu Hw Ux Wx. rewrite Hu in Ux. rewrite Hw in Wx. pose proof (weight_in _ _ _ _ H1 H3 Ux) as Hin. apply rows_In in Hin; [|lia]. destruct Hin as [k [K1 [K2 K3]]].
  rewrite <- K2, distinct_weight in Ux, Wx by assumption. specialize (Hz k K1). apply (Fmul_integral Hp) in Hz. destruct Hz as [Q|Q]; rewrite Q in *; [apply Ux|apply Wx]; ring.
Qed.
End W.

Section P.
Context {p : positive} {E : pairing p}.
Add Ring Fq : (@F_ring p).
Notation comm := (gcar (PG1 E)).
Implicit Types (v : vtrk E) (V : tmap (vexp p)) (A : reading (p:=p)).
Variable o : oracle p comm.
Hypothesis Hp : prime (Zpos p).
Hypothesis H2 : 2 < fsize p.

Lemma sound_seq : forall a b c ds ds' Q Q', sound a b ds Q -> sound b c ds' Q' -> sound (E:=E) a c (ds ++ ds') (fun A N V => Q A N V /\ Q' A N V).
Proof.
  intros a b c ds ds' Q Q' [G1 S1] [G2 S2]. split; [eapply vgo_trans; eassumption|]. intros A N V S C. split; [|apply S2; assumption].
  apply S1; [eapply sub_trans; [apply (y_sub _ _ _ G2)|exact S]|eapply chold_le; eassumption].
Qed.
Lemma sound_imp : forall a b ds (Q Q' : reading (p:=p) -> nat -> tmap (vexp p) -> Prop), sound a b ds Q -> (forall A N V, sub_map (vt_virt b) V -> Q A N V -> Q' A N V) -> sound (E:=E) a b ds Q'.
Proof. intros a b ds Q Q' [G S] H. split; [exact G|]. intros A N V Sv C. apply H; [exact Sv|]. apply S; assumption. Qed.
Lemma sound_ready : forall a b ds Q, sound (E:=E) a b ds Q -> vready b. Proof. intros a b ds Q [G _]. exact (y_ready _ _ _ G). Qed.
Lemma go_sound : forall a b ds, vgo a b ds -> sound (E:=E) a b ds (fun _ _ _ => True).
Proof. intros a b ds G. split; [exact G|]. intros. exact I. Qed.

(** A received polynomial with at most [n] variables is a table with [n] variables. *)
Lemma column_len : forall A n i, length (column A n i) = 2 ^ n. Proof. intros. unfold column. rewrite map_length, seq_length. reflexivity. Qed.
Lemma plist_column : forall A V N n i, mget V i = Some (VQuery i) -> fst (A i) <= n -> n <= N -> plist A V N i n (column A n i).
Proof.
  intros A V N n i Hm Hf Hn. split; [exact Hn|]. split; [apply column_len|]. eapply psem_ext; [apply ps_query; exact Hm|]. intros j Hj. unfold per, leaf, column.
  rewrite (nth_map_seq (fun j => snd (A i) (j mod 2 ^ fst (A i)))) by apply mod_lt. f_equal. 
  replace (2 ^ n) with (2 ^ fst (A i) * 2 ^ (n - fst (A i))) by (rewrite <- Nat.pow_add_r; f_equal; lia). symmetry. 
  rewrite Nat.mod_mul_r by (apply Nat.pow_nonzero; lia). rewrite Nat.mul_comm, Nat.mod_add by (apply Nat.pow_nonzero; lia). apply Nat.mod_mod. apply Nat.pow_nonzero. lia.
Qed.

Lemma incl_wa_says : forall debug v v' fx gx m, vready v -> inclusion_verify_with_advice o debug v fx gx m = Ok v' ->
  exists h, sound v v' [h] (fun A N V => forall l sl l' sl' ml, plist_bag A V N fx l sl -> plist_bag A V N gx l' sl' -> plist A V N m (bc_nv gx) ml ->
    ~ unlucky (combine l sl) (wcol l' sl' ml) h -> same_bag (combine l sl) (wcol l' sl' ml)).
Proof.
  intros debug v v' fx gx m R H. destruct (inclusion_wa_sound o Hp H2 debug v v' fx gx m R H) as [g S]. exists g. eapply sound_imp; [exact S|]. cbv beta. intros A N V _ Q l sl l' sl' ml B1 B3 [M1 [M2 M3]] Hu.
  destruct (Q l sl l' sl' _ B1 B3 M3) as [Q1 [Q2 Q3]]. rewrite (avgs_per Hp H2) in Q3 by exact M2. destruct B1 as [[_ [L1 _]] [_ [L2 _]]], B3 as [[_ [L3 _]] [_ [L4 _]]]. rewrite wcol_one in Q3 by congruence.
  eapply avoid_same; [| |exact Q3|exact Hu]; [rewrite fst_combine by congruence|rewrite wcol_fst by congruence]; assumption.
Qed.
Lemma incl_says : forall debug v v' fx gx, vready v -> inclusion_verify o debug v fx gx = Ok v' ->
  exists h m, received v v' m /\ sound v v' [h] (fun A N V => forall l sl l' sl', plist_bag A V N fx l sl -> plist_bag A V N gx l' sl' ->
    ~ unlucky (combine l sl) (wcol l' sl' (averaged A N m (bc_nv gx))) h -> same_bag (combine l sl) (wcol l' sl' (averaged A N m (bc_nv gx)))).
Proof.
  intros debug v v' fx gx R H. destruct (inclusion_sound o Hp H2 debug v v' fx gx R H) as [g [Hm S]]. exists g, (vt_next v). split; [split; [apply R; lia|exact Hm]|]. eapply sound_imp; [exact S|]. cbv beta. intros A N V _ Q l sl l' sl' B1 B3 Hu.
  destruct (Q l sl l' sl' B1 B3) as [Q1 [Q2 Q3]]. assert (La : length (averaged A N (vt_next v) (bc_nv gx)) = 2 ^ bc_nv gx) by (unfold averaged; rewrite map_length, seq_length; reflexivity).
  destruct B1 as [[_ [L1 _]] [_ [L2 _]]], B3 as [[_ [L3 _]] [_ [L4 _]]]. rewrite wcol_one in Q3 by congruence.
  eapply avoid_same; [| |exact Q3|exact Hu]; [rewrite fst_combine by congruence|rewrite wcol_fst by congruence]; assumption.
Qed.
Lemma sum_says : forall debug v v' f0 f1 gx, vready v -> bag_sum_verify o debug v f0 f1 gx = Ok v' ->
  exists h, sound v v' [h] (fun A N V => forall l0 sl0 l1 sl1 l sl, plist_bag A V N f0 l0 sl0 -> plist_bag A V N f1 l1 sl1 -> plist_bag A V N gx l sl ->
    ~ unlucky (combine l0 sl0 ++ combine l1 sl1) (combine l sl) h -> same_bag (combine l0 sl0 ++ combine l1 sl1) (combine l sl)).
Proof.
  intros debug v v' f0 f1 gx R H. destruct (bag_sum_sound o Hp H2 debug v v' f0 f1 gx R H) as [g S]. exists g. eapply sound_imp; [exact S|]. cbv beta. intros A N V _ Q l0 sl0 l1 sl1 l sl B0 B1 B3 Hu.
  destruct (Q l0 sl0 l1 sl1 l sl B0 B1 B3) as [Q1 [Q2 [Q3 Q4]]]. destruct B0 as [[_ [L1 _]] [_ [L2 _]]], B1 as [[_ [L3 _]] [_ [L4 _]]], B3 as [[_ [L5 _]] [_ [L6 _]]]. rewrite !wcol_one in Q4 by congruence.
  eapply avoid_same; [| |exact Q4|exact Hu]; rewrite ?map_app, !fst_combine by congruence; [rewrite in_app_iff; tauto|assumption].
Qed.
Lemma sort_says : forall debug v v' fx rx, vready v -> strict_sort_verify o debug v fx rx = Ok v' ->
  exists g g1 g2 q m, received v v' q /\ received v v' m /\
   sound v v' [g; g1; g2] (fun A N V => 2 ^ N < fsize p -> forall l sl rl, plist_bag A V N fx l sl -> plist A V N (bc_poly rx) (bc_nv rx) rl ->
     sort_lucky A N (bc_nv fx) (bc_nv rx) q m l rl g g1 g2 -> sorted_by rl l sl).
Proof.
  intros debug v v' fx rx R H. destruct (strict_sort_sound o Hp H2 debug v v' fx rx R H) as [g [g1 [g2 [q [m [Hq [Mq [Hm [Mm S]]]]]]]]]. exists g, g1, g2, q, m.
  split; [split; [apply R; exact Hq|exact Mq]|]. split; [split; [apply R; exact Hm|exact Mm]|exact S].
Qed.
Lemma nz_says : forall debug v v' b, vready v -> no_zeros_verify debug v b = Ok v' ->
  sound v v' [] (fun A N V => forall l sl, plist_bag A V N b l sl -> forall k, k < length l -> nth k sl F0 <> F0 -> nth k l F0 <> F0).
Proof.
  intros debug v v' b R H. eapply sound_imp; [exact (no_zeros_sound debug v v' b R H)|]. cbv beta. intros A N V _ Q l sl [[L1 [L2 L3]] [_ [L4 L5]]] k Hk Hs H0.
  pose proof (Nat.pow_le_mono_r 2 _ N ltac:(lia) L1). apply (Q _ _ L3 L5 k ltac:(lia)); unfold per; rewrite Nat.mod_small by lia; assumption.
Qed.
Lemma sel_says : forall v v' sel, vready v -> selector_valid_verify v sel = Ok v' ->
  sound v v' [] (fun A N V => forall n l, plist A V N sel n l -> boolean l).
Proof.
  intros v v' sel R H. eapply sound_imp; [exact (selector_sound v v' sel R H)|]. cbv beta. intros A N V _ Q n l [L1 [L2 L3]].
  apply Forall_forall. intros x Hx. apply (In_nth _ _ F0) in Hx. destruct Hx as [k [Hk Hx]]. pose proof (Nat.pow_le_mono_r 2 _ N ltac:(lia) L1).
  specialize (Q _ L3 k ltac:(lia)). unfold per in Q. rewrite Nat.mod_small in Q by lia. rewrite Hx in Q. apply (Fmul_integral Hp) in Q. destruct Q as [Q|Q]; [left; exact Q|right]. symmetry. apply PolyLemmas.sub_eq_0. exact Q.
Qed.
Lemma received_up : forall a b c ds Q i, received a b i -> sound (E:=E) b c ds Q -> received a c i.
Proof. intros a b c ds Q i [H1 H3] [G _]. split; [exact H1|apply (y_sub _ _ _ G); exact H3]. Qed.
Lemma received_down : forall a b c ds Q i, sound (E:=E) a b ds Q -> received b c i -> received a c i.
Proof. intros a b c ds Q i [G _] [H1 H3]. split; [|exact H3]. destruct (mget (vt_virt a) i) as [e|] eqn:M; [|reflexivity]. apply (y_sub _ _ _ G) in M. congruence. Qed.

(** Read a run forward: [S] is what is known so far, [H] the rest of the run. *)
Lemma transfer_says : forall debug v i v', vready v -> v_transfer debug v = Ok (i, v') -> received v v' i /\ sound (E:=E) v v' [] (fun _ _ _ => True).
Proof.
  intros debug v i v' R H. destruct (go_transfer debug v i v' R H) as [H1 [_ [H3 G]]]. split; [split; [apply R; lia|exact H3]|apply go_sound; exact G].
Qed.
Lemma sorted_distinct : forall (rl l sl : list (F p)) n, length l = 2 ^ n -> length sl = 2 ^ n -> small_range rl n -> sorted_by rl l sl -> NoDup (rows l sl).
Proof. intros rl l sl n H1 H3 [B [H4 H5]] Hs. eapply sorted_nodup; eauto; [congruence|rewrite H1; exact H5]. Qed.
Lemma pl_len : forall A V N i n l, plist A V N i n l -> length l = 2 ^ n. Proof. intros A V N i n l H. apply H. Qed.
Lemma pl_fits : forall A V N i n l, 2 ^ N < fsize p -> plist A V N i n l -> length l < fsize p.
Proof. intros A V N i n l HN [H1 [H3 _]]. pose proof (Nat.pow_le_mono_r 2 n N ltac:(lia) H1). lia. Qed.

Lemma supp_wa_says : forall debug v v' b sup m rx, vready v -> supp_verify_with_advice o debug v b sup m rx = Ok v' ->
  exists h g g1 g2 q mm, received v v' q /\ received v v' mm /\ sound v v' [h; g; g1; g2] (fun A N V => 2 ^ N < fsize p ->
    forall l sl l' sl' ml rl, plist_bag A V N b l sl -> plist_bag A V N sup l' sl' -> plist A V N m (bc_nv sup) ml -> plist A V N (bc_poly rx) (bc_nv rx) rl ->
    boolean sl' -> small_range rl (bc_nv sup) -> ~ unlucky (combine l sl) (wcol l' sl' ml) h -> sort_lucky A N (bc_nv sup) (bc_nv rx) q mm l' rl g g1 g2 ->
    sorted_by rl l' sl' /\ NoDup (rows l' sl') /\ (forall x, In x (rows l' sl') <-> weight (combine l sl) x <> F0) /\
    (forall k, k < length l' -> nth k sl' F0 <> F0 -> nth k ml F0 = weight (combine l sl) (nth k l' F0))).
Proof.
  intros debug v v' b sup m rx R H. unfold supp_verify_with_advice in H.
  destruct (inclusion_verify_with_advice _ _ _ _ _ _) as [v1| |] eqn:E1 in H; cbn [bind] in H; try discriminate. destruct (no_zeros_verify _ _ _) as [v2| |] eqn:E2 in H; cbn [bind] in H; try discriminate.
  destruct (incl_wa_says _ _ _ _ _ _ R E1) as [h S1]. pose proof (nz_says _ _ _ _ (sound_ready _ _ _ _ S1) E2) as S2. pose proof (sound_seq _ _ _ _ _ _ _ S1 S2) as S12. cbn [app] in S12.
  destruct (sort_says _ _ _ _ _ (sound_ready _ _ _ _ S12) H) as [g [g1 [g2 [q [mm [Rq [Rm S3]]]]]]]. exists h, g, g1, g2, q, mm.
  split; [eapply received_down; eassumption|]. split; [eapply received_down; eassumption|]. eapply sound_imp; [exact (sound_seq _ _ _ _ _ _ _ S12 S3)|]. cbv beta. intros A N V _ [[Q1 Q2] Q3] HN l sl l' sl' ml rl Bb Bs Pm Pr Hb Hr Hu HL.
  pose proof (Q1 _ _ _ _ _ Bb Bs Pm Hu) as Hsame. pose proof (Q3 HN _ _ _ Bs Pr HL) as Hsort. specialize (Q2 ml sl' (conj Pm (proj2 Bs))).
  destruct Bs as [Bs1 Bs2]. apply pl_len in Bs1, Bs2, Pm. rewrite Pm in Q2. rewrite <- Bs1 in Q2. assert (Hn : NoDup (rows l' sl')) by (eapply sorted_distinct; eauto).
  split; [exact Hsort|]. split; [exact Hn|]. apply support_rows; auto; congruence.
Qed.
Lemma supp_says : forall debug v v' b sup rx, vready v -> supp_verify o debug v b sup rx = Ok v' ->
  exists m h g g1 g2 q mm, received v v' m /\ received v v' q /\ received v v' mm /\ sound v v' [h; g; g1; g2] (fun A N V => 2 ^ N < fsize p -> fst (A m) <= bc_nv sup ->
    forall l sl l' sl' rl, plist_bag A V N b l sl -> plist_bag A V N sup l' sl' -> plist A V N (bc_poly rx) (bc_nv rx) rl -> let ml := column A (bc_nv sup) m in
    boolean sl' -> small_range rl (bc_nv sup) -> ~ unlucky (combine l sl) (wcol l' sl' ml) h -> sort_lucky A N (bc_nv sup) (bc_nv rx) q mm l' rl g g1 g2 ->
    sorted_by rl l' sl' /\ NoDup (rows l' sl') /\ (forall x, In x (rows l' sl') <-> weight (combine l sl) x <> F0) /\
    (forall k, k < length l' -> nth k sl' F0 <> F0 -> nth k ml F0 = weight (combine l sl) (nth k l' F0))).
Proof.
  intros debug v v' b sup rx R H. unfold supp_verify in H. destruct (v_transfer debug v) as [[m v1]| |] eqn:E1; cbn [bind] in H; try discriminate. destruct (transfer_says _ _ _ _ R E1) as [Rm S1].
  destruct (supp_wa_says _ _ _ _ _ _ _ (sound_ready _ _ _ _ S1) H) as [h [g [g1 [g2 [q [mm [Rq [Rmm S2]]]]]]]]. exists m, h, g, g1, g2, q, mm. split; [eapply received_up; eassumption|]. split; [eapply received_down; eassumption|]. split; [eapply received_down; eassumption|].
  eapply sound_imp; [exact (sound_seq _ _ _ _ _ _ _ S1 S2)|]. cbv beta. intros A N V Sv [_ Q] HN Hm l sl l' sl' rl Bb Bs Pr ml. apply (Q HN); try assumption. apply plist_column; [apply Sv; eapply received_up; eassumption|exact Hm|apply Bs].
Qed.

Lemma disjoint_wa_says : forall debug v v' a b c ma mb rx, vready v -> bag_disjoint_verify_with_advice o debug v a b c ma mb rx = Ok v' ->
  exists g g1 g2 h h' q mm, received v v' q /\ received v v' mm /\ sound v v' [g; g1; g2; h; h'] (fun A N V => 2 ^ N < fsize p ->
    forall l sl l' sl' cl csl al bl rl, plist_bag A V N a l sl -> plist_bag A V N b l' sl' -> plist_bag A V N c cl csl -> plist A V N ma (bc_nv c) al -> plist A V N mb (bc_nv c) bl -> plist A V N (bc_poly rx) (bc_nv rx) rl ->
    boolean sl -> boolean sl' -> small_range rl (bc_nv c) -> sort_lucky A N (bc_nv c) (bc_nv rx) q mm cl rl g g1 g2 ->
    ~ unlucky (combine l sl) (wcol cl csl al) h -> ~ unlucky (combine l' sl') (wcol cl csl bl) h' ->
    forall x, In x (rows l sl) -> In x (rows l' sl') -> False).
Proof.
  intros debug v v' a b c ma mb rx R H. unfold bag_disjoint_verify_with_advice in H.
  destruct (strict_sort_verify _ _ _ _ _) as [v1| |] eqn:E1 in H; cbn [bind] in H; try discriminate. destruct (sort_says _ _ _ _ _ R E1) as [g [g1 [g2 [q [mm [Rq [Rm S1]]]]]]].
  assert (S2 : exists v2, v2 = v_add_zerocheck_claim (snd (mul_comms v1 ma mb)) (fst (mul_comms v1 ma mb)) /\ sound v1 v2 [] (fun A N V => forall n al bl, plist A V N ma n al -> plist A V N mb n bl -> forall k, k < 2 ^ n -> (nth k al F0 * nth k bl F0)%F = F0)).
  { eexists. split; [reflexivity|]. destruct (mul_comms v1 ma mb) as [i u] eqn:Em. cbn [fst snd]. destruct (go_virtual _ (@VMul p ma mb) i u (sound_ready _ _ _ _ S1) Em) as [_ [_ [Im G]]].
    pose proof (go_zero u i (y_ready _ _ _ G)) as G2. split; [exact (vgo_trans _ _ _ _ _ G G2)|]. intros A N V Sv C n al bl [A1 [A2 A3]] [B1 [B2 B3]] k Hk.
    assert (Iz : In i (vt_zc (v_add_zerocheck_claim u i))) by (cbn; apply in_or_app; right; left; reflexivity). pose proof (Nat.pow_le_mono_r 2 n N ltac:(lia) A1). apply (y_sub _ _ _ G2) in Im. apply Sv in Im.
    pose proof (zclaim _ _ _ _ _ _ C Iz (ps_mul _ _ _ _ _ _ _ _ Im A3 B3) k ltac:(lia)) as Z. cbv beta in Z. unfold per in Z. rewrite Nat.mod_small in Z by exact Hk. exact Z. }
  destruct S2 as [v2 [Hv2 S2]]. destruct (mul_comms v1 ma mb) as [i u]. cbn [fst snd] in Hv2. rewrite <- Hv2 in H. clear Hv2 i u. pose proof (sound_seq _ _ _ _ _ _ _ S1 S2) as S12. cbn [app] in S12.
  destruct (inclusion_verify_with_advice _ _ _ _ _ _) as [v3| |] eqn:E3 in H; cbn [bind] in H; try discriminate. destruct (incl_wa_says _ _ _ _ _ _ (sound_ready _ _ _ _ S12) E3) as [h S3]. pose proof (sound_seq _ _ _ _ _ _ _ S12 S3) as S13. cbn [app] in S13.
  destruct (incl_wa_says _ _ _ _ _ _ (sound_ready _ _ _ _ S13) H) as [h' S4]. pose proof (sound_seq _ _ _ _ _ _ _ S13 S4) as S14. cbn [app] in S14. exists g, g1, g2, h, h', q, mm.
  pose proof (sound_seq _ _ _ _ _ _ _ S2 (sound_seq _ _ _ _ _ _ _ S3 S4)) as S24.
  split; [eapply received_up; eassumption|]. split; [eapply received_up; eassumption|]. eapply sound_imp; [exact S14|]. cbv beta. intros A N V _ [[[Q1 Q2] Q3] Q4] HN l sl l' sl' cl csl al bl rl Ba Bb Bc Pa Pb Pr Hba Hbb Hr HL Hu Hu' x Xa Xb.
  pose proof (Q1 HN _ _ _ Bc Pr HL) as Hsort. pose proof (Q3 _ _ _ _ _ Ba Bc Pa Hu) as Sa. pose proof (Q4 _ _ _ _ _ Bb Bc Pb Hu') as Sb. specialize (Q2 _ _ _ Pa Pb).
  apply rows_weight' in Xa; [|exact Hp|destruct Ba as [Y1 Y2]; apply pl_len in Y1, Y2; congruence|exact Hba|eapply pl_fits; [exact HN|apply Ba]].
  apply rows_weight' in Xb; [|exact Hp|destruct Bb as [Y1 Y2]; apply pl_len in Y1, Y2; congruence|exact Hbb|eapply pl_fits; [exact HN|apply Bb]].
  destruct Bc as [Bc1 Bc2]. apply pl_len in Bc1, Bc2, Pa, Pb. rewrite <- Bc1 in Q2. assert (Hn : NoDup (rows cl csl)) by (eapply sorted_distinct; eauto).
  refine (apart_rows Hp cl csl al bl _ _ x _ _ _ Hn Q2 Sa Sb Xa Xb); congruence.
Qed.
Lemma disjoint_says : forall debug v v' a b rx, vready v -> bag_disjoint_verify o debug v a b rx = Ok v' -> let n := Nat.max (bc_nv a) (bc_nv b) + 1 in
  exists cp cs ma mb g g1 g2 h h' q mm, Forall (received v v') [cp; cs; ma; mb; q; mm] /\ sound v v' [g; g1; g2; h; h'] (fun A N V => 2 ^ N < fsize p -> n <= N -> Forall (fun i => fst (A i) <= n) [cp; cs; ma; mb] ->
    forall l sl l' sl' rl, plist_bag A V N a l sl -> plist_bag A V N b l' sl' -> plist A V N (bc_poly rx) (bc_nv rx) rl -> let cl := column A n cp in let csl := column A n cs in
    boolean sl -> boolean sl' -> small_range rl n -> sort_lucky A N n (bc_nv rx) q mm cl rl g g1 g2 ->
    ~ unlucky (combine l sl) (wcol cl csl (column A n ma)) h -> ~ unlucky (combine l' sl') (wcol cl csl (column A n mb)) h' ->
    forall x, In x (rows l sl) -> In x (rows l' sl') -> False).
Proof.
  intros debug v v' a b rx R H n. unfold bag_disjoint_verify in H. cbv zeta in H. fold n in H.
  destruct (v_transfer debug v) as [[cp v1]| |] eqn:E1; cbn [bind] in H; try discriminate. destruct (transfer_says _ _ _ _ R E1) as [R1 S1].
  destruct (v_transfer debug v1) as [[cs v2]| |] eqn:E2; cbn [bind] in H; try discriminate. destruct (transfer_says _ _ _ _ (sound_ready _ _ _ _ S1) E2) as [R2 S2].
  destruct (v_transfer debug v2) as [[ma v3]| |] eqn:E3; cbn [bind] in H; try discriminate. destruct (transfer_says _ _ _ _ (sound_ready _ _ _ _ S2) E3) as [R3 S3].
  destruct (v_transfer debug v3) as [[mb v4]| |] eqn:E4; cbn [bind] in H; try discriminate. destruct (transfer_says _ _ _ _ (sound_ready _ _ _ _ S3) E4) as [R4 S4].
  destruct (disjoint_wa_says _ _ _ _ _ _ _ _ _ (sound_ready _ _ _ _ S4) H) as [g [g1 [g2 [h [h' [q [mm [Rq [Rm S5]]]]]]]]]. cbn [bc_nv] in S5.
  exists cp, cs, ma, mb, g, g1, g2, h, h', q, mm. pose proof (sound_seq _ _ _ _ _ _ _ S4 S5) as S45. pose proof (sound_seq _ _ _ _ _ _ _ S3 S45) as S35. pose proof (sound_seq _ _ _ _ _ _ _ S2 S35) as S25. pose proof (sound_seq _ _ _ _ _ _ _ S1 S25) as S15. cbn [app] in *.
  pose proof (sound_seq _ _ _ _ _ _ _ S1 S2) as S12. pose proof (sound_seq _ _ _ _ _ _ _ S12 S3) as S13. pose proof (sound_seq _ _ _ _ _ _ _ S13 S4) as S14.
  assert (RR : Forall (received v v') [cp; cs; ma; mb; q; mm]).
  { constructor; [eapply received_up; [exact R1|exact S25]|]. constructor; [eapply received_down; [exact S1|eapply received_up; [exact R2|exact S35]]|]. constructor; [eapply received_down; [exact S12|eapply received_up; [exact R3|exact S45]]|].
    constructor; [eapply received_down; [exact S13|eapply received_up; [exact R4|exact S5]]|]. constructor; [eapply received_down; [exact S14|exact Rq]|]. constructor; [eapply received_down; [exact S14|exact Rm]|constructor]. }
  split; [exact RR|]. eapply sound_imp; [exact S15|]. cbv beta. intros A N V Sv [_ [_ [_ [_ Q]]]] HN Hn Hf l sl l' sl' rl Ba Bb Pr. cbv zeta.
  assert (PC : forall i, In i [cp; cs; ma; mb] -> plist A V N i n (column A n i)).
  { intros i Hi. rewrite Forall_forall in Hf, RR. apply plist_column; [apply Sv; apply RR; cbn [In] in *; tauto|apply Hf; exact Hi|exact Hn]. }
  apply (Q HN l sl l' sl' (column A n cp) (column A n cs) (column A n ma) (column A n mb) rl); auto; [split|..]; apply PC; cbn [In bc_poly bc_sel]; tauto.
Qed.
End P.
