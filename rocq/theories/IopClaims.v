(** What true claims say about the tables behind a verifier's commitments, stated for a verifier after a history of calls. *)
From Coq Require Import String List Arith Lia Bool ZArith Znumtheory Permutation.
Import ListNotations.
From Verif Require Import Res ResLemmas Fp FSum SpecMle SpecPoly PolyLemmas SpecTracker SpecIop ModelMle MleLemmas MleProofs ModelTranscript Pairing ModelKzg ModelBatch
  ModelProver ModelVerifier ModelAdvice ModelIop ProverHist VerifierHist CompileHist IopHist TmapLemmas LogDeriv BagLemmas EqualizeProofs IopWorld IopBasic IopMulti IopRuns IopSort IopVer IopSound IopSound2 SortSound InterpProofs MleExtra AdviceProofs.
Local Open Scope string_scope.
Local Open Scope list_scope.
Local Open Scope nat_scope.
#[local] Opaque track_virtual v_add_scalar.

Section P.
Context {p : positive} {E : pairing p}.
Add Ring Fq : (@F_ring p).
Notation comm := (gcar (PG1 E)).
Implicit Types (v : vtrk E) (A : reading (p:=p)).
Variable o : oracle p comm.
Hypothesis Hp : prime (Zpos p).

Hypothesis H2 : 2 < fsize p.

(** A verifier in a session that goes on after the call. *)
Variables (v v' v'' : vtrk E) (A : reading (p:=p)) (N : nat).
Hypothesis R : vready v.
Hypothesis HL : vready v' -> exists ds, vgo v' v'' ds.
Hypothesis HC : claims_hold A N v''.

Lemma sound_use : forall ds Q, sound v v' ds Q -> drawn (vt_tr v) (vt_tr v') = ds /\ Q A N (vt_virt v'').
Proof. intros ds Q [G H]. split; [apply vgo_drawn; exact G|]. destruct (HL (y_ready _ _ _ G)) as [ds' G']. apply H; [exact (y_sub _ _ _ G')|]. apply (chold_le _ _ _ _ _ _ G'). exact HC. Qed.
Lemma sound_sub : forall ds Q, sound v v' ds Q -> sub_map (vt_virt v) (vt_virt v'').
Proof. intros ds Q [G _]. destruct (HL (y_ready _ _ _ G)) as [ds' G']. intros i e X. apply (y_sub _ _ _ G'), (y_sub _ _ _ G), X. Qed.
Lemma reads_bag : forall ds Q b l sl, sound v v' ds Q -> reads A N v (bc_poly b) (bc_nv b) l -> reads A N v (bc_sel b) (bc_nv b) sl -> plist_bag A (vt_virt v'') N b l sl.
Proof. intros ds Q b l sl S H1 H3. split; eapply pl_reads; eauto using sound_sub. Qed.
Lemma reads_le : forall id n l, reads A N v id n l -> n <= N. Proof. intros id n l H. apply H. Qed.
Lemma reads_len : forall id n l, reads A N v id n l -> length l = 2 ^ n. Proof. intros id n l H. apply H. Qed.
Lemma corner_in : forall n k, n <= N -> k < 2 ^ n -> k < 2 ^ N. Proof. intros n k H Hk. pose proof (Nat.pow_le_mono_r 2 n N ltac:(lia) H). lia. Qed.
Lemma avoid_same : forall (a b : wbag (p:=p)) g, ~ In g (map fst a) -> ~ In g (map fst b) -> logd a g = logd b g -> ~ unlucky a b g -> same_bag a b.
Proof. intros a b g H1 H3 H4 Hu. destruct (same_bag_dec a b) as [Hs|Hs]; [exact Hs|]. exfalso. apply Hu. repeat split; assumption. Qed.
Lemma comb_fst : forall (l sl : list (F p)), length sl = length l -> map fst (combine l sl) = l.
Proof. intros l sl H. rewrite <- wcol_one by exact H. apply wcol_fst; [exact H|apply repeat_length]. Qed.

Lemma selector_claims : forall sel n l, selector_valid_verify v sel = Ok v' -> reads A N v sel n l -> drawn (vt_tr v) (vt_tr v') = [] /\ boolean l.
Proof.
  intros sel n l H Hr. pose proof (selector_sound v v' sel R H) as S. destruct (sound_use _ _ S) as [D Q]. split; [exact D|].
  specialize (Q _ (ps_reads A _ N v sel n l (sound_sub _ _ S) Hr)). pose proof Hr as [R1 [R2 _]]. apply Forall_forall. intros x Hx. apply (In_nth _ _ F0) in Hx. destruct Hx as [k [Hk Hx]].
  specialize (Q k (corner_in n k R1 ltac:(lia))). cbv beta in Q. rewrite Nat.mod_small in Q by lia. rewrite Hx in Q. apply (Fmul_integral Hp) in Q. destruct Q as [Q|Q]; [left; exact Q|right]. symmetry. apply PolyLemmas.sub_eq_0. exact Q.
Qed.
Lemma no_zeros_claims : forall dbg b l sl, no_zeros_verify dbg v b = Ok v' -> reads A N v (bc_poly b) (bc_nv b) l -> reads A N v (bc_sel b) (bc_nv b) sl ->
  drawn (vt_tr v) (vt_tr v') = [] /\ ~ In F0 (rows l sl).
Proof.
  intros dbg b l sl H Hl Hs. pose proof (no_zeros_sound dbg v v' b R H) as S. destruct (sound_use _ _ S) as [D Q]. split; [exact D|].
  specialize (Q _ _ (ps_reads A _ N v _ _ _ (sound_sub _ _ S) Hl) (ps_reads A _ N v _ _ _ (sound_sub _ _ S) Hs)). pose proof Hl as [R1 [R2 _]]. pose proof Hs as [_ [R3 _]]. rewrite rows_In by congruence. intros [k [Hk [H1 H3]]].
  specialize (Q k (corner_in (bc_nv b) k R1 ltac:(lia))). cbv beta in Q. rewrite Nat.mod_small in Q by lia. exact (Q H3 H1).
Qed.

(** A bag with a multiplicity column, read as three tables. *)
Lemma items_isl : forall ds Q xs ts, sound v v' ds Q -> Forall2 (item_reads A N v) xs ts -> Forall2 (isl A (vt_virt v'') N) xs ts.
Proof.
  intros ds Q xs ts S H. induction H as [|x t xs ts [X1 [X2 X3]] _ IH]; constructor; [|exact IH]. split; [eapply reads_bag; eauto|]. exists (per (bc_nv (fst x)) (snd t)).
  split; [apply (ps_reads A _ N v _ _ _ (sound_sub _ _ S) X3)|]. symmetry. apply (avgs_per Hp H2). eapply reads_len. exact X3.
Qed.
Lemma items_fst : forall xs ts, Forall2 (item_reads A N v) xs ts -> map fst (wcols ts) = flat_map (fun t => fst (fst t)) ts.
Proof.
  intros xs ts H. induction H as [|x t xs ts [X1 [X2 X3]] _ IH]; [reflexivity|]. unfold wcols in *. cbn [flat_map]. rewrite map_app, IH. f_equal. apply reads_len in X1, X2, X3. apply wcol_fst; congruence.
Qed.
Lemma items_nv : forall bs ms ts, length bs = length ms -> Forall2 (item_reads A N v) (combine bs ms) ts -> forall b, In b bs -> bc_nv b <= N.
Proof.
  induction bs as [|b bs IH]; intros [|m ms] ts Hl H c Hc; cbn in Hl; try discriminate; [contradiction|]. cbn [combine] in H. inversion H as [|x t xs us Hx Hxs]; subst. destruct Hc as [<-|Hc].
  - destruct Hx as [X1 _]. cbn [fst] in X1. eapply reads_le. exact X1.
  - apply (IH ms us); auto.
Qed.
Lemma multitool_claims : forall dbg fx gx mf mg ts us, multitool_verify o dbg v fx gx mf mg = Ok v' -> length fx = length mf -> length gx = length mg ->
  Forall2 (item_reads A N v) (combine fx mf) ts -> Forall2 (item_reads A N v) (combine gx mg) us ->
  exists g, drawn (vt_tr v) (vt_tr v') = [g] /\ ~ In g (map fst (wcols ts ++ wcols us)) /\ (~ unlucky (wcols ts) (wcols us) g -> same_bag (wcols ts) (wcols us)).
Proof.
  intros dbg fx gx mf mg ts us H L1 L2 I1 I2. destruct (multitool_lists o Hp H2 dbg v v' fx gx mf mg R H) as [g S]. exists g. destruct (sound_use _ _ S) as [D Q]. split; [exact D|].
  destruct (Q ltac:(intros b Hb; apply in_app_or in Hb; destruct Hb as [Hb|Hb]; [exact (items_nv _ _ _ L1 I1 b Hb)|exact (items_nv _ _ _ L2 I2 b Hb)]) ts us (items_isl _ _ _ _ S I1) (items_isl _ _ _ _ S I2)) as [Q1 Q2].
  assert (Hf : forall xs : list (list (F p) * list (F p) * list (F p)), Forall (fun t => ~ In g (fst (fst t))) xs -> ~ In g (flat_map (fun t => fst (fst t)) xs)).
  { intros xs Hxs Hin. apply in_flat_map in Hin. destruct Hin as [t [T1 T2]]. rewrite Forall_forall in Hxs. exact (Hxs t T1 T2). }
  apply Forall_app in Q1. destruct Q1 as [Q1 Q1']. apply Hf in Q1, Q1'. rewrite <- (items_fst _ _ I1) in Q1. rewrite <- (items_fst _ _ I2) in Q1'.
  split; [rewrite map_app, in_app_iff; tauto|]. intros Hu. eapply avoid_same; eauto.
Qed.

Lemma bag_eq_claims : forall dbg fx gx l sl l' sl', bag_eq_verify o dbg v fx gx = Ok v' ->
  reads A N v (bc_poly fx) (bc_nv fx) l -> reads A N v (bc_sel fx) (bc_nv fx) sl -> reads A N v (bc_poly gx) (bc_nv gx) l' -> reads A N v (bc_sel gx) (bc_nv gx) sl' ->
  boolean sl -> boolean sl' -> length l < fsize p -> length l' < fsize p ->
  exists g, drawn (vt_tr v) (vt_tr v') = [g] /\ ~ In g (l ++ l') /\ (~ unlucky (combine l sl) (combine l' sl') g -> Permutation (rows l sl) (rows l' sl')).
Proof.
  intros dbg fx gx l sl l' sl' H R1 R2 R3 R4 B1 B2 L1 L2. destruct (bag_eq_sound o Hp H2 dbg v v' fx gx R H) as [g S]. exists g. destruct (sound_use _ _ S) as [D Q]. split; [exact D|].
  destruct (Q l sl l' sl' (reads_bag _ _ _ _ _ S R1 R2) (reads_bag _ _ _ _ _ S R3 R4)) as [Q1 [Q2 Q3]]. split; [rewrite in_app_iff; tauto|]. intros Hu.
  apply reads_len in R1, R2, R3, R4. rewrite !wcol_one in Q3 by congruence.
  assert (Hs : same_bag (combine l sl) (combine l' sl')) by (eapply avoid_same; [| |exact Q3|exact Hu]; rewrite comb_fst by congruence; assumption).
  rewrite <- !wcol_one in Hs by congruence. apply (same_bag_rows Hp l sl l' sl'); try assumption; congruence.
Qed.
Lemma bag_sum_claims : forall dbg f0 f1 gx l0 sl0 l1 sl1 l sl, bag_sum_verify o dbg v f0 f1 gx = Ok v' ->
  reads A N v (bc_poly f0) (bc_nv f0) l0 -> reads A N v (bc_sel f0) (bc_nv f0) sl0 -> reads A N v (bc_poly f1) (bc_nv f1) l1 -> reads A N v (bc_sel f1) (bc_nv f1) sl1 ->
  reads A N v (bc_poly gx) (bc_nv gx) l -> reads A N v (bc_sel gx) (bc_nv gx) sl ->
  boolean sl0 -> boolean sl1 -> boolean sl -> length l0 + length l1 < fsize p -> length l < fsize p ->
  exists g, drawn (vt_tr v) (vt_tr v') = [g] /\ ~ In g (l0 ++ l1 ++ l) /\ (~ unlucky (combine l0 sl0 ++ combine l1 sl1) (combine l sl) g -> Permutation (rows l0 sl0 ++ rows l1 sl1) (rows l sl)).
Proof.
  intros dbg f0 f1 gx l0 sl0 l1 sl1 l sl H R1 R2 R3 R4 R5 R6 B1 B2 B3 L1 L2. destruct (bag_sum_sound o Hp H2 dbg v v' f0 f1 gx R H) as [g S]. exists g. destruct (sound_use _ _ S) as [D Q]. split; [exact D|].
  destruct (Q l0 sl0 l1 sl1 l sl (reads_bag _ _ _ _ _ S R1 R2) (reads_bag _ _ _ _ _ S R3 R4) (reads_bag _ _ _ _ _ S R5 R6)) as [Q1 [Q2 [Q3 Q4]]]. split; [rewrite !in_app_iff; tauto|]. intros Hu.
  apply reads_len in R1, R2, R3, R4, R5, R6. rewrite !wcol_one in Q4 by congruence.
  assert (Hs : same_bag (combine l0 sl0 ++ combine l1 sl1) (combine l sl)) by (eapply avoid_same; [| |exact Q4|exact Hu]; rewrite ?map_app, !comb_fst by congruence; [rewrite in_app_iff; tauto|assumption]).
  rewrite <- combine_app' in Hs by congruence. rewrite <- !wcol_one in Hs by (rewrite ?app_length; congruence). rewrite <- rows_app by congruence.
  apply (same_bag_rows Hp (l0 ++ l1) (sl0 ++ sl1) l sl); try assumption; rewrite ?app_length; try congruence; [apply Forall_app; split; assumption].
Qed.
Lemma inclusion_claims : forall dbg fx gx l sl l' sl', inclusion_verify o dbg v fx gx = Ok v' ->
  reads A N v (bc_poly fx) (bc_nv fx) l -> reads A N v (bc_sel fx) (bc_nv fx) sl -> reads A N v (bc_poly gx) (bc_nv gx) l' -> reads A N v (bc_sel gx) (bc_nv gx) sl' ->
  boolean sl -> length l < fsize p ->
  exists g m, drawn (vt_tr v) (vt_tr v') = [g] /\ mget (vt_virt v) m = None /\ mget (vt_virt v') m = Some (VQuery m) /\ ~ In g (l ++ l') /\
    (~ unlucky (combine l sl) (wcol l' sl' (averaged A N m (bc_nv gx))) g -> incl (rows l sl) (rows l' sl')).
Proof.
  intros dbg fx gx l sl l' sl' H R1 R2 R3 R4 B1 L1. destruct (inclusion_sound o Hp H2 dbg v v' fx gx R H) as [g [Hm S]]. exists g, (vt_next v). destruct (sound_use _ _ S) as [D Q]. split; [exact D|]. split; [apply R; lia|]. split; [exact Hm|].
  destruct (Q l sl l' sl' (reads_bag _ _ _ _ _ S R1 R2) (reads_bag _ _ _ _ _ S R3 R4)) as [Q1 [Q2 Q3]]. split; [rewrite in_app_iff; tauto|]. intros Hu.
  apply reads_len in R1, R2, R3, R4. assert (La : length (averaged A N (vt_next v) (bc_nv gx)) = 2 ^ bc_nv gx) by (unfold averaged; rewrite map_length, seq_length; reflexivity).
  rewrite wcol_one in Q3 by congruence. assert (Hs : same_bag (combine l sl) (wcol l' sl' (averaged A N (vt_next v) (bc_nv gx)))).
  { eapply avoid_same; [| |exact Q3|exact Hu]; [rewrite comb_fst by congruence|rewrite wcol_fst by congruence]; assumption. }
  rewrite <- wcol_one in Hs by congruence. apply (inclusion_rows Hp l sl l' sl' (averaged A N (vt_next v) (bc_nv gx))); try assumption; congruence.
Qed.
Lemma inclusion_wa_claims : forall dbg fx gx m l sl l' sl' ml, inclusion_verify_with_advice o dbg v fx gx m = Ok v' ->
  reads A N v (bc_poly fx) (bc_nv fx) l -> reads A N v (bc_sel fx) (bc_nv fx) sl -> reads A N v (bc_poly gx) (bc_nv gx) l' -> reads A N v (bc_sel gx) (bc_nv gx) sl' -> reads A N v m (bc_nv gx) ml ->
  boolean sl -> length l < fsize p ->
  exists g, drawn (vt_tr v) (vt_tr v') = [g] /\ ~ In g (l ++ l') /\
    (~ unlucky (combine l sl) (wcol l' sl' ml) g -> same_bag (combine l sl) (wcol l' sl' ml) /\ incl (rows l sl) (rows l' sl')).
Proof.
  intros dbg fx gx m l sl l' sl' ml H R1 R2 R3 R4 R5 B1 L1. destruct (inclusion_wa_sound o Hp H2 dbg v v' fx gx m R H) as [g S]. exists g. destruct (sound_use _ _ S) as [D Q]. split; [exact D|].
  destruct (Q l sl l' sl' _ (reads_bag _ _ _ _ _ S R1 R2) (reads_bag _ _ _ _ _ S R3 R4) (ps_reads A _ N v _ _ _ (sound_sub _ _ S) R5)) as [Q1 [Q2 Q3]]. split; [rewrite in_app_iff; tauto|]. intros Hu.
  apply reads_len in R1, R2, R3, R4, R5. change (fun j => nth (j mod 2 ^ bc_nv gx) ml F0) with (per (bc_nv gx) ml) in Q3. rewrite (avgs_per Hp H2) in Q3 by exact R5. rewrite wcol_one in Q3 by congruence. assert (Hs : same_bag (combine l sl) (wcol l' sl' ml)).
  { eapply avoid_same; [| |exact Q3|exact Hu]; [rewrite comb_fst by congruence|rewrite wcol_fst by congruence]; assumption. }
  split; [exact Hs|]. rewrite <- wcol_one in Hs by congruence. apply (inclusion_rows Hp l sl l' sl' ml); try assumption; congruence.
Qed.

Lemma Permutation_nth_pair : forall (a b : list (F p * F p)) j, Permutation a b -> j < length b -> exists i, i < length a /\ nth j b (F0, F0) = nth i a (F0, F0).
Proof.
  intros a b j HP Hj. assert (Hin : In (nth j b (F0, F0)) a) by (eapply Permutation_in; [apply Permutation_sym; exact HP|apply nth_In; exact Hj]).
  apply (In_nth _ _ (F0, F0)) in Hin. destruct Hin as [i [Hi Hx]]. exists i. auto.
Qed.
Lemma combine_snd_perm : forall (a b c e : list (F p)), length a = length b -> length c = length e -> Permutation (combine a b) (combine c e) -> Permutation a c.
Proof. intros a b c e H1 H3 HP. rewrite <- (comb_fst a b), <- (comb_fst c e) by congruence. apply Permutation_map. exact HP. Qed.
Lemma presc_perm_claims : forall dbg fx gx perm l l' pl, presc_perm_verify o dbg v fx gx perm = Ok v' -> bc_nv fx = bc_nv gx ->
  reads A N v (bc_poly fx) (bc_nv fx) l -> reads A N v (bc_poly gx) (bc_nv gx) l' -> reads A N v perm (bc_nv fx) pl -> index_over A v v' (bc_nv fx) -> length l < fsize p ->
  exists g g', drawn (vt_tr v) (vt_tr v') = [g; g'] /\
    let a := combine (index_column (bc_nv fx)) l in let b := combine pl l' in
    ~ In g' (folded g a ++ folded g b) /\
    (~ clash a b g -> ~ unlucky (unit_bag (folded g a)) (unit_bag (folded g b)) g' ->
      Permutation pl (index_column (bc_nv fx)) /\ forall j, j < length l' -> exists i, i < length l /\ nth j pl F0 = ofN i /\ nth j l' F0 = nth i l F0).
Proof.
  intros dbg fx gx perm l l' pl H Hn R1 R3 R5 Hi L1. destruct (presc_perm_sound o Hp H2 dbg v v' fx gx perm R H Hn) as [g [g' S]]. exists g, g'. destruct (sound_use _ _ S) as [D Q]. split; [exact D|]. cbv zeta.
  specialize (Q l l' pl (pl_reads _ _ _ _ _ _ _ (sound_sub _ _ S) R1) (pl_reads _ _ _ _ _ _ _ (sound_sub _ _ S) R3) (pl_reads _ _ _ _ _ _ _ (sound_sub _ _ S) R5) Hi). cbv zeta in Q. destruct Q as [Q1 [Q2 Q3]].
  split; [rewrite in_app_iff; tauto|]. intros Hc Hu. apply reads_len in R1, R3, R5. rewrite <- Hn in R3. set (a := combine (index_column (bc_nv fx)) l) in *. set (b := combine pl l') in *.
  assert (La : length a = length l) by (unfold a; rewrite combine_length, index_len; lia). assert (Lb : length b = length l) by (unfold b; rewrite combine_length; lia).
  assert (Hs : Permutation (folded g a) (folded g b)).
  { apply (unit_perm Hp); [unfold folded; rewrite map_length; lia|unfold folded; rewrite map_length; lia|]. eapply avoid_same; [| |exact Q3|exact Hu]; rewrite unit_fst; assumption. }
  apply (folded_perm _ _ g Hc) in Hs. split; [apply Permutation_sym; apply (combine_snd_perm _ l _ l'); [rewrite index_len; congruence|congruence|exact Hs]|].
  intros j Hj. destruct (Permutation_nth_pair a b j Hs ltac:(lia)) as [i [I1 I2]]. exists i. split; [lia|]. unfold a, b in I2. rewrite !combine_nth in I2 by (rewrite ?index_len; congruence).
  rewrite index_nth in I2 by lia. injection I2 as I2 I3. split; assumption.
Qed.
Lemma strict_sort_claims_at : forall dbg fx rx l sl rl, strict_sort_verify o dbg v fx rx = Ok v' -> 2 ^ N < fsize p ->
  reads A N v (bc_poly fx) (bc_nv fx) l -> reads A N v (bc_sel fx) (bc_nv fx) sl -> reads A N v (bc_poly rx) (bc_nv rx) rl ->
  exists g g1 g2 k, drawn (vt_tr v) (vt_tr v') = [g; g1; g2] /\ mget (vt_virt v') k = Some (VFun ordered_fun) /\
    (sort_lucky_at A N (bc_nv fx) (bc_nv rx) (Nat.min (fst (A k)) N) (vt_next v + 2) (vt_next v + 37) l rl g g1 g2 -> sorted_by rl l sl).
Proof.
  intros dbg fx rx l sl rl H HN R1 R2 R3. destruct (strict_sort_sound_at o Hp H2 dbg v v' fx rx R H) as [g [g1 [g2 [q [m [k [[-> ->] [_ [_ [Mk S]]]]]]]]]]. exists g, g1, g2, k. destruct (sound_use _ _ S) as [D Q]. split; [exact D|]. split; [exact Mk|].
  apply (Q HN); [eapply reads_bag; eauto|eapply pl_reads; eauto using sound_sub].
Qed.
Lemma strict_sort_claims : forall dbg fx rx l sl rl, strict_sort_verify o dbg v fx rx = Ok v' -> 2 ^ N < fsize p ->
  reads A N v (bc_poly fx) (bc_nv fx) l -> reads A N v (bc_sel fx) (bc_nv fx) sl -> reads A N v (bc_poly rx) (bc_nv rx) rl ->
  exists g g1 g2 q m, drawn (vt_tr v) (vt_tr v') = [g; g1; g2] /\ mget (vt_virt v) q = None /\ mget (vt_virt v') q = Some (VQuery q) /\ mget (vt_virt v) m = None /\ mget (vt_virt v') m = Some (VQuery m) /\
    (sort_lucky A N (bc_nv fx) (bc_nv rx) q m l rl g g1 g2 -> sorted_by rl l sl).
Proof.
  intros dbg fx rx l sl rl H HN R1 R2 R3. destruct (strict_sort_sound o Hp H2 dbg v v' fx rx R H) as [g [g1 [g2 [q [m [Hq [Mq [Hm [Mm S]]]]]]]]]. exists g, g1, g2, q, m. destruct (sound_use _ _ S) as [D Q]. split; [exact D|].
  split; [apply R; exact Hq|]. split; [exact Mq|]. split; [apply R; exact Hm|]. split; [exact Mm|]. apply (Q HN); [eapply reads_bag; eauto|eapply pl_reads; eauto using sound_sub].
Qed.
End P.

Lemma bag_eq_shapes : forall (p : positive) (E : pairing p) (o : oracle p (gcar (PG1 E))) (s : ptrk E) fx gx, b_nv fx <> b_nv gx -> bag_eq_prove o s fx gx = Err IOPInvalidParameters.
Proof. intros p E o s fx gx H. unfold bag_eq_prove. rewrite (proj2 (Nat.eqb_neq _ _) H). reflexivity. Qed.
