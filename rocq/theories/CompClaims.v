(** What true claims say for the protocols composed of others, stated for a verifier after a history of calls. *)
From Coq Require Import String List Arith Lia Bool ZArith Znumtheory Permutation.
Import ListNotations.
From Verif Require Import Res ResLemmas Fp FSum SpecMle SpecPoly PolyLemmas SpecTracker SpecIop SpecRel ModelMle MleLemmas MleProofs ModelTranscript Pairing ModelKzg ModelBatch
  ModelProver ModelVerifier ModelAdvice ModelIop ProverHist VerifierHist CompileHist IopHist TmapLemmas LogDeriv BagLemmas EqualizeProofs IopWorld IopBasic IopMulti IopRuns IopSort IopVer IopSound IopSound2 SortSound InterpProofs MleExtra AdviceProofs IopClaims CompSound CompSound2 CompSound3.
Local Open Scope string_scope.
Local Open Scope list_scope.
Local Open Scope nat_scope.
#[local] Opaque track_virtual v_add_scalar.

Lemma Forall2_length' : forall X Y (Q : X -> Y -> Prop) l m, Forall2 Q l m -> length l = length m.
Proof. intros X Y Q l m H. induction H; cbn; congruence. Qed.
Lemma Forall2_imp' : forall X Y (Q Q' : X -> Y -> Prop) l m, (forall x y, Q x y -> Q' x y) -> Forall2 Q l m -> Forall2 Q' l m.
Proof. intros X Y Q Q' l m HH H. induction H; constructor; auto. Qed.
Section P.
Context {p : positive} {E : pairing p}.
Notation comm := (gcar (PG1 E)).
Implicit Types (v : vtrk E) (A : reading (p:=p)).
Variable o : oracle p comm.
Hypothesis Hp : prime (Zpos p).
Hypothesis H2 : 2 < fsize p.
Variables (v v' v'' : vtrk E) (A : reading (p:=p)) (N : nat).
Hypothesis R : vready v.
Hypothesis HL : vready v' -> exists ds, vgo v' v'' ds.
Hypothesis HC : claims_hold A N v''.

Lemma use : forall ds Q, sound v v' ds Q -> drawn (vt_tr v) (vt_tr v') = ds /\ Q A N (vt_virt v'').
Proof. exact (sound_use v v' v'' A N HL HC). Qed.
Lemma bag_in : forall ds Q b l sl, sound v v' ds Q -> bag_reads A N v b l sl -> plist_bag A (vt_virt v'') N b l sl.
Proof. intros ds Q b l sl S [H1 H3]. eapply (reads_bag v v' v'' A N HL); eauto. Qed.
Lemma id_in : forall ds Q i n l, sound v v' ds Q -> reads A N v i n l -> plist A (vt_virt v'') N i n l.
Proof. intros ds Q i n l S H. eapply pl_reads; [eapply sound_sub; [exact HL|exact S]|exact H]. Qed.
Lemma ids_in : forall ds Q n is ls, sound v v' ds Q -> Forall2 (fun id l => reads A N v id n l) is ls -> plists A (vt_virt v'') N n is ls.
Proof. intros ds Q n is ls S H. unfold plists. induction H; constructor; [eapply id_in; eauto|assumption]. Qed.
Lemma bag_read_len : forall b l sl, bag_reads A N v b l sl -> length l = 2 ^ bc_nv b /\ length sl = 2 ^ bc_nv b.
Proof. intros b l sl [H1 H3]. split; eapply reads_len; eauto. Qed.
Lemma bag_fits : forall b l sl, 2 ^ N < fsize p -> bag_reads A N v b l sl -> length l < fsize p.
Proof. intros b l sl HN [[H1 [H3 _]] _]. rewrite H3. pose proof (Nat.pow_le_mono_r 2 (bc_nv b) N ltac:(lia) H1). lia. Qed.

Lemma supp_claims : forall dbg b sup rx l sl l' sl' rl, supp_verify o dbg v b sup rx = Ok v' -> 2 ^ N < fsize p ->
  bag_reads A N v b l sl -> bag_reads A N v sup l' sl' -> reads A N v (bc_poly rx) (bc_nv rx) rl -> boolean sl -> boolean sl' -> small_range rl (bc_nv sup) ->
  exists m q mm h g g1 g2, drawn (vt_tr v) (vt_tr v') = [h; g; g1; g2] /\ Forall (received v v') [m; q; mm] /\
    let ml := column A (bc_nv sup) m in
    (fst (A m) <= bc_nv sup -> ~ unlucky (combine l sl) (wcol l' sl' ml) h -> sort_lucky A N (bc_nv sup) (bc_nv rx) q mm l' rl g g1 g2 ->
      sorted_by rl l' sl' /\ NoDup (rows l' sl') /\ (forall x, In x (rows l' sl') <-> In x (rows l sl)) /\
      forall k, k < length l' -> nth k sl' F0 <> F0 -> nth k ml F0 = ofN (count_occ F_dec (rows l sl) (nth k l' F0))).
Proof.
  intros dbg b sup rx l sl l' sl' rl H HN R1 R2 R3 B1 B2 Hr. destruct (supp_says o Hp H2 dbg v v' b sup rx R H) as [m [h [g [g1 [g2 [q [mm [X1 [X2 [X3 S]]]]]]]]]]. exists m, q, mm, h, g, g1, g2. destruct (use _ _ S) as [D Q]. split; [exact D|]. split; [apply Forall_cons; [exact X1|apply Forall_cons; [exact X2|apply Forall_cons; [exact X3|constructor]]]|]. cbv zeta. intros Hm Hu Hl.
  destruct (Q HN Hm l sl l' sl' rl (bag_in _ _ _ _ _ S R1) (bag_in _ _ _ _ _ S R2) (id_in _ _ _ _ _ S R3) B2 Hr Hu Hl) as [Q1 [Q2 [Q3 Q4]]]. pose proof (bag_read_len _ _ _ R1) as [L1 L2].
  split; [exact Q1|]. split; [exact Q2|]. split; [intros x; rewrite Q3; symmetry; apply (rows_weight' Hp); [congruence|exact B1|eapply bag_fits; eauto]|]. intros k Hk Hs. rewrite (Q4 k Hk Hs). apply (rows_count Hp); [congruence|exact B1].
Qed.
Lemma bag_disjoint_claims : forall dbg a b rx l sl l' sl' rl, bag_disjoint_verify o dbg v a b rx = Ok v' -> let n := Nat.max (bc_nv a) (bc_nv b) + 1 in 2 ^ N < fsize p -> n <= N ->
  bag_reads A N v a l sl -> bag_reads A N v b l' sl' -> reads A N v (bc_poly rx) (bc_nv rx) rl -> boolean sl -> boolean sl' -> small_range rl n ->
  exists got, Forall (received v v') got /\
    (disjoint_sized A n got -> disjoint_lucky A N n (bc_nv rx) l sl l' sl' rl got (drawn (vt_tr v) (vt_tr v')) -> forall x, In x (rows l sl) -> ~ In x (rows l' sl')).
Proof.
  intros dbg a b rx l sl l' sl' rl H n HN Hn R1 R2 R3 B1 B2 Hr. destruct (disjoint_says' o Hp H2 dbg v v' a b rx R H) as [got [ds [X S]]]. exists got. destruct (use _ _ S) as [D Q]. split; [exact X|]. intros Hs Hl x Hx Hx'. rewrite D in Hl.
  exact (Q HN Hn Hs l sl l' sl' rl (bag_in _ _ _ _ _ S R1) (bag_in _ _ _ _ _ S R2) (id_in _ _ _ _ _ S R3) B1 B2 Hr Hl x Hx Hx').
Qed.
Lemma set_disjoint_claims : forall dbg a b rx l sl l' sl' rl, set_disjoint_verify o dbg v a b rx = Ok v' -> let n := Nat.max (bc_nv a) (bc_nv b) + 1 in 2 ^ N < fsize p -> n <= N ->
  bag_reads A N v a l sl -> bag_reads A N v b l' sl' -> reads A N v (bc_poly rx) (bc_nv rx) rl -> boolean sl -> boolean sl' -> small_range rl n ->
  exists c cs q m h g g1 g2, drawn (vt_tr v) (vt_tr v') = [h; g; g1; g2] /\ Forall (received v v') [c; cs; q; m] /\
    let cl := column A n c in let csl := column A n cs in
    (fst (A c) <= n -> fst (A cs) <= n -> boolean csl -> ~ unlucky (combine l sl ++ combine l' sl') (combine cl csl) h -> sort_lucky A N n (bc_nv rx) q m cl rl g g1 g2 ->
      NoDup (rows l sl ++ rows l' sl')).
Proof.
  intros dbg a b rx l sl l' sl' rl H n HN Hn R1 R2 R3 B1 B2 Hr. destruct (set_disjoint_says o Hp H2 dbg v v' a b rx R H) as [c [cs [h [g [g1 [g2 [q [m [X S]]]]]]]]]. exists c, cs, q, m, h, g, g1, g2. destruct (use _ _ S) as [D Q]. split; [exact D|]. split; [exact X|]. cbv zeta. intros Hc Hcs Bc Hu Hl.
  exact (Q HN Hn Hc Hcs l sl l' sl' rl (bag_in _ _ _ _ _ S R1) (bag_in _ _ _ _ _ S R2) (id_in _ _ _ _ _ S R3) B1 B2 Bc Hr Hu Hl).
Qed.
Lemma set_union_claims : forall dbg a b un rx l sl l' sl' ul usl rl, set_union_verify o dbg v a b un rx = Ok v' -> let n := Nat.max (bc_nv a) (bc_nv b) + 1 in 2 ^ N < fsize p -> n <= N ->
  bag_reads A N v a l sl -> bag_reads A N v b l' sl' -> bag_reads A N v un ul usl -> reads A N v (bc_poly rx) (bc_nv rx) rl -> boolean sl -> boolean sl' -> boolean usl -> small_range rl (bc_nv un) ->
  exists c cs m q mm h0 h g g1 g2, drawn (vt_tr v) (vt_tr v') = [h0; h; g; g1; g2] /\ Forall (received v v') [c; cs; m; q; mm] /\
    let cl := column A n c in let csl := column A n cs in
    (fst (A c) <= n -> fst (A cs) <= n -> fst (A m) <= bc_nv un -> ~ unlucky (combine l sl ++ combine l' sl') (combine cl csl) h0 -> ~ unlucky (combine cl csl) (wcol ul usl (column A (bc_nv un) m)) h ->
      sort_lucky A N (bc_nv un) (bc_nv rx) q mm ul rl g g1 g2 ->
      NoDup (rows ul usl) /\ forall x, In x (rows ul usl) <-> In x (rows l sl) \/ In x (rows l' sl')).
Proof.
  intros dbg a b un rx l sl l' sl' ul usl rl H n HN Hn R1 R2 R4 R3 B1 B2 B3 Hr. destruct (set_union_says o Hp H2 dbg v v' a b un rx R H) as [c [cs [h0 [m [h [g [g1 [g2 [q [mm [X S]]]]]]]]]]]. exists c, cs, m, q, mm, h0, h, g, g1, g2. destruct (use _ _ S) as [D Q]. split; [exact D|]. split; [exact X|]. cbv zeta. intros Hc Hcs Hm Hu Hu' Hl.
  exact (Q HN Hn Hc Hcs Hm l sl l' sl' ul usl rl (bag_in _ _ _ _ _ S R1) (bag_in _ _ _ _ _ S R2) (bag_in _ _ _ _ _ S R4) (id_in _ _ _ _ _ S R3) B1 B2 B3 Hr Hu Hu' Hl).
Qed.
Lemma set_diff_claims : forall dbg a b l m bm rx al asl bl bsl ll lsl ml msl bml rl, set_diff_verify o dbg v a b l m bm rx = Ok v' -> let n := Nat.max (bc_nv l) (bc_nv b) + 1 in
  2 ^ N < fsize p -> n <= N -> Nat.max (bc_nv l) (bc_nv m) + 1 <= N ->
  bag_reads A N v a al asl -> bag_reads A N v b bl bsl -> bag_reads A N v l ll lsl -> bag_reads A N v m ml msl -> reads A N v bm (bc_nv b) bml -> reads A N v (bc_poly rx) (bc_nv rx) rl ->
  boolean asl -> boolean bsl -> boolean lsl -> boolean msl -> small_range rl n ->
  exists c cs q mm h g g1 g2 h1 h2, drawn (vt_tr v) (vt_tr v') = [h; g; g1; g2; h1; h2] /\ Forall (received v v') [c; cs; q; mm] /\
    let cl := column A n c in let csl := column A n cs in
    (fst (A c) <= n -> fst (A cs) <= n -> boolean csl ->
      ~ unlucky (combine ll lsl ++ combine bl bsl) (combine cl csl) h -> sort_lucky A N n (bc_nv rx) q mm cl rl g g1 g2 ->
      ~ unlucky (combine ll lsl ++ combine ml msl) (combine al asl) h1 -> ~ unlucky (combine ml msl) (wcol bl bsl bml) h2 ->
      NoDup (rows ll lsl) /\ forall x, In x (rows ll lsl) <-> In x (rows al asl) /\ ~ In x (rows bl bsl)).
Proof.
  intros dbg a b l m bm rx al asl bl bsl ll lsl ml msl bml rl H n HN Hn Hn' R1 R2 R3 R4 R5 R6 B1 B2 B3 B4 Hr. destruct (set_diff_says o Hp H2 dbg v v' a b l m bm rx R H) as [c [cs [h [g [g1 [g2 [q [mm [h1 [h2 [X S]]]]]]]]]]]. exists c, cs, q, mm, h, g, g1, g2, h1, h2. destruct (use _ _ S) as [D Q]. split; [exact D|]. split; [exact X|]. cbv zeta. intros Hc Hcs Bc U1 U2 U3 U4.
  exact (Q HN Hn Hn' Hc Hcs al asl bl bsl ll lsl ml msl bml rl (bag_in _ _ _ _ _ S R1) (bag_in _ _ _ _ _ S R2) (bag_in _ _ _ _ _ S R3) (bag_in _ _ _ _ _ S R4) (id_in _ _ _ _ _ S R5) (id_in _ _ _ _ _ S R6) B1 B2 B3 B4 Bc Hr U1 U2 U3 U4).
Qed.
Lemma set_intersect_claims : forall dbg a b l m r rx al asl bl bsl ll lsl ml msl sl ssl rl, set_intersect_verify o dbg v a b l m r rx = Ok v' -> let n := Nat.max (bc_nv l) (bc_nv r) + 1 in
  2 ^ N < fsize p -> n <= N -> Nat.max (bc_nv l) (bc_nv m) + 1 <= N -> Nat.max (bc_nv m) (bc_nv r) + 1 <= N ->
  bag_reads A N v a al asl -> bag_reads A N v b bl bsl -> bag_reads A N v l ll lsl -> bag_reads A N v m ml msl -> bag_reads A N v r sl ssl -> reads A N v (bc_poly rx) (bc_nv rx) rl ->
  boolean asl -> boolean bsl -> boolean lsl -> boolean msl -> boolean ssl -> small_range rl n ->
  exists c cs q mm h1 h2 h g g1 g2, drawn (vt_tr v) (vt_tr v') = [h1; h2; h; g; g1; g2] /\ Forall (received v v') [c; cs; q; mm] /\
    let cl := column A n c in let csl := column A n cs in
    (fst (A c) <= n -> fst (A cs) <= n -> boolean csl ->
      ~ unlucky (combine ll lsl ++ combine ml msl) (combine al asl) h1 -> ~ unlucky (combine ml msl ++ combine sl ssl) (combine bl bsl) h2 ->
      ~ unlucky (combine ll lsl ++ combine sl ssl) (combine cl csl) h -> sort_lucky A N n (bc_nv rx) q mm cl rl g g1 g2 ->
      forall x, In x (rows ml msl) <-> In x (rows al asl) /\ In x (rows bl bsl)).
Proof.
  intros dbg a b l m r rx al asl bl bsl ll lsl ml msl sl ssl rl H n HN Hn Hn' Hn2 R1 R2 R3 R4 R5 R6 B1 B2 B3 B4 B5 Hr. destruct (set_intersect_says o Hp H2 dbg v v' a b l m r rx R H) as [h1 [h2 [c [cs [h [g [g1 [g2 [q [mm [X S]]]]]]]]]]]. exists c, cs, q, mm, h1, h2, h, g, g1, g2. destruct (use _ _ S) as [D Q]. split; [exact D|]. split; [exact X|]. cbv zeta. intros Hc Hcs Bc U1 U2 U3 U4.
  exact (Q HN Hn Hn' Hn2 Hc Hcs al asl bl bsl ll lsl ml msl sl ssl rl (bag_in _ _ _ _ _ S R1) (bag_in _ _ _ _ _ S R2) (bag_in _ _ _ _ _ S R3) (bag_in _ _ _ _ _ S R4) (bag_in _ _ _ _ _ S R5) (id_in _ _ _ _ _ S R6) B1 B2 B3 B4 B5 Bc Hr U1 U2 U3 U4).
Qed.
Lemma join_reduction_claims : forall dbg a b ls rs rx al asl bl bsl lsl rsl rl, join_reduction_verify o dbg v a b ls rs rx = Ok v' ->
  let na := bc_nv a in let nb := bc_nv b in let n := Nat.max na nb + 1 in 2 ^ N < fsize p -> n <= N ->
  bag_reads A N v a al asl -> bag_reads A N v b bl bsl -> reads A N v ls na lsl -> reads A N v rs nb rsl -> reads A N v (bc_poly rx) (bc_nv rx) rl -> boolean asl -> boolean bsl -> small_range rl n ->
  exists got1 got2 got3 m1 m2 ds1 ds2 ds3 h1 h2, drawn (vt_tr v) (vt_tr v') = ds1 ++ ds2 ++ ds3 ++ [h1; h2] /\ Forall (received v v') (got1 ++ got2 ++ got3 ++ [m1; m2]) /\
    let al' := both asl lsl in let bl' := both bsl rsl in let am := both asl (opposite lsl) in let bm := both bsl (opposite rsl) in
    (disjoint_sized A n got1 -> disjoint_sized A (na + 1) got2 -> disjoint_sized A (nb + 1) got3 ->
      disjoint_lucky A N n (bc_nv rx) al al' bl bl' rl got1 ds1 -> disjoint_lucky A N (na + 1) (bc_nv rx) al al' al am rl got2 ds2 -> disjoint_lucky A N (nb + 1) (bc_nv rx) bl bl' bl bm rl got3 ds3 ->
      ~ unlucky (combine al am) (wcol bl bm (averaged A N m1 nb)) h1 -> ~ unlucky (combine bl bm) (wcol al am (averaged A N m2 na)) h2 ->
      boolean lsl /\ boolean rsl /\ marks al asl lsl bl bsl /\ marks bl bsl rsl al asl).
Proof.
  intros dbg a b ls rs rx al asl bl bsl lsl rsl rl H na nb n HN Hn R1 R2 R3 R4 R5 B1 B2 Hr. destruct (join_reduction_says o Hp H2 dbg v v' a b ls rs rx R H) as [i1 [i2 [i3 [m1 [m2 [d1 [d2 [d3 [h1 [h2 [X S]]]]]]]]]]]. exists i1, i2, i3, m1, m2, d1, d2, d3, h1, h2. destruct (use _ _ S) as [D Q]. split; [exact D|]. split; [exact X|]. cbv zeta. intros S1 S2 S3 U1 U2 U3 U4 U5.
  exact (Q HN Hn S1 S2 S3 al asl bl bsl lsl rsl rl (bag_in _ _ _ _ _ S R1) (bag_in _ _ _ _ _ S R2) (id_in _ _ _ _ _ S R3) (id_in _ _ _ _ _ S R4) (id_in _ _ _ _ _ S R5) B1 B2 Hr U1 U2 U3 U4 U5).
Qed.
Lemma index_transform_claims : forall dbg ti to ic isl oc osl, index_transform_verify o dbg v ti to = Ok v' -> 2 ^ N < fsize p -> length (tc_cols to) = length (tc_cols ti) ->
  table_reads A N v ti ic isl -> table_reads A N v to oc osl -> boolean isl -> boolean osl ->
  exists m r h, drawn (vt_tr v) (vt_tr v') = [r; h] /\ received v v' m /\
    let rs := powers r (length (tc_cols ti)) in
    (r <> F0 -> ~ unlucky (combine (aggregated rs oc osl) osl) (wcol (aggregated rs ic isl) isl (averaged A N m (tc_nv ti))) h ->
      forall k, k < 2 ^ tc_nv to -> nth k osl F0 <> F0 -> exists k', k' < 2 ^ tc_nv ti /\ nth k' isl F0 <> F0 /\ Fprod (row oc k) = Fprod (row ic k')).
Proof.
  intros dbg ti to ic isl oc osl H HN Hl [R1 R2] [R3 R4] B1 B2. destruct (index_transform_says o Hp H2 dbg v v' ti to R H) as [r [h [m [X S]]]]. exists m, r, h. destruct (use _ _ S) as [D Q]. split; [exact D|]. split; [exact X|]. cbv zeta. intros Hr Hu k Hk Hs.
  pose proof (Q ic isl oc osl (ids_in _ _ _ _ _ S R1) (id_in _ _ _ _ _ S R2) (ids_in _ _ _ _ _ S R3) (id_in _ _ _ _ _ S R4) Hu) as HS. cbv zeta in HS. pose proof (Forall2_length' _ _ _ _ _ R1) as L1. pose proof (Forall2_length' _ _ _ _ _ R3) as L3.
  pose proof R4 as [R4a [R4b _]]. pose proof R2 as [R2a [R2b _]]. rewrite <- R2b. refine (agg_rows Hp H2 r ic isl oc osl _ (length (tc_cols ti)) Hr ltac:(congruence) ltac:(congruence) B1 B2 _ _ HS k ltac:(lia) Hs).
  - rewrite R4b. pose proof (Nat.pow_le_mono_r 2 (tc_nv to) N ltac:(lia) R4a). lia.
  - unfold averaged. rewrite map_length, seq_length. congruence.
Qed.
Lemma final_join_claims : forall dbg a b ai bi res ac asl bc bsl, final_join_verify o dbg v a b ai bi = Ok (res, v') -> 2 ^ N < fsize p ->
  table_reads A N v a ac asl -> table_reads A N v b bc bsl -> boolean asl -> boolean bsl ->
  exists ta m r h, length ta = length (tc_cols a) /\ res = mkTablec (ta ++ tc_cols b) (tc_sel b) (tc_nv b) /\ drawn (vt_tr v) (vt_tr v') = [r; h] /\ Forall (received v v') (ta ++ [m]) /\
    let rs := powers r (length ac) in let tc := map (column A (tc_nv b)) ta in
    (Forall (fun id => fst (A id) <= tc_nv b) ta -> r <> F0 -> ~ unlucky (combine (aggregated rs tc bsl) bsl) (wcol (aggregated rs ac asl) asl (averaged A N m (tc_nv a))) h ->
      forall k, k < 2 ^ tc_nv b -> nth k bsl F0 <> F0 ->
        nth k (nth ai (tc ++ bc) []) F0 = nth k (nth (length tc + bi) (tc ++ bc) []) F0 /\
        exists k', k' < 2 ^ tc_nv a /\ nth k' asl F0 <> F0 /\ Fprod (row tc k) = Fprod (row ac k')).
Proof.
  intros dbg a b ai bi res ac asl bc bsl H HN [R1 R2] [R3 R4] B1 B2. destruct (final_join_says o Hp H2 dbg v v' a b ai bi res R H) as [ta [r [h [m [Lt [Er [X S]]]]]]]. exists ta, m, r, h. destruct (use _ _ S) as [D Q]. split; [exact Lt|]. split; [exact Er|]. split; [exact D|]. split; [exact X|]. cbv zeta. intros Ht Hr Hu.
  pose proof R4 as [R4a _]. exact (Q HN R4a Ht ac asl bc bsl (ids_in _ _ _ _ _ S R1) (id_in _ _ _ _ _ S R2) (ids_in _ _ _ _ _ S R3) (id_in _ _ _ _ _ S R4) B1 B2 Hr Hu).
Qed.
Lemma group_by_claims : forall dbg t gi rx res tcs sl sup sl' ml rl, group_by_verify o dbg v t gi rx = Ok (res, v') -> 2 ^ N < fsize p ->
  table_reads A N v t tcs sl -> Forall (fun id => reads A N v id (tc_nv t) sup) (firstn 1 (gv_supp gi)) -> reads A N v (gv_sel gi) (tc_nv t) sl' -> reads A N v (gv_mult gi) (tc_nv t) ml -> reads A N v (bc_poly rx) (bc_nv rx) rl ->
  boolean sl -> boolean sl' -> small_range rl (tc_nv t) ->
  exists c sp q mm h g g1 g2 hs, gv_cols gi = [c] /\ c < length tcs /\ nth_error (gv_supp gi) 0 = Some sp /\ Forall agg_ok (gv_agg gi) /\
    res = mkTablec (sp :: repeat (gv_mult gi) (counts_in (gv_agg gi))) (gv_sel gi) (tc_nv t) /\
    drawn (vt_tr v) (vt_tr v') = [h; g; g1; g2] ++ hs /\ length hs = length (sums_in (gv_agg gi)) /\ Forall (received v v') [q; mm] /\
    let keys := nth c tcs [] in
    (~ unlucky (combine keys sl) (wcol sup sl' ml) h -> sort_lucky A N (tc_nv t) (bc_nv rx) q mm sup rl g g1 g2 ->
      NoDup (rows sup sl') /\ (forall x, In x (rows sup sl') <-> In x (rows keys sl)) /\
      (forall k, k < length sup -> nth k sl' F0 <> F0 -> nth k ml F0 = ofN (count_occ F_dec (rows keys sl) (nth k sup F0))) /\
      Forall2 (fun ca hh => forall al, reads A N v (snd ca) (tc_nv t) al -> ~ unlucky (wcol keys sl (nth (fst ca) tcs [])) (wcol sup sl' al) hh ->
        forall k, k < length sup -> nth k sl' F0 <> F0 -> nth k al F0 = weight (wcol keys sl (nth (fst ca) tcs [])) (nth k sup F0)) (sums_in (gv_agg gi)) hs).
Proof.
  intros dbg t gi rx res tcs sl sup sl' ml rl H HN [R1 R2] R3 R4 R5 R6 B1 B2 Hr. destruct (group_by_says o Hp H2 dbg v v' t gi rx res R H) as [c [sp [h [g [g1 [g2 [q [mm [hs [Y1 [Y2 [Y3 [Y4 [Y5 [Y6 [X S]]]]]]]]]]]]]]]]. exists c, sp, q, mm, h, g, g1, g2, hs. destruct (use _ _ S) as [D Q].
  split; [exact Y1|]. split; [rewrite <- (Forall2_length' _ _ _ _ _ R1); exact Y2|]. split; [exact Y3|]. split; [exact Y4|]. split; [exact Y5|]. split; [exact D|]. split; [exact Y6|]. split; [exact X|]. cbv zeta. intros U1 U2.
  assert (R3' : reads A N v sp (tc_nv t) sup). { destruct (gv_supp gi) as [|x xs]; [discriminate|]. cbn in Y3. injection Y3 as ->. cbn [firstn] in R3. inversion R3; assumption. }
  destruct (Q HN tcs sl sup sl' ml rl (ids_in _ _ _ _ _ S R1) (id_in _ _ _ _ _ S R2) (id_in _ _ _ _ _ S R3') (id_in _ _ _ _ _ S R4) (id_in _ _ _ _ _ S R5) (id_in _ _ _ _ _ S R6) B1 B2 Hr U1 U2) as [Q1 [Q2 [Q3 Q4]]].
  split; [exact Q1|]. split; [exact Q2|]. split; [exact Q3|]. eapply Forall2_imp'; [|exact Q4]. cbv beta. intros ca hh HH al Hal. apply HH. eapply id_in; [exact S|exact Hal].
Qed.
End P.
