(** What the claims of the row aggregation, the one-to-many join and the grouping protocol force. *)
From Coq Require Import String List Arith Lia Bool ZArith Znumtheory Permutation.
Import ListNotations.
From Verif Require Import Res ResLemmas Fp FSum SpecMle SpecPoly PolyLemmas SpecTracker SpecIop SpecRel ModelMle MleLemmas MleProofs ModelTranscript Pairing ModelKzg ModelBatch
  ModelProver ModelVerifier ModelAdvice ModelIop ProverHist VerifierHist CompileHist IopHist TmapLemmas LogDeriv BagLemmas EqualizeProofs IopWorld IopBasic IopMulti IopRuns IopSort IopVer IopSound IopSound2 SortSound InterpProofs MleExtra AdviceProofs IopClaims CompSound CompSound2.
Local Open Scope string_scope.
Local Open Scope list_scope.
Local Open Scope nat_scope.
#[local] Opaque track_virtual v_add_scalar.

Section P.
Context {p : positive} {E : pairing p}.
Add Ring Fq : (@F_ring p).
Notation comm := (gcar (PG1 E)).
Implicit Types (v : vtrk E) (V : tmap (vexp p)) (A : reading (p:=p)).
Variable o : oracle p comm.
Hypothesis Hp : prime (Zpos p).
Hypothesis H2 : 2 < fsize p.

Definition plists A V N (n : nat) (ids : list nat) (ls : list (list (F p))) : Prop := Forall2 (fun i l => plist A V N i n l) ids ls.
Fixpoint aggfold (acc : list (F p)) (ls : list (list (F p))) (rs : list (F p)) : list (F p) :=
  match ls, rs with l :: ls, r :: rs => aggfold (both acc (map (fun x => (r * x)%F) l)) ls rs | _, _ => acc end.
Lemma plist_scale : forall A V N i a r n l, mget V i = Some (VMulS a r) -> plist A V N a n l -> plist A V N i n (map (fun x => (r * x)%F) l).
Proof.
  intros A V N i a r n l H [L1 [L2 L3]]. split; [exact L1|]. split; [rewrite map_length; exact L2|]. eapply psem_ext; [eapply ps_muls; eassumption|]. intros j _. cbv beta. unfold per.
  rewrite (nth_indep (map _ l) F0 (r * F0)%F) by (rewrite map_length, L2; apply Nat.mod_upper_bound; apply Nat.pow_nonzero; lia). rewrite (map_nth (fun x => (r * x)%F)). reflexivity.
Qed.
Lemma agg_says : forall cols v acc rs i v', vready v -> agg_comms v acc cols rs = Ok (i, v') -> length cols <= length rs /\
  sound v v' [] (fun A N V => forall n accl ls, plist A V N acc n accl -> plists A V N n cols ls -> plist A V N i n (aggfold accl ls rs)).
Proof.
  induction cols as [|c cols IH]; intros v acc rs i v' R H; cbn [agg_comms] in H.
  - apply Okinj in H. inversion H; subst. split; [cbn; lia|]. split; [apply vgo_refl; exact R|]. intros A N V _ _ n accl ls Ha Hl. inversion Hl; subst. exact Ha.
  - destruct rs as [|r rs]; [discriminate|]. pose proof (vgo_refl v R) as G. vvirt G H. vvirt G H. destruct (IH _ _ _ _ _ (y_ready _ _ _ G) H) as [HL S1]. split; [cbn; lia|].
    destruct S1 as [G1 S1]. split; [exact (vgo_trans _ _ _ _ _ G G1)|]. intros A N V Sv C n accl ls Ha Hl. inversion Hl as [|c' l cs' ls' Hc Hls]; subst. cbn [aggfold].
    pose proof (sub_trans _ _ _ (y_sub _ _ _ G1) Sv) as Sv0. lift Sv0. apply (S1 A N V Sv C); [|exact Hls]. eapply plist_mul; [exact Im0|exact Ha|]. eapply plist_scale; [exact Im|exact Hc].
Qed.
Lemma aggfold_len : forall ls acc rs n, length acc = n -> Forall (fun l => length l = n) ls -> length (aggfold acc ls rs) = n.
Proof. induction ls as [|l ls IH]; intros acc [|r rs] n Ha Hl; cbn [aggfold]; try exact Ha. inversion Hl; subst. apply IH; [rewrite both_len; [reflexivity|rewrite map_length; congruence]|assumption]. Qed.
Lemma aggfold_nth : forall ls acc rs k, Forall (fun l => length l = length acc) ls -> k < length acc ->
  nth k (aggfold acc ls rs) F0 = (nth k acc F0 * Fprod (map (fun rx => (fst rx * snd rx)%F) (combine rs (row ls k))))%F.
Proof.
  induction ls as [|l ls IH]; intros acc [|r rs] k Hl Hk; cbn [aggfold row map combine]; rewrite ?Fprod_cons, ?Fprod_nil; try ring. inversion Hl as [|? ? L1 L2]; subst.
  assert (Lb : length (both acc (map (fun x => (r * x)%F) l)) = length acc) by (rewrite both_len; [reflexivity|rewrite map_length; congruence]).
  rewrite IH by (rewrite Lb; assumption). rewrite both_nth by (rewrite ?map_length; congruence). rewrite (nth_indep (map _ l) F0 (r * F0)%F) by (rewrite map_length; lia). rewrite (map_nth (fun x => (r * x)%F)).
  cbn [fst snd]. fold (row ls k). ring.
Qed.
Lemma aggfold_is : forall ls acc rs, Forall (fun l => length l = length acc) ls -> aggfold acc ls rs = aggregated rs ls acc.
Proof.
  intros ls acc rs Hl. apply (nth_ext _ _ F0 F0); [rewrite (aggfold_len _ _ _ (length acc)) by auto; unfold aggregated; rewrite map_length, seq_length; reflexivity|]. intros k Hk.
  rewrite (aggfold_len _ _ _ (length acc)) in Hk by auto. rewrite aggfold_nth by auto. unfold aggregated. rewrite (nth_map_seq (fun k => (nth k acc F0 * Fprod (map (fun rx => (fst rx * snd rx)%F) (combine rs (row ls k))))%F)) by exact Hk. reflexivity.
Qed.
Lemma plists_len : forall A V N n ids ls, plists A V N n ids ls -> Forall (fun l => length l = 2 ^ n) ls /\ length ls = length ids.
Proof. intros A V N n ids ls H. induction H as [|i l ids ls H1 H3 [I1 I3]]; [split; constructor|]. split; [constructor; [exact (pl_len _ _ _ _ _ _ H1)|exact I1]|cbn; lia]. Qed.

Lemma row_agg_says : forall v t rs b v', vready v -> row_agg_verify v t rs = Ok (b, v') -> bc_sel b = tc_sel t /\ bc_nv b = tc_nv t /\
  sound v v' [] (fun A N V => forall cols sl, plists A V N (tc_nv t) (tc_cols t) cols -> plist A V N (tc_sel t) (tc_nv t) sl -> plist_bag A V N b (aggregated rs cols sl) sl).
Proof.
  intros v t rs b v' R H. unfold row_agg_verify in H. destruct (agg_comms _ _ _ _) as [[i v1]| |] eqn:E1; cbn [bind] in H; try discriminate. apply Okinj in H. inversion H; subst. cbn [bc_sel bc_nv].
  split; [reflexivity|]. split; [reflexivity|]. destruct (agg_says _ _ _ _ _ _ R E1) as [_ S]. eapply sound_imp; [exact S|]. cbv beta. intros A N V _ Q cols sl Hc Hs. split; [|exact Hs].
  cbn [bc_poly bc_nv]. rewrite <- aggfold_is; [apply Q; assumption|]. rewrite (pl_len _ _ _ _ _ _ Hs). apply (plists_len _ _ _ _ _ _ Hc).
Qed.
Lemma index_transform_says : forall debug v v' ti to, vready v -> index_transform_verify o debug v ti to = Ok v' ->
  exists r h m, received v v' m /\ sound v v' [r; h] (fun A N V => forall ic isl oc osl, plists A V N (tc_nv ti) (tc_cols ti) ic -> plist A V N (tc_sel ti) (tc_nv ti) isl ->
    plists A V N (tc_nv to) (tc_cols to) oc -> plist A V N (tc_sel to) (tc_nv to) osl -> let rs := powers r (length (tc_cols ti)) in
    let w := combine (aggregated rs oc osl) osl in let w' := wcol (aggregated rs ic isl) isl (averaged A N m (tc_nv ti)) in ~ unlucky w w' h -> same_bag w w').
Proof.
  intros debug v v' ti to R H. unfold index_transform_verify, rand_powers_verify in H. destruct (vt_challenge o _ v) as [[r v1]| |] eqn:E1; cbn [bind] in H; try discriminate. destruct (go_chal o _ _ _ _ R E1) as [G1 _].
  destruct (row_agg_verify _ _ _) as [[bi v2]| |] eqn:E2 in H; cbn [bind] in H; try discriminate. destruct (row_agg_says _ _ _ _ _ (y_ready _ _ _ G1) E2) as [Bs [Bn S2]].
  destruct (row_agg_verify _ _ _) as [[bo v3]| |] eqn:E3 in H; cbn [bind] in H; try discriminate. destruct (row_agg_says _ _ _ _ _ (sound_ready _ _ _ _ S2) E3) as [Cs [Cn S3]].
  destruct (incl_says o Hp H2 _ _ _ _ _ (sound_ready _ _ _ _ S3) H) as [h [m [Rm S4]]]. exists r, h, m. pose proof (go_sound _ _ _ G1) as S1.
  pose proof (sound_seq _ _ _ _ _ _ _ S3 S4) as S34. pose proof (sound_seq _ _ _ _ _ _ _ S2 S34) as S24. pose proof (sound_seq _ _ _ _ _ _ _ S1 S24) as S14. pose proof (sound_seq _ _ _ _ _ _ _ S1 S2) as S12. pose proof (sound_seq _ _ _ _ _ _ _ S12 S3) as S13. cbn [app] in S14.
  split; [eapply received_down; [exact S13|exact Rm]|]. eapply sound_imp; [exact S14|]. cbv beta. intros A N V _ [_ [Q2 [Q3 Q4]]] ic isl oc osl I1 I2 O1 O2. cbv zeta. intros Hu. rewrite Bn in Q4. apply (Q4 _ _ _ _ (Q3 _ _ O1 O2) (Q2 _ _ I1 I2) Hu).
Qed.

(** What equal folded rows say: equal products. *)
Lemma prod_split : forall (rs xs : list (F p)), length rs = length xs -> Fprod (map (fun rx => (fst rx * snd rx)%F) (combine rs xs)) = (Fprod rs * Fprod xs)%F.
Proof. induction rs as [|r rs IH]; intros [|x xs] H; cbn in H; try discriminate; cbn [combine map]; rewrite ?Fprod_cons, ?Fprod_nil; [ring|]. cbn [fst snd]. rewrite IH by lia. ring. Qed.
Lemma pow_nz : forall (r : F p) k, r <> F0 -> Fpow r k <> F0.
Proof. intros r k Hr. induction k as [|k IH]; cbn; [apply (F1_neq_0 Hp)|]. intros Hz. apply (Fmul_integral Hp) in Hz. destruct Hz; contradiction. Qed.
Lemma powers_nz : forall (r : F p) n, r <> F0 -> Fprod (powers r n) <> F0.
Proof.
  intros r n Hr. unfold powers. induction (seq 0 n) as [|k l IH]; cbn; [apply (F1_neq_0 Hp)|]. intros Hz. apply (Fmul_integral Hp) in Hz. destruct Hz as [Hz|Hz]; [exact (pow_nz _ _ Hr Hz)|exact (IH Hz)].
Qed.
Lemma agg_rows : forall (r : F p) ic isl oc osl m n, r <> F0 -> length ic = n -> length oc = n -> boolean isl -> boolean osl -> length osl < fsize p -> length m = length isl ->
  let rs := powers r n in same_bag (combine (aggregated rs oc osl) osl) (wcol (aggregated rs ic isl) isl m) ->
  forall k, k < length osl -> nth k osl F0 <> F0 -> exists k', k' < length isl /\ nth k' isl F0 <> F0 /\ Fprod (row oc k) = Fprod (row ic k').
Proof.
  intros r ic isl oc osl m n Hr Li Lo Bi Bo Hl Lm rs Hs k Hk Hsel. assert (La : forall c s, length (aggregated (p:=p) rs c s) = length s) by (intros; unfold aggregated; rewrite map_length, seq_length; reflexivity).
  assert (HI : incl (rows (aggregated rs oc osl) osl) (rows (aggregated rs ic isl) isl)).
  { rewrite <- wcol_one in Hs by (rewrite La; reflexivity). apply (inclusion_rows Hp _ _ _ _ m); rewrite ?La; auto. unfold ones in Hs. rewrite La in Hs. exact Hs. }
  assert (Hv : forall c s j, length c = n -> boolean s -> j < length s -> nth j s F0 <> F0 -> nth j (aggregated rs c s) F0 = (Fprod rs * Fprod (row c j))%F).
  { intros c s j Hc Hb Hj Hn. unfold aggregated. rewrite (nth_map_seq (fun k => (nth k s F0 * Fprod (map (fun rx => (fst rx * snd rx)%F) (combine rs (row c k))))%F)) by exact Hj.
    unfold boolean in Hb. rewrite Forall_forall in Hb. destruct (Hb (nth j s F0) (nth_In _ _ Hj)) as [Q|Q]; [contradiction|]. rewrite Q, prod_split; [ring|]. unfold rs, powers, row. rewrite !map_length, seq_length. congruence. }
  assert (X : In (nth k (aggregated rs oc osl) F0) (rows (aggregated rs ic isl) isl)) by (apply HI; apply rows_In; [rewrite La; reflexivity|]; exists k; rewrite La; auto).
  apply rows_In in X; [|rewrite La; reflexivity]. destruct X as [k' [K1 [K2 K3]]]. rewrite La in K1. exists k'. split; [exact K1|]. split; [exact K3|]. rewrite !Hv in K2 by auto.
  assert (Z : (Fprod rs * (Fprod (row oc k) - Fprod (row ic k')))%F = F0) by (transitivity ((Fprod rs * Fprod (row oc k)) - (Fprod rs * Fprod (row ic k')))%F; [ring|rewrite K2; ring]).
  apply (Fmul_integral Hp) in Z. destruct Z as [Z|Z]; [exfalso; exact (powers_nz r n Hr Z)|]. apply PolyLemmas.sub_eq_0. exact Z.
Qed.

(** ** The one-to-many join *)
Lemma transfer_all_says : forall debug n v cs v', vready v -> transfer_all debug v n = Ok (cs, v') -> length cs = n /\ Forall (received v v') cs /\ sound v v' [] (fun _ _ _ => True).
Proof.
  induction n as [|n IH]; intros v cs v' R H; cbn [transfer_all] in H.
  - apply Okinj in H. inversion H; subst. split; [reflexivity|]. split; [constructor|]. apply go_sound. apply vgo_refl. exact R.
  - destruct (v_transfer debug v) as [[c v1]| |] eqn:E1; cbn [bind] in H; try discriminate. destruct (transfer_says H2 _ _ _ _ R E1) as [R1 S1]. destruct (transfer_all _ _ _) as [[cs' v2]| |] eqn:E2; cbn [bind] in H; try discriminate.
    apply Okinj in H. inversion H; subst. destruct (IH _ _ _ (sound_ready _ _ _ _ S1) E2) as [L [RR S2]]. split; [cbn; lia|]. split.
    + constructor; [eapply received_up; eassumption|]. eapply Forall_impl; [|exact RR]. intros i Hi. eapply received_down; eassumption.
    + eapply sound_imp; [exact (sound_seq _ _ _ _ _ _ _ S1 S2)|]. auto.
Qed.
Lemma slice_len : forall (X : Type) (l : list X) n r, slice_to l n = Ok r -> r = firstn n l /\ n <= length l.
Proof. intros X l n r H. unfold slice_to in H. destruct (n <=? length l) eqn:Q; [|discriminate]. apply Nat.leb_le in Q. apply Okinj in H. auto. Qed.
Lemma rnth_some : forall (X : Type) (l : list X) n x, rnth l n = Ok x -> nth_error l n = Some x.
Proof. intros X l n x H. unfold rnth in H. destruct (nth_error l n); [apply Okinj in H; congruence|discriminate]. Qed.
Lemma plists_nth : forall A V N n ids ls k i, plists A V N n ids ls -> nth_error ids k = Some i -> plist A V N i n (nth k ls []).
Proof.
  intros A V N n ids ls k i H. revert k. induction H as [|j l ids ls H1 H3 IH]; intros [|k] Hk; cbn in *; try discriminate; [injection Hk as <-; exact H1|apply IH; exact Hk].
Qed.
Lemma plist_zero : forall A V N a b n l l' s i j sel v, chold A V N v -> In j (vt_zc v) -> mget V i = Some (VSub a b) -> mget V j = Some (VMul i sel) -> plist A V N a n l -> plist A V N b n l' -> plist A V N sel n s ->
  forall k, k < 2 ^ n -> nth k s F0 <> F0 -> nth k l F0 = nth k l' F0.
Proof.
  intros A V N a b n l l' s i j sel v C Hz Hi Hj [L1 [L2 L3]] [M1 [M2 M3]] [K1 [K2 K3]] k Hk Hs. pose proof (Nat.pow_le_mono_r 2 n N ltac:(lia) L1).
  pose proof (zclaim _ _ _ _ _ _ C Hz (ps_mul _ _ _ _ _ _ _ _ Hj (ps_sub _ _ _ _ _ _ _ _ Hi L3 M3) K3) k ltac:(lia)) as Q. cbv beta in Q. unfold per in Q. rewrite Nat.mod_small in Q by lia.
  apply (Fmul_integral Hp) in Q. destruct Q as [Q|Q]; [apply PolyLemmas.sub_eq_0; exact Q|contradiction].
Qed.

Lemma final_join_wa_says : forall debug v v' a b ai bi ta res, vready v -> length ta = length (tc_cols a) -> final_join_verify_with_advice o debug v a b ai bi ta = Ok (res, v') ->
  res = mkTablec (ta ++ tc_cols b) (tc_sel b) (tc_nv b) /\
  exists r h m, received v v' m /\ sound v v' [r; h] (fun A N V => 2 ^ N < fsize p -> forall ac asl tc bc bsl, plists A V N (tc_nv a) (tc_cols a) ac -> plist A V N (tc_sel a) (tc_nv a) asl ->
    plists A V N (tc_nv b) ta tc -> plists A V N (tc_nv b) (tc_cols b) bc -> plist A V N (tc_sel b) (tc_nv b) bsl -> boolean asl -> boolean bsl -> r <> F0 ->
    let rs := powers r (length ac) in ~ unlucky (combine (aggregated rs tc bsl) bsl) (wcol (aggregated rs ac asl) asl (averaged A N m (tc_nv a))) h ->
    forall k, k < 2 ^ tc_nv b -> nth k bsl F0 <> F0 ->
      nth k (nth ai (tc ++ bc) []) F0 = nth k (nth (length tc + bi) (tc ++ bc) []) F0 /\
      exists k', k' < 2 ^ tc_nv a /\ nth k' asl F0 <> F0 /\ Fprod (row tc k) = Fprod (row ac k')).
Proof.
  intros debug v v' a b ai bi ta res R Lt H. unfold final_join_verify_with_advice in H. cbv zeta in H. cbn [tc_cols tc_sel tc_nv] in H.
  destruct (slice_to _ _) as [tc| |] eqn:E0 in H; cbn [bind] in H; try discriminate. apply slice_len in E0. destruct E0 as [E0 _]. rewrite <- Lt, firstn_app, Nat.sub_diag, firstn_all in E0. cbn [firstn] in E0. rewrite app_nil_r in E0. subst tc.
  destruct (index_transform_verify _ _ _ _ _) as [v1| |] eqn:E1 in H; cbn [bind] in H; try discriminate. destruct (index_transform_says _ _ _ _ _ R E1) as [r [h [m [Rm S1]]]]. cbn [tc_cols tc_sel tc_nv] in S1.
  destruct (rnth _ ai) as [ja| |] eqn:Ea in H; cbn [bind] in H; try discriminate. apply rnth_some in Ea. destruct (rnth _ _) as [jb| |] eqn:Eb in H; cbn [bind] in H; try discriminate. apply rnth_some in Eb.
  pose proof (vgo_refl v1 (sound_ready _ _ _ _ S1)) as G. vvirt G H. vvirt G H. vzero G H. apply Okinj in H. inversion H; subst res. subst v'. clear H. split; [reflexivity|].
  exists r, h, m. pose proof (go_sound _ _ _ G) as S2. split; [eapply received_up; [exact Rm|exact S2]|]. pose proof (sound_seq _ _ _ _ _ _ _ S1 S2) as [G12 S12]. cbn [app] in G12. split; [exact G12|]. intros A N V Sv C. destruct (S12 A N V Sv C) as [Q _]. lift Sv.
  intros HN ac asl tc bc bsl Pa Pas Pt Pb Pbs Ba Bb Hr. cbv zeta. intros Hu k Hk Hs.
  assert (La : length ac = length (tc_cols a)) by (apply (plists_len _ _ _ _ _ _ Pa)). assert (Ltc : length tc = length ta) by (apply (plists_len _ _ _ _ _ _ Pt)).
  assert (Pall : plists A V N (tc_nv b) (ta ++ tc_cols b) (tc ++ bc)) by (apply Forall2_app; assumption).
  split.
  - eapply plist_zero; [exact C|exact Iz|exact Im|exact Im0|eapply plists_nth; [exact Pall|exact Ea]|rewrite Ltc, Lt; eapply plists_nth; [exact Pall|exact Eb]|exact Pbs|exact Hk|exact Hs].
  - pose proof (pl_len _ _ _ _ _ _ Pas) as L1. pose proof (pl_len _ _ _ _ _ _ Pbs) as L3. specialize (Q ac asl tc bsl Pa Pas Pt Pbs). cbv zeta in Q. rewrite <- La in Q. specialize (Q Hu).
    rewrite <- L1. rewrite <- L3 in Hk. refine (agg_rows r ac asl tc bsl (averaged A N m (tc_nv a)) (length ac) Hr eq_refl _ Ba Bb _ _ Q k Hk Hs); [congruence|eapply (pl_fits H2); [exact HN|exact Pbs]|unfold averaged; rewrite map_length, seq_length; congruence].
Qed.
Lemma final_join_says : forall debug v v' a b ai bi res, vready v -> final_join_verify o debug v a b ai bi = Ok (res, v') ->
  exists ta r h m, length ta = length (tc_cols a) /\ res = mkTablec (ta ++ tc_cols b) (tc_sel b) (tc_nv b) /\ Forall (received v v') (ta ++ [m]) /\ sound v v' [r; h] (fun A N V => 2 ^ N < fsize p -> tc_nv b <= N -> Forall (fun i => fst (A i) <= tc_nv b) ta ->
    forall ac asl bc bsl, plists A V N (tc_nv a) (tc_cols a) ac -> plist A V N (tc_sel a) (tc_nv a) asl ->
    plists A V N (tc_nv b) (tc_cols b) bc -> plist A V N (tc_sel b) (tc_nv b) bsl -> boolean asl -> boolean bsl -> r <> F0 ->
    let rs := powers r (length ac) in let tc := map (column A (tc_nv b)) ta in ~ unlucky (combine (aggregated rs tc bsl) bsl) (wcol (aggregated rs ac asl) asl (averaged A N m (tc_nv a))) h ->
    forall k, k < 2 ^ tc_nv b -> nth k bsl F0 <> F0 ->
      nth k (nth ai (tc ++ bc) []) F0 = nth k (nth (length tc + bi) (tc ++ bc) []) F0 /\
      exists k', k' < 2 ^ tc_nv a /\ nth k' asl F0 <> F0 /\ Fprod (row tc k) = Fprod (row ac k')).
Proof.
  intros debug v v' a b ai bi res R H. unfold final_join_verify in H. destruct (transfer_all _ _ _) as [[ta v1]| |] eqn:E1; cbn [bind] in H; try discriminate. destruct (transfer_all_says _ _ _ _ _ R E1) as [L [RR S1]].
  destruct (final_join_wa_says _ _ _ _ _ _ _ _ _ (sound_ready _ _ _ _ S1) L H) as [He [r [h [m [Rm S2]]]]]. exists ta, r, h, m. split; [exact L|]. split; [exact He|].
  assert (RR' : Forall (received v v') ta) by (eapply Forall_impl; [|exact RR]; intros i Hi; eapply received_up; eassumption).
  split; [apply Forall_app; split; [exact RR'|constructor; [eapply received_down; eassumption|constructor]]|].
  eapply sound_imp; [exact (sound_seq _ _ _ _ _ _ _ S1 S2)|]. cbv beta. intros A N V Sv [_ Q] HN Hn Hf ac asl bc bsl Pa Pas Pb Pbs Ba Bb Hr. cbv zeta. intros Hu.
  assert (Pt : plists A V N (tc_nv b) ta (map (column A (tc_nv b)) ta)).
  { clear - H2 RR' Hf Sv Hn. induction ta as [|i ta IH]; [constructor|]. inversion RR' as [|? ? X1 X2]; inversion Hf as [|? ? Y1 Y2]; subst. constructor; [|apply IH; assumption]. apply (plist_column H2); [apply Sv; apply X1|exact Y1|exact Hn]. }
  specialize (Q HN ac asl _ bc bsl Pa Pas Pt Pb Pbs Ba Bb Hr). cbv zeta in Q. exact (Q Hu).
Qed.

(** ** Grouping *)
Lemma multi_says : forall debug v v' fx gx c a, vready v -> multitool_verify o debug v [fx] [gx] [c] [a] = Ok v' ->
  exists h, sound v v' [h] (fun A N V => forall l sl cl l' sl' al, plist_bag A V N fx l sl -> plist A V N c (bc_nv fx) cl -> plist_bag A V N gx l' sl' -> plist A V N a (bc_nv gx) al ->
    ~ unlucky (wcol l sl cl) (wcol l' sl' al) h -> same_bag (wcol l sl cl) (wcol l' sl' al)).
Proof.
  intros debug v v' fx gx c a R H. destruct (multitool_lists o Hp H2 _ _ _ _ _ _ _ R H) as [h S]. exists h. eapply sound_imp; [exact S|]. cbv beta. intros A N V _ HQ l sl cl l' sl' al B1 [C1 [C2 C3]] B3 [D1 [D2 D3]] Hu.
  unshelve epose proof (HQ _ [(l, sl, cl)] [(l', sl', al)] _ _) as [Q1 Q2].
  - intros b [<-|[<-|[]]]; eapply bag_nv_le; eassumption.
  - constructor; [|constructor]. split; [exact B1|]. cbn [fst snd]. exists (per (bc_nv fx) cl). split; [exact C3|symmetry; apply (avgs_per Hp H2); exact C2].
  - constructor; [|constructor]. split; [exact B3|]. cbn [fst snd]. exists (per (bc_nv gx) al). split; [exact D3|symmetry; apply (avgs_per Hp H2); exact D2].
  - cbn [app] in Q1. inversion Q1 as [|x1 r1 Y1 Y2]; subst. inversion Y2 as [|x2 r2 Y3 Y4]; subst. cbn [fst] in Y1, Y3. unfold wcols in Q2. cbn [flat_map fst snd] in Q2. rewrite !app_nil_r in Q2.
    destruct (bag_lens _ _ _ _ _ _ B1) as [L1 L3]. destruct (bag_lens _ _ _ _ _ _ B3) as [L4 L5]. eapply avoid_same; [| |exact Q2|exact Hu]; rewrite wcol_fst by congruence; assumption.
Qed.
(** The aggregation steps: the claims of each sum, and the columns that come out. *)
Lemma aggs_says : forall debug t pre grp mult ins cols v cols' v', vready v -> foldM (gb_agg_verify o debug t pre grp mult) (cols, v) ins = Ok (cols', v') ->
  Forall agg_ok ins /\ cols' = cols ++ repeat mult (counts_in ins) /\
  exists hs, length hs = length (sums_in ins) /\ sound v v' hs (fun A N V => forall l sl l' sl' tcs, plist_bag A V N pre l sl -> plist_bag A V N grp l' sl' -> plists A V N (bc_nv pre) (tc_cols t) tcs ->
    Forall2 (fun ca h => forall al, plist A V N (snd ca) (bc_nv grp) al -> ~ unlucky (wcol l sl (nth (fst ca) tcs [])) (wcol l' sl' al) h -> same_bag (wcol l sl (nth (fst ca) tcs [])) (wcol l' sl' al)) (sums_in ins) hs).
Proof.
  induction ins as [|[[col k] a] ins IH]; intros cols v cols' v' R H; cbn [foldM] in H.
  - apply Okinj in H. inversion H; subst. split; [constructor|]. split; [cbn; rewrite app_nil_r; reflexivity|]. exists []. split; [reflexivity|]. split; [apply vgo_refl; exact R|]. intros. constructor.
  - destruct k; cbn [gb_agg_verify fst snd bind] in H; try discriminate.
    + destruct (IH _ _ _ _ R H) as [I1 [I2 [hs [I3 I4]]]]. split; [constructor; [left; reflexivity|exact I1]|]. split; [|exists hs; split; [exact I3|exact I4]].
      rewrite I2, <- app_assoc. reflexivity.
    + destruct (rnth _ _) as [c| |] eqn:Ec in H; cbn [bind] in H; try discriminate. apply rnth_some in Ec. destruct (multitool_verify _ _ _ _ _ _ _) as [v1| |] eqn:E1 in H; cbn [bind] in H; try discriminate.
      destruct (multi_says _ _ _ _ _ _ _ R E1) as [h S1]. destruct (IH _ _ _ _ (sound_ready _ _ _ _ S1) H) as [I1 [I2 [hs [I3 I4]]]].
      split; [constructor; [right; reflexivity|exact I1]|]. split; [exact I2|]. exists (h :: hs). split; [cbn; f_equal; exact I3|]. eapply sound_imp; [exact (sound_seq _ _ _ _ _ _ _ S1 I4)|]. cbv beta.
      intros A N V _ [Q1 Q2] l sl l' sl' tcs B1 B3 Ht. cbn [sums_in flat_map fst snd app]. constructor; [|apply Q2; assumption]. cbn [fst snd]. intros al Pa Hu. apply Q1; try assumption. eapply plists_nth; eassumption.
Qed.
Lemma gb_check_ok : forall cols idx n g, gb_check cols idx n = Ok g -> cols = [g] /\ g < n.
Proof.
  intros cols idx n g H. unfold gb_check, rnth, ounwrap, ensure in H. destruct cols as [|c [|c' cs]]; cbn [length Nat.leb nth_error bind] in H; try discriminate.
  destruct (c <? n) eqn:C2; cbn [bind] in H; try discriminate. destruct (forallb _ _); cbn [bind] in H; try discriminate. apply Okinj in H. subst. apply Nat.ltb_lt in C2. auto.
Qed.
Lemma group_by_says : forall debug v v' t gi rx res, vready v -> group_by_verify o debug v t gi rx = Ok (res, v') ->
  exists g sp h g0 g1 g2 q mm hs, gv_cols gi = [g] /\ g < length (tc_cols t) /\ nth_error (gv_supp gi) 0 = Some sp /\ Forall agg_ok (gv_agg gi) /\
    res = mkTablec (sp :: repeat (gv_mult gi) (counts_in (gv_agg gi))) (gv_sel gi) (tc_nv t) /\ length hs = length (sums_in (gv_agg gi)) /\ Forall (received v v') [q; mm] /\
    sound v v' ([h; g0; g1; g2] ++ hs) (fun A N V => 2 ^ N < fsize p -> forall tcs sl l' sl' ml rl, plists A V N (tc_nv t) (tc_cols t) tcs -> plist A V N (tc_sel t) (tc_nv t) sl ->
      plist A V N sp (tc_nv t) l' -> plist A V N (gv_sel gi) (tc_nv t) sl' -> plist A V N (gv_mult gi) (tc_nv t) ml -> plist A V N (bc_poly rx) (bc_nv rx) rl ->
      boolean sl -> boolean sl' -> small_range rl (tc_nv t) -> let l := nth g tcs [] in ~ unlucky (combine l sl) (wcol l' sl' ml) h -> sort_lucky A N (tc_nv t) (bc_nv rx) q mm l' rl g0 g1 g2 ->
      NoDup (rows l' sl') /\ (forall x, In x (rows l' sl') <-> In x (rows l sl)) /\
      (forall k, k < length l' -> nth k sl' F0 <> F0 -> nth k ml F0 = ofN (count_occ F_dec (rows l sl) (nth k l' F0))) /\
      Forall2 (fun ca hh => forall al, plist A V N (snd ca) (tc_nv t) al -> ~ unlucky (wcol l sl (nth (fst ca) tcs [])) (wcol l' sl' al) hh ->
        forall k, k < length l' -> nth k sl' F0 <> F0 -> nth k al F0 = weight (wcol l sl (nth (fst ca) tcs [])) (nth k l' F0)) (sums_in (gv_agg gi)) hs).
Proof.
  intros debug v v' t gi rx res R H. unfold group_by_verify in H. cbv zeta in H. destruct (gb_check _ _ _) as [g| |] eqn:Eg in H; cbn [bind] in H; try discriminate. apply gb_check_ok in Eg. destruct Eg as [Eg C2].
  destruct (rnth (gv_supp gi) 0) as [sp| |] eqn:E1; cbn [bind] in H; try discriminate. apply rnth_some in E1. destruct (rnth (tc_cols t) g) as [gc| |] eqn:E2; cbn [bind] in H; try discriminate. apply rnth_some in E2.
  destruct (supp_verify_with_advice _ _ _ _ _ _ _) as [v1| |] eqn:E3 in H; cbn [bind] in H; try discriminate. destruct (supp_wa_says o Hp H2 _ _ _ _ _ _ _ R E3) as [h [g0 [g1 [g2 [q [mm [Rq [Rm S1]]]]]]]]. cbn [bc_nv] in S1.
  destruct (foldM _ _ _) as [[cols v2]| |] eqn:E4 in H; cbn [bind] in H; try discriminate. apply Okinj in H. inversion H; subst res v2. clear H. destruct (aggs_says _ _ _ _ _ _ _ _ _ _ (sound_ready _ _ _ _ S1) E4) as [A1 [A2 [hs [A3 S2]]]]. cbn [bc_nv] in S2.
  exists g, sp, h, g0, g1, g2, q, mm, hs. split; [exact Eg|]. split; [exact C2|]. split; [exact E1|]. split; [exact A1|]. split; [rewrite A2; reflexivity|]. split; [exact A3|].
  split; [repeat constructor; eapply received_up; eassumption|]. eapply sound_imp; [exact (sound_seq _ _ _ _ _ _ _ S1 S2)|]. cbv beta. intros A N V _ [Q1 Q2] HN tcs sl l' sl' ml rl Pt Ps Pl Pls Pm Pr Bs Bs' Hr. cbv zeta. intros Hu HL.
  pose proof (plists_nth _ _ _ _ _ _ _ _ Pt E2) as Pg. set (l := nth g tcs []) in *. pose proof (pl_len _ _ _ _ _ _ Pg) as L1. pose proof (pl_len _ _ _ _ _ _ Ps) as L3. pose proof (pl_len _ _ _ _ _ _ Pl) as L4. pose proof (pl_len _ _ _ _ _ _ Pls) as L5. pose proof (pl_len _ _ _ _ _ _ Pm) as L6.
  destruct (Q1 HN l sl l' sl' ml rl (conj Pg Ps) (conj Pl Pls) Pm Pr Bs' Hr Hu HL) as [_ [N1 [N3 N4]]]. split; [exact N1|]. assert (Hfit : length l < fsize p) by (eapply (pl_fits H2); [exact HN|exact Pg]).
  split; [intros x; rewrite N3; symmetry; apply (rows_weight' Hp); auto; congruence|]. split; [intros k Hk Hk'; rewrite N4 by assumption; apply (rows_count Hp); [congruence|exact Bs]|].
  specialize (Q2 l sl l' sl' tcs (conj Pg Ps) (conj Pl Pls) Pt). revert Q2. generalize (sums_in (gv_agg gi)). clear - N1 L1 L3 L4 L5 Bs'. intros ss Q2. induction Q2 as [|ca hh ss hs Q Q2 IH]; constructor; [|exact IH]. intros al Pa Hu k Hk Hs. pose proof (pl_len _ _ _ _ _ _ Pa) as La.
  rewrite (Q al Pa Hu). rewrite (distinct_weight l' sl' al k); [|congruence|congruence|exact N1|exact Hk|exact Hs]. unfold boolean in Bs'. rewrite Forall_forall in Bs'. destruct (Bs' (nth k sl' F0)) as [Z|Z]; [apply nth_In; congruence|contradiction|]. rewrite Z. ring.
Qed.
End P.
