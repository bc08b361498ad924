(** What the claims of the set operations and of the join protocols force. *)
From Coq Require Import String List Arith Lia Bool ZArith Znumtheory Permutation.
Import ListNotations.
From Verif Require Import Res ResLemmas Fp FSum SpecMle SpecPoly PolyLemmas SpecTracker SpecIop ModelMle MleLemmas MleProofs ModelTranscript Pairing ModelKzg ModelBatch
  ModelProver ModelVerifier ModelAdvice ModelIop ProverHist VerifierHist CompileHist IopHist TmapLemmas LogDeriv BagLemmas EqualizeProofs IopWorld IopBasic IopMulti IopRuns IopSort IopVer IopSound IopSound2 SortSound InterpProofs MleExtra AdviceProofs IopClaims CompSound.
Local Open Scope string_scope.
Local Open Scope list_scope.
Local Open Scope nat_scope.
#[local] Opaque track_virtual v_add_scalar.

Section P.
Context {p : positive} {E : pairing p}.
Add Ring Fq : (@F_ring p).
Notation comm := (gcar (PG1 E)).
Implicit Types (v : vtrk E) (V : tmap (vexp p)) (A : reading (p:=p)).
(** Lists. *)
Lemma apart_app : forall (r r' : list (F p)) x, NoDup (r ++ r') -> In x r -> In x r' -> False.
Proof. induction r as [|y r IH]; intros r' x Hn Hx Hx'; [contradiction|]. cbn [app] in Hn. inversion Hn as [|z t N1 N2]; subst. destruct Hx as [<-|Hx]; [apply N1; apply in_or_app; right; exact Hx'|exact (IH _ _ N2 Hx Hx')]. Qed.
Lemma app_distinct : forall (r r' : list (F p)), NoDup (r ++ r') -> NoDup r.
Proof. induction r as [|y r IH]; intros r' Hn; [constructor|]. cbn [app] in Hn. inversion Hn as [|z t N1 N2]; subst. constructor; [intros Hy; apply N1; apply in_or_app; left; exact Hy|exact (IH _ N2)]. Qed.
Lemma both_len : forall (s t : list (F p)), length s = length t -> length (both s t) = length s.
Proof. intros s t H. unfold both. rewrite map_length, combine_length. lia. Qed.
Lemma both_nth : forall (s t : list (F p)) k, length s = length t -> k < length s -> nth k (both s t) F0 = (nth k s F0 * nth k t F0)%F.
Proof. induction s as [|x s IH]; intros [|y t] k H Hk; cbn in *; try lia. destruct k as [|k]; [reflexivity|]. apply IH; lia. Qed.
Lemma opp_len : forall (s : list (F p)), length (opposite s) = length s. Proof. intros. apply map_length. Qed.
Lemma opp_nth : forall (s : list (F p)) k, k < length s -> nth k (opposite s) F0 = (F1 - nth k s F0)%F.
Proof. induction s as [|x s IH]; intros k Hk; cbn in *; [lia|]. destruct k as [|k]; [reflexivity|]. apply IH; lia. Qed.
Lemma bool_both : forall s t : list (F p), length s = length t -> boolean s -> boolean t -> boolean (both s t).
Proof.
  induction s as [|x s IH]; intros [|y t] H Hs Ht; cbn in H; try discriminate; [constructor|]. inversion Hs as [|? ? X1 X2]; inversion Ht as [|? ? Y1 Y2]; subst. constructor; [|apply IH; [lia|assumption|assumption]].
  cbn [fst snd]. destruct X1 as [->| ->]; destruct Y1 as [->| ->]; [left|left|left|right]; ring.
Qed.
Lemma bool_opp : forall s : list (F p), boolean s -> boolean (opposite s).
Proof. intros s H. unfold boolean, opposite in *. rewrite Forall_map. eapply Forall_impl; [|exact H]. cbv beta. intros x [->| ->]; [right|left]; ring. Qed.
Lemma plist_mul : forall A V N i a b n l l', mget V i = Some (VMul a b) -> plist A V N a n l -> plist A V N b n l' -> plist A V N i n (both l l').
Proof.
  intros A V N i a b n l l' H [L1 [L2 L3]] [_ [M2 M3]]. split; [exact L1|]. split; [rewrite both_len; lia|]. eapply psem_ext; [eapply ps_mul; eassumption|]. intros j _. cbv beta.
  unfold per. rewrite both_nth; [reflexivity|lia|]. rewrite L2. apply Nat.mod_upper_bound. apply Nat.pow_nonzero. lia.
Qed.
Lemma plist_not : forall A V N i k a n l, mget V k = Some (VMulS a (Fopp F1)) -> mget V i = Some (VAddS k F1) -> plist A V N a n l -> plist A V N i n (opposite l).
Proof.
  intros A V N i k a n l Hk Hi [L1 [L2 L3]]. split; [exact L1|]. split; [rewrite opp_len; exact L2|]. eapply psem_ext; [eapply ps_adds; [exact Hi|eapply ps_muls; [exact Hk|exact L3]]|]. intros j _. cbv beta.
  unfold per. rewrite opp_nth; [ring|]. rewrite L2. apply Nat.mod_upper_bound. apply Nat.pow_nonzero. lia.
Qed.
Variable o : oracle p comm.
Hypothesis Hp : prime (Zpos p).
Hypothesis H2 : 2 < fsize p.

Lemma two_fit : forall A V N i i' n n' l l', 2 ^ N < fsize p -> Nat.max n n' + 1 <= N -> plist A V N i n l -> plist A V N i' n' l' -> length l + length l' < fsize p.
Proof.
  intros A V N i i' n n' l l' HN Hn H H'. apply pl_len in H, H'. pose proof (Nat.pow_le_mono_r 2 n (Nat.max n n') ltac:(lia) ltac:(lia)). pose proof (Nat.pow_le_mono_r 2 n' (Nat.max n n') ltac:(lia) ltac:(lia)).
  pose proof (Nat.pow_le_mono_r 2 (Nat.max n n' + 1) N ltac:(lia) Hn) as Hle. rewrite Nat.pow_add_r in Hle. change (2 ^ 1) with 2 in Hle. lia.
Qed.
Lemma bag_lens : forall A V N b l sl, plist_bag A V N b l sl -> length l = 2 ^ bc_nv b /\ length sl = 2 ^ bc_nv b.
Proof. intros A V N b l sl [H1 H3]. apply pl_len in H1, H3. auto. Qed.
(** Equal weights and boolean selectors: permutations. *)
Lemma sum_rows : forall (l0 sl0 l1 sl1 l sl : list (F p)), length l0 = length sl0 -> length l1 = length sl1 -> length l = length sl -> boolean sl0 -> boolean sl1 -> boolean sl ->
  length l0 + length l1 < fsize p -> length l < fsize p -> same_bag (combine l0 sl0 ++ combine l1 sl1) (combine l sl) -> Permutation (rows l0 sl0 ++ rows l1 sl1) (rows l sl).
Proof.
  intros l0 sl0 l1 sl1 l sl L0 L1 L B0 B1 B H01 Hl Hs. rewrite <- combine_app' in Hs by congruence. rewrite <- !wcol_one in Hs by (rewrite ?app_length; congruence). rewrite <- rows_app by congruence.
  apply (same_bag_rows Hp (l0 ++ l1) (sl0 ++ sl1) l sl); try assumption; rewrite ?app_length; try congruence; [apply Forall_app; split; assumption].
Qed.

Lemma set_disjoint_says : forall debug v v' a b rx, vready v -> set_disjoint_verify o debug v a b rx = Ok v' -> let n := Nat.max (bc_nv a) (bc_nv b) + 1 in
  exists cp cs h g g1 g2 q mm, Forall (received v v') [cp; cs; q; mm] /\ sound v v' [h; g; g1; g2] (fun A N V => 2 ^ N < fsize p -> n <= N -> fst (A cp) <= n -> fst (A cs) <= n ->
    forall l sl l' sl' rl, plist_bag A V N a l sl -> plist_bag A V N b l' sl' -> plist A V N (bc_poly rx) (bc_nv rx) rl -> let cl := column A n cp in let csl := column A n cs in
    boolean sl -> boolean sl' -> boolean csl -> small_range rl n -> ~ unlucky (combine l sl ++ combine l' sl') (combine cl csl) h -> sort_lucky A N n (bc_nv rx) q mm cl rl g g1 g2 ->
    NoDup (rows l sl ++ rows l' sl')).
Proof.
  intros debug v v' a b rx R H n. unfold set_disjoint_verify in H. cbv zeta in H. fold n in H.
  destruct (v_transfer debug v) as [[cp v1]| |] eqn:E1; cbn [bind] in H; try discriminate. destruct (transfer_says H2 _ _ _ _ R E1) as [R1 S1].
  destruct (v_transfer debug v1) as [[cs v2]| |] eqn:E2; cbn [bind] in H; try discriminate. destruct (transfer_says H2 _ _ _ _ (sound_ready _ _ _ _ S1) E2) as [R2 S2].
  destruct (bag_sum_verify _ _ _ _ _ _) as [v3| |] eqn:E3 in H; cbn [bind] in H; try discriminate. destruct (sum_says o Hp H2 _ _ _ _ _ _ (sound_ready _ _ _ _ S2) E3) as [h S3].
  destruct (sort_says o Hp H2 _ _ _ _ _ (sound_ready _ _ _ _ S3) H) as [g [g1 [g2 [q [mm [Rq [Rm S4]]]]]]]. cbn [bc_nv] in S4. exists cp, cs, h, g, g1, g2, q, mm.
  pose proof (sound_seq _ _ _ _ _ _ _ S3 S4) as S34. pose proof (sound_seq _ _ _ _ _ _ _ S2 S34) as S24. pose proof (sound_seq _ _ _ _ _ _ _ S1 S24) as S14. pose proof (sound_seq _ _ _ _ _ _ _ S1 S2) as S12. pose proof (sound_seq _ _ _ _ _ _ _ S12 S3) as S13. cbn [app] in *.
  assert (RR : Forall (received v v') [cp; cs; q; mm]).
  { constructor; [eapply received_up; [exact R1|exact S24]|]. constructor; [eapply received_down; [exact S1|eapply received_up; [exact R2|exact S34]]|].
    constructor; [eapply received_down; [exact S13|exact Rq]|]. constructor; [eapply received_down; [exact S13|exact Rm]|constructor]. }
  split; [exact RR|]. eapply sound_imp; [exact S14|]. cbv beta. intros A N V Sv [_ [_ [Q1 Q2]]] HN Hn F1 F2 l sl l' sl' rl Ba Bb Pr. cbv zeta. intros Hba Hbb Hbc Hr Hu HL.
  rewrite Forall_forall in RR. assert (Bc : plist_bag A V N (mkBagc cp cs n) (column A n cp) (column A n cs)) by (split; apply (plist_column H2); auto; apply Sv; apply RR; cbn [In bc_poly bc_sel]; tauto).
  pose proof (Q1 _ _ _ _ _ _ Ba Bb Bc Hu) as Hs. pose proof (Q2 HN _ _ _ Bc Pr HL) as Hsort. destruct (bag_lens _ _ _ _ _ _ Ba) as [La1 La2]. destruct (bag_lens _ _ _ _ _ _ Bb) as [Lb1 Lb2].
  eapply Permutation_NoDup; [apply Permutation_sym; apply (sum_rows l sl l' sl' (column A n cp) (column A n cs)); try assumption; rewrite ?column_len; try congruence; [eapply two_fit; [exact HN|exact Hn|apply Ba|apply Bb]|pose proof (Nat.pow_le_mono_r 2 n N ltac:(lia) Hn); lia]|].
  eapply sorted_distinct; [apply column_len|apply column_len|exact Hr|exact Hsort].
Qed.

Lemma set_union_says : forall debug v v' a b un rx, vready v -> set_union_verify o debug v a b un rx = Ok v' -> let n := Nat.max (bc_nv a) (bc_nv b) + 1 in
  exists cp cs h0 m h g g1 g2 q mm, Forall (received v v') [cp; cs; m; q; mm] /\ sound v v' [h0; h; g; g1; g2] (fun A N V => 2 ^ N < fsize p -> n <= N -> fst (A cp) <= n -> fst (A cs) <= n -> fst (A m) <= bc_nv un ->
    forall l sl l' sl' ul usl rl, plist_bag A V N a l sl -> plist_bag A V N b l' sl' -> plist_bag A V N un ul usl -> plist A V N (bc_poly rx) (bc_nv rx) rl -> let cl := column A n cp in let csl := column A n cs in
    boolean sl -> boolean sl' -> boolean usl -> small_range rl (bc_nv un) -> ~ unlucky (combine l sl ++ combine l' sl') (combine cl csl) h0 ->
    ~ unlucky (combine cl csl) (wcol ul usl (column A (bc_nv un) m)) h -> sort_lucky A N (bc_nv un) (bc_nv rx) q mm ul rl g g1 g2 ->
    NoDup (rows ul usl) /\ forall x, In x (rows ul usl) <-> In x (rows l sl) \/ In x (rows l' sl')).
Proof.
  intros debug v v' a b un rx R H n. unfold set_union_verify in H. cbv zeta in H. fold n in H.
  destruct (v_transfer debug v) as [[cp v1]| |] eqn:E1; cbn [bind] in H; try discriminate. destruct (transfer_says H2 _ _ _ _ R E1) as [R1 S1].
  destruct (v_transfer debug v1) as [[cs v2]| |] eqn:E2; cbn [bind] in H; try discriminate. destruct (transfer_says H2 _ _ _ _ (sound_ready _ _ _ _ S1) E2) as [R2 S2].
  destruct (bag_sum_verify _ _ _ _ _ _) as [v3| |] eqn:E3 in H; cbn [bind] in H; try discriminate. destruct (sum_says o Hp H2 _ _ _ _ _ _ (sound_ready _ _ _ _ S2) E3) as [h0 S3].
  destruct (supp_says o Hp H2 _ _ _ _ _ _ (sound_ready _ _ _ _ S3) H) as [m [h [g [g1 [g2 [q [mm [Rm [Rq [Rmm S4]]]]]]]]]]. exists cp, cs, h0, m, h, g, g1, g2, q, mm.
  pose proof (sound_seq _ _ _ _ _ _ _ S3 S4) as S34. pose proof (sound_seq _ _ _ _ _ _ _ S2 S34) as S24. pose proof (sound_seq _ _ _ _ _ _ _ S1 S24) as S14. pose proof (sound_seq _ _ _ _ _ _ _ S1 S2) as S12. pose proof (sound_seq _ _ _ _ _ _ _ S12 S3) as S13. cbn [app] in *.
  assert (RR : Forall (received v v') [cp; cs; m; q; mm]).
  { constructor; [eapply received_up; [exact R1|exact S24]|]. constructor; [eapply received_down; [exact S1|eapply received_up; [exact R2|exact S34]]|]. constructor; [eapply received_down; [exact S13|exact Rm]|].
    constructor; [eapply received_down; [exact S13|exact Rq]|]. constructor; [eapply received_down; [exact S13|exact Rmm]|constructor]. }
  split; [exact RR|]. eapply sound_imp; [exact S14|]. cbv beta. intros A N V Sv [_ [_ [Q1 Q2]]] HN Hn F1 F2 F3 l sl l' sl' ul usl rl Ba Bb Bu Pr. cbv zeta. intros Hba Hbb Hbu Hr Hu Hu' HL.
  rewrite Forall_forall in RR. assert (Bc : plist_bag A V N (mkBagc cp cs n) (column A n cp) (column A n cs)) by (split; apply (plist_column H2); auto; apply Sv; apply RR; cbn [In bc_poly bc_sel]; tauto).
  pose proof (Q1 _ _ _ _ _ _ Ba Bb Bc Hu) as Hs. specialize (Q2 HN F3 _ _ _ _ _ Bc Bu Pr). cbv zeta in Q2. specialize (Q2 Hbu Hr Hu' HL). destruct Q2 as [_ [Hn2 [Hx _]]]. split; [exact Hn2|]. intros x.
  rewrite Hx, <- Hs. symmetry. destruct (bag_lens _ _ _ _ _ _ Ba) as [La1 La2]. destruct (bag_lens _ _ _ _ _ _ Bb) as [Lb1 Lb2]. apply rows_weight2; auto; try congruence. eapply two_fit; [exact HN|exact Hn|apply Ba|apply Bb].
Qed.

Lemma set_diff_says : forall debug v v' a b l m bm rx, vready v -> set_diff_verify o debug v a b l m bm rx = Ok v' -> let n := Nat.max (bc_nv l) (bc_nv b) + 1 in
  exists cp cs h g g1 g2 q mm h1 h2, Forall (received v v') [cp; cs; q; mm] /\ sound v v' [h; g; g1; g2; h1; h2] (fun A N V => 2 ^ N < fsize p -> n <= N -> Nat.max (bc_nv l) (bc_nv m) + 1 <= N -> fst (A cp) <= n -> fst (A cs) <= n ->
    forall al asl bl bsl ll lsl ml msl bml rl, plist_bag A V N a al asl -> plist_bag A V N b bl bsl -> plist_bag A V N l ll lsl -> plist_bag A V N m ml msl -> plist A V N bm (bc_nv b) bml -> plist A V N (bc_poly rx) (bc_nv rx) rl ->
    let cl := column A n cp in let csl := column A n cs in boolean asl -> boolean bsl -> boolean lsl -> boolean msl -> boolean csl -> small_range rl n ->
    ~ unlucky (combine ll lsl ++ combine bl bsl) (combine cl csl) h -> sort_lucky A N n (bc_nv rx) q mm cl rl g g1 g2 ->
    ~ unlucky (combine ll lsl ++ combine ml msl) (combine al asl) h1 -> ~ unlucky (combine ml msl) (wcol bl bsl bml) h2 ->
    NoDup (rows ll lsl) /\ forall x, In x (rows ll lsl) <-> In x (rows al asl) /\ ~ In x (rows bl bsl)).
Proof.
  intros debug v v' a b l m bm rx R H n. unfold set_diff_verify in H.
  destruct (set_disjoint_verify _ _ _ _ _ _) as [v1| |] eqn:E1 in H; cbn [bind] in H; try discriminate. destruct (set_disjoint_says _ _ _ _ _ _ R E1) as [cp [cs [h [g [g1 [g2 [q [mm [RR S1]]]]]]]]]. fold n in S1.
  destruct (bag_sum_verify _ _ _ _ _ _) as [v2| |] eqn:E2 in H; cbn [bind] in H; try discriminate. destruct (sum_says o Hp H2 _ _ _ _ _ _ (sound_ready _ _ _ _ S1) E2) as [h1 S2].
  destruct (incl_wa_says o Hp H2 _ _ _ _ _ _ (sound_ready _ _ _ _ S2) H) as [h2 S3]. pose proof (sound_seq _ _ _ _ _ _ _ S2 S3) as S23. exists cp, cs, h, g, g1, g2, q, mm, h1, h2.
  split; [eapply Forall_impl; [|exact RR]; intros i Hi; eapply received_up; eassumption|]. eapply sound_imp; [exact (sound_seq _ _ _ _ _ _ _ S1 S23)|]. cbv beta.
  intros A N V Sv [Q1 [Q2 Q3]] HN Hn Hn' F1 F2 al asl bl bsl ll lsl ml msl bml rl Ba Bb Bl Bm Pb Pr. cbv zeta. intros Ha Hb Hl Hm Hc Hr U1 HL U2 U3.
  specialize (Q1 HN Hn F1 F2 _ _ _ _ _ Bl Bb Pr). cbv zeta in Q1. specialize (Q1 Hl Hb Hc Hr U1 HL). pose proof (Q2 _ _ _ _ _ _ Bl Bm Ba U2) as Hs. pose proof (Q3 _ _ _ _ _ Bm Bb Pb U3) as Hi.
  destruct (bag_lens _ _ _ _ _ _ Ba) as [La1 La2]. destruct (bag_lens _ _ _ _ _ _ Bb) as [Lb1 Lb2]. destruct (bag_lens _ _ _ _ _ _ Bl) as [Ll1 Ll2]. destruct (bag_lens _ _ _ _ _ _ Bm) as [Lm1 Lm2]. apply pl_len in Pb.
  assert (HP : Permutation (rows ll lsl ++ rows ml msl) (rows al asl)) by (apply sum_rows; auto; try congruence; [eapply two_fit; [exact HN|exact Hn'|apply Bl|apply Bm]|eapply (pl_fits H2); [exact HN|apply Ba]]).
  assert (HI : incl (rows ml msl) (rows bl bsl)). { rewrite <- wcol_one in Hi by congruence. apply (inclusion_rows Hp ml msl bl bsl bml); try assumption; try congruence. eapply (pl_fits H2); [exact HN|apply Bm]. }
  split; [eapply app_distinct; exact Q1|]. intros x. split.
  - intros Hx. split; [eapply Permutation_in; [exact HP|apply in_or_app; left; exact Hx]|]. intros Hx'. exact (apart_app _ _ _ Q1 Hx Hx').
  - intros [Hx Hx']. apply (Permutation_in _ (Permutation_sym HP)) in Hx. apply in_app_or in Hx. destruct Hx as [Hx|Hx]; [exact Hx|]. exfalso. apply Hx'. apply HI. exact Hx.
Qed.

Lemma set_intersect_says : forall debug v v' a b l m r rx, vready v -> set_intersect_verify o debug v a b l m r rx = Ok v' -> let n := Nat.max (bc_nv l) (bc_nv r) + 1 in
  exists h1 h2 cp cs h g g1 g2 q mm, Forall (received v v') [cp; cs; q; mm] /\ sound v v' [h1; h2; h; g; g1; g2] (fun A N V => 2 ^ N < fsize p -> n <= N -> Nat.max (bc_nv l) (bc_nv m) + 1 <= N -> Nat.max (bc_nv m) (bc_nv r) + 1 <= N -> fst (A cp) <= n -> fst (A cs) <= n ->
    forall al asl bl bsl ll lsl ml msl sl ssl rl, plist_bag A V N a al asl -> plist_bag A V N b bl bsl -> plist_bag A V N l ll lsl -> plist_bag A V N m ml msl -> plist_bag A V N r sl ssl -> plist A V N (bc_poly rx) (bc_nv rx) rl ->
    let cl := column A n cp in let csl := column A n cs in boolean asl -> boolean bsl -> boolean lsl -> boolean msl -> boolean ssl -> boolean csl -> small_range rl n ->
    ~ unlucky (combine ll lsl ++ combine ml msl) (combine al asl) h1 -> ~ unlucky (combine ml msl ++ combine sl ssl) (combine bl bsl) h2 ->
    ~ unlucky (combine ll lsl ++ combine sl ssl) (combine cl csl) h -> sort_lucky A N n (bc_nv rx) q mm cl rl g g1 g2 ->
    forall x, In x (rows ml msl) <-> In x (rows al asl) /\ In x (rows bl bsl)).
Proof.
  intros debug v v' a b l m r rx R H n. unfold set_intersect_verify in H.
  destruct (bag_sum_verify _ _ _ _ _ _) as [v1| |] eqn:E1 in H; cbn [bind] in H; try discriminate. destruct (sum_says o Hp H2 _ _ _ _ _ _ R E1) as [h1 S1].
  destruct (bag_sum_verify _ _ _ _ _ _) as [v2| |] eqn:E2 in H; cbn [bind] in H; try discriminate. destruct (sum_says o Hp H2 _ _ _ _ _ _ (sound_ready _ _ _ _ S1) E2) as [h2 S2].
  destruct (set_disjoint_says _ _ _ _ _ _ (sound_ready _ _ _ _ S2) H) as [cp [cs [h [g [g1 [g2 [q [mm [RR S3]]]]]]]]]. fold n in S3.
  pose proof (sound_seq _ _ _ _ _ _ _ S1 S2) as S12. pose proof (sound_seq _ _ _ _ _ _ _ S2 S3) as S23. exists h1, h2, cp, cs, h, g, g1, g2, q, mm.
  split; [eapply Forall_impl; [|exact RR]; intros i Hi; eapply received_down; eassumption|]. eapply sound_imp; [exact (sound_seq _ _ _ _ _ _ _ S1 S23)|]. cbv beta.
  intros A N V Sv [Q1 [Q2 Q3]] HN Hn Hn1 Hn2 F1 F2 al asl bl bsl ll lsl ml msl sl ssl rl Ba Bb Bl Bm Bs Pr. cbv zeta. intros Ha Hb Hl Hm Hs Hc Hr U1 U2 U3 HL.
  pose proof (Q1 _ _ _ _ _ _ Bl Bm Ba U1) as W1. pose proof (Q2 _ _ _ _ _ _ Bm Bs Bb U2) as W2. specialize (Q3 HN Hn F1 F2 _ _ _ _ _ Bl Bs Pr). cbv zeta in Q3. specialize (Q3 Hl Hs Hc Hr U3 HL).
  destruct (bag_lens _ _ _ _ _ _ Ba) as [La1 La2]. destruct (bag_lens _ _ _ _ _ _ Bb) as [Lb1 Lb2]. destruct (bag_lens _ _ _ _ _ _ Bl) as [Ll1 Ll2]. destruct (bag_lens _ _ _ _ _ _ Bm) as [Lm1 Lm2]. destruct (bag_lens _ _ _ _ _ _ Bs) as [Ls1 Ls2].
  assert (P1 : Permutation (rows ll lsl ++ rows ml msl) (rows al asl)) by (apply sum_rows; auto; try congruence; [eapply two_fit; [exact HN|exact Hn1|apply Bl|apply Bm]|eapply (pl_fits H2); [exact HN|apply Ba]]).
  assert (P2 : Permutation (rows ml msl ++ rows sl ssl) (rows bl bsl)) by (apply sum_rows; auto; try congruence; [eapply two_fit; [exact HN|exact Hn2|apply Bm|apply Bs]|eapply (pl_fits H2); [exact HN|apply Bb]]).
  intros x. split.
  - intros Hx. split; [eapply Permutation_in; [exact P1|apply in_or_app; right; exact Hx]|eapply Permutation_in; [exact P2|apply in_or_app; left; exact Hx]].
  - intros [Hx Hy]. apply (Permutation_in _ (Permutation_sym P1)) in Hx. apply (Permutation_in _ (Permutation_sym P2)) in Hy. apply in_app_or in Hx, Hy.
    destruct Hx as [Hx|Hx]; [|exact Hx]. destruct Hy as [Hy|Hy]; [exact Hy|]. exfalso. exact (apart_app _ _ _ Q3 Hx Hy).
Qed.

(** ** Join reduction *)

Lemma disjoint_says' : forall debug v v' a b rx, vready v -> bag_disjoint_verify o debug v a b rx = Ok v' -> let n := Nat.max (bc_nv a) (bc_nv b) + 1 in
  exists ids ds, Forall (received v v') ids /\ sound v v' ds (fun A N V => 2 ^ N < fsize p -> n <= N -> disjoint_sized A n ids ->
    forall l sl l' sl' rl, plist_bag A V N a l sl -> plist_bag A V N b l' sl' -> plist A V N (bc_poly rx) (bc_nv rx) rl ->
    boolean sl -> boolean sl' -> small_range rl n -> disjoint_lucky A N n (bc_nv rx) l sl l' sl' rl ids ds ->
    forall x, In x (rows l sl) -> In x (rows l' sl') -> False).
Proof.
  intros debug v v' a b rx R H n. destruct (disjoint_says o Hp H2 _ _ _ _ _ _ R H) as [cp [cs [ma [mb [g [g1 [g2 [h [h' [q [mm [RR S]]]]]]]]]]]]. fold n in S.
  exists [cp; cs; ma; mb; q; mm], [g; g1; g2; h; h']. split; [exact RR|]. eapply sound_imp; [exact S|]. cbv beta. intros A N V Sv Q HN Hn [_ Hz] l sl l' sl' rl Ba Bb Pr B1 B3 Hr [L1 [L3 L4]]. cbn [firstn] in Hz.
  specialize (Q HN Hn Hz _ _ _ _ _ Ba Bb Pr). cbv zeta in Q. exact (Q B1 B3 Hr L1 L3 L4).
Qed.

Lemma join_split : forall (al asl lsl : list (F p)) x, length asl = length al -> length lsl = length al -> boolean lsl -> In x (rows al asl) -> In x (rows al (both asl lsl)) \/ In x (rows al (both asl (opposite lsl))).
Proof.
  intros al asl lsl x H1 H3 Hb Hx. apply rows_In in Hx; [|lia]. destruct Hx as [k [K1 [K3 K4]]]. assert (Hk : nth k lsl F0 = F0 \/ nth k lsl F0 = F1) by (unfold boolean in Hb; rewrite Forall_forall in Hb; apply Hb; apply nth_In; lia).
  pose proof (F1_neq_0 Hp) as N1. destruct Hk as [Hk|Hk]; [right|left]; (apply rows_In; [rewrite both_len; rewrite ?opp_len; lia|]; exists k; split; [exact K1|split; [exact K3|]]; rewrite both_nth by (rewrite ?opp_len; lia)); rewrite ?opp_nth by lia; rewrite Hk.
  - replace (F1 - F0)%F with (F1 (p:=p)) by ring. replace (nth k asl F0 * F1)%F with (nth k asl F0) by ring. exact K4.
  - replace (nth k asl F0 * F1)%F with (nth k asl F0) by ring. exact K4.
Qed.
Lemma join_marks : forall al asl lsl bl bsl rsl : list (F p), length asl = length al -> length lsl = length al -> length bsl = length bl -> length rsl = length bl -> boolean lsl -> boolean rsl ->
  (forall x, In x (rows al (both asl lsl)) -> In x (rows bl (both bsl rsl)) -> False) -> (forall x, In x (rows al (both asl lsl)) -> In x (rows al (both asl (opposite lsl))) -> False) ->
  incl (rows al (both asl (opposite lsl))) (rows bl (both bsl (opposite rsl))) -> incl (rows bl (both bsl (opposite rsl))) (rows al (both asl (opposite lsl))) -> marks al asl lsl bl bsl.
Proof.
  intros al asl lsl bl bsl rsl La Ll Lb Lr Bl Br D1 D2 I1 I2 k Hk Hs. pose proof (F1_neq_0 Hp) as N1.
  assert (Hl : nth k lsl F0 = F0 \/ nth k lsl F0 = F1) by (unfold boolean in Bl; rewrite Forall_forall in Bl; apply Bl; apply nth_In; lia). destruct Hl as [Hl|Hl]; [right|left]; (split; [exact Hl|]).
  - assert (X : In (nth k al F0) (rows al (both asl (opposite lsl)))).
    { apply rows_In; [rewrite both_len; rewrite ?opp_len; lia|]. exists k. split; [exact Hk|]. split; [reflexivity|]. rewrite both_nth, opp_nth, Hl by (rewrite ?opp_len; lia). replace (nth k asl F0 * (F1 - F0))%F with (nth k asl F0) by ring. exact Hs. }
    apply I1 in X. apply rows_In in X; [|rewrite both_len; rewrite ?opp_len; lia]. destruct X as [r [R1 [R2 R3]]]. apply rows_In; [lia|]. exists r. split; [exact R1|]. split; [exact R2|]. intros Z. apply R3. rewrite both_nth by (rewrite ?opp_len; lia). rewrite Z. ring.
  - intros X. assert (Y : In (nth k al F0) (rows al (both asl lsl))).
    { apply rows_In; [rewrite both_len; lia|]. exists k. split; [exact Hk|]. split; [reflexivity|]. rewrite both_nth, Hl by lia. replace (nth k asl F0 * F1)%F with (nth k asl F0) by ring. exact Hs. }
    destruct (join_split bl bsl rsl _ Lb Lr Br X) as [Z|Z]; [exact (D1 _ Y Z)|]. exact (D2 _ Y (I2 _ Z)).
Qed.

Lemma join_reduction_says : forall debug v v' a b ls rs rx, vready v -> join_reduction_verify o debug v a b ls rs rx = Ok v' ->
  let na := bc_nv a in let nb := bc_nv b in let n := Nat.max na nb + 1 in
  exists i1 i2 i3 m1 m2 d1 d2 d3 h1 h2, Forall (received v v') (i1 ++ i2 ++ i3 ++ [m1; m2]) /\ sound v v' (d1 ++ d2 ++ d3 ++ [h1; h2]) (fun A N V => 2 ^ N < fsize p -> n <= N ->
    disjoint_sized A n i1 -> disjoint_sized A (na + 1) i2 -> disjoint_sized A (nb + 1) i3 ->
    forall al asl bl bsl lsl rsl rl, plist_bag A V N a al asl -> plist_bag A V N b bl bsl -> plist A V N ls na lsl -> plist A V N rs nb rsl -> plist A V N (bc_poly rx) (bc_nv rx) rl ->
    boolean asl -> boolean bsl -> small_range rl n ->
    let al' := both asl lsl in let bl' := both bsl rsl in let am := both asl (opposite lsl) in let bm := both bsl (opposite rsl) in
    disjoint_lucky A N n (bc_nv rx) al al' bl bl' rl i1 d1 -> disjoint_lucky A N (na + 1) (bc_nv rx) al al' al am rl i2 d2 -> disjoint_lucky A N (nb + 1) (bc_nv rx) bl bl' bl bm rl i3 d3 ->
    ~ unlucky (combine al am) (wcol bl bm (averaged A N m1 nb)) h1 -> ~ unlucky (combine bl bm) (wcol al am (averaged A N m2 na)) h2 ->
    boolean lsl /\ boolean rsl /\ marks al asl lsl bl bsl /\ marks bl bsl rsl al asl).
Proof.
  intros debug v v' a b ls rs rx R H na nb n. unfold join_reduction_verify, one_minus_verify in H. pose proof (vgo_refl v R) as G.
  match type of H with context [v_mul_scalar v ls ?c] => vone G (v_mul_scalar v ls c) (VMulS ls c) end. vadds G H.
  match type of H with context [v_mul_scalar ?u rs ?c] => vone G (v_mul_scalar u rs c) (VMulS rs c) end. vadds G H. do 4 vvirt G H.
  match goal with X : vgo v ?w [] |- _ => set (v0 := w) in *; rename X into G0 end. pose proof (y_ready _ _ _ G0) as R0.
  destruct (selector_valid_verify _ _) as [v1| |] eqn:E1 in H; cbn [bind] in H; try discriminate. pose proof (sel_says Hp H2 _ _ _ R0 E1) as S1.
  destruct (selector_valid_verify _ _) as [v2| |] eqn:E2 in H; cbn [bind] in H; try discriminate. pose proof (sel_says Hp H2 _ _ _ (sound_ready _ _ _ _ S1) E2) as S2.
  destruct (bag_disjoint_verify _ _ _ _ _ _) as [v3| |] eqn:E3 in H; cbn [bind] in H; try discriminate. destruct (disjoint_says' _ _ _ _ _ _ (sound_ready _ _ _ _ S2) E3) as [j1 [d1 [R3 S3]]].
  destruct (bag_disjoint_verify _ _ _ _ _ _) as [v4| |] eqn:E4 in H; cbn [bind] in H; try discriminate. destruct (disjoint_says' _ _ _ _ _ _ (sound_ready _ _ _ _ S3) E4) as [j2 [d2 [R4 S4]]].
  destruct (bag_disjoint_verify _ _ _ _ _ _) as [v5| |] eqn:E5 in H; cbn [bind] in H; try discriminate. destruct (disjoint_says' _ _ _ _ _ _ (sound_ready _ _ _ _ S4) E5) as [j3 [d3 [R5 S5]]].
  destruct (inclusion_verify _ _ _ _ _) as [v6| |] eqn:E6 in H; cbn [bind] in H; try discriminate. destruct (incl_says o Hp H2 _ _ _ _ _ (sound_ready _ _ _ _ S5) E6) as [h1 [m1 [R6 S6]]].
  destruct (incl_says o Hp H2 _ _ _ _ _ (sound_ready _ _ _ _ S6) H) as [h2 [m2 [R7 S7]]]. cbn [bc_nv] in S3, S4, S5, S6, S7. fold na nb in S3, S4, S5, S6, S7. fold n in S3. rewrite Nat.max_id in S4, S5.
  pose proof (sound_seq _ _ _ _ _ _ _ S6 S7) as S67. pose proof (sound_seq _ _ _ _ _ _ _ S5 S67) as S57. pose proof (sound_seq _ _ _ _ _ _ _ S4 S57) as S47. pose proof (sound_seq _ _ _ _ _ _ _ S3 S47) as S37.
  pose proof (sound_seq _ _ _ _ _ _ _ S2 S37) as S27. pose proof (sound_seq _ _ _ _ _ _ _ S1 S27) as S17. pose proof (go_sound _ _ _ G0) as S0. pose proof (sound_seq _ _ _ _ _ _ _ S0 S17) as S07.
  pose proof (sound_seq _ _ _ _ _ _ _ S0 S1) as S01. pose proof (sound_seq _ _ _ _ _ _ _ S01 S2) as S02. pose proof (sound_seq _ _ _ _ _ _ _ S02 S3) as S03. pose proof (sound_seq _ _ _ _ _ _ _ S03 S4) as S04. pose proof (sound_seq _ _ _ _ _ _ _ S04 S5) as S05. pose proof (sound_seq _ _ _ _ _ _ _ S05 S6) as S06.
  exists j1, j2, j3, m1, m2, d1, d2, d3, h1, h2. split.
  { repeat (apply Forall_app; split).
    - eapply Forall_impl; [|exact R3]. intros z Hi. eapply received_down; [exact S02|eapply received_up; [exact Hi|exact S47]].
    - eapply Forall_impl; [|exact R4]. intros z Hi. eapply received_down; [exact S03|eapply received_up; [exact Hi|exact S57]].
    - eapply Forall_impl; [|exact R5]. intros z Hi. eapply received_down; [exact S04|eapply received_up; [exact Hi|exact S67]].
    - constructor; [eapply received_down; [exact S05|eapply received_up; [exact R6|exact S7]]|]. constructor; [eapply received_down; [exact S06|exact R7]|constructor]. }
  eapply sound_imp; [exact S07|]. cbv beta. intros A N V Sv [_ [Q1 [Q2 [Q3 [Q4 [Q5 [Q6 Q7]]]]]]] HN Hn Z1 Z2 Z3 al asl bl bsl lsl rsl rl Ba Bb Pl Pr Px Ha Hb Hr. cbv zeta. intros K1 K2 K3 U1 U2.
  destruct S17 as [G17 _]. pose proof (sub_trans _ _ _ (y_sub _ _ _ G17) Sv) as Sv0. lift Sv0. pose proof (Q1 _ _ Pl) as Bl. pose proof (Q2 _ _ Pr) as Br.
  destruct (bag_lens _ _ _ _ _ _ Ba) as [La1 La2]. destruct (bag_lens _ _ _ _ _ _ Bb) as [Lb1 Lb2]. pose proof (pl_len _ _ _ _ _ _ Pl) as Ll. pose proof (pl_len _ _ _ _ _ _ Pr) as Lr. fold na in La1, La2. fold nb in Lb1, Lb2.
  destruct Ba as [Ba1 Ba2], Bb as [Bb1 Bb2].
  pose proof (plist_not _ _ _ _ _ _ _ _ Im Im0 Pl) as Pnl. pose proof (plist_not _ _ _ _ _ _ _ _ Im1 Im2 Pr) as Pnr.
  pose proof (plist_mul _ _ _ _ _ _ _ _ _ Im3 Ba2 Pl) as P1. pose proof (plist_mul _ _ _ _ _ _ _ _ _ Im4 Bb2 Pr) as P2. pose proof (plist_mul _ _ _ _ _ _ _ _ _ Im5 Ba2 Pnl) as P3. pose proof (plist_mul _ _ _ _ _ _ _ _ _ Im6 Bb2 Pnr) as P4.
  assert (bl1 : boolean (both asl lsl)) by (apply bool_both; [congruence|assumption|assumption]). assert (bl2 : boolean (both bsl rsl)) by (apply bool_both; [congruence|assumption|assumption]).
  assert (bl3 : boolean (both asl (opposite lsl))) by (apply bool_both; [rewrite opp_len; congruence|assumption|apply bool_opp; assumption]). assert (bl4 : boolean (both bsl (opposite rsl))) by (apply bool_both; [rewrite opp_len; congruence|assumption|apply bool_opp; assumption]).
  assert (sr : forall m, m <= n -> small_range rl m).
  { intros m Hm. destruct Hr as [B [B1 B3]]. exists B. split; [exact B1|]. eapply Z.le_lt_trans; [|exact B3]. apply inj_le. apply Nat.mul_le_mono_r. pose proof (Nat.pow_le_mono_r 2 m n ltac:(lia) Hm). lia. }
  pose proof (Q3 HN Hn Z1 al (both asl lsl) bl (both bsl rsl) rl (conj Ba1 P1) (conj Bb1 P2) Px bl1 bl2 Hr K1) as D1.
  pose proof (Q4 HN ltac:(lia) Z2 al (both asl lsl) al (both asl (opposite lsl)) rl (conj Ba1 P1) (conj Ba1 P3) Px bl1 bl3 (sr (na + 1) ltac:(lia)) K2) as D2.
  pose proof (Q5 HN ltac:(lia) Z3 bl (both bsl rsl) bl (both bsl (opposite rsl)) rl (conj Bb1 P2) (conj Bb1 P4) Px bl2 bl4 (sr (nb + 1) ltac:(lia)) K3) as D3.
  pose proof (Q6 al (both asl (opposite lsl)) bl (both bsl (opposite rsl)) (conj Ba1 P3) (conj Bb1 P4) U1) as I1. pose proof (Q7 bl (both bsl (opposite rsl)) al (both asl (opposite lsl)) (conj Bb1 P4) (conj Ba1 P3) U2) as I2.
  assert (Lm : forall j k, length (averaged A N j k) = 2 ^ k) by (intros; unfold averaged; rewrite map_length, seq_length; reflexivity).
  assert (J1 : incl (rows al (both asl (opposite lsl))) (rows bl (both bsl (opposite rsl)))).
  { rewrite <- wcol_one in I1 by (rewrite both_len; rewrite ?opp_len; congruence). refine (inclusion_rows Hp _ _ _ _ _ _ _ _ _ _ I1); try assumption; rewrite ?both_len, ?Lm by (rewrite ?opp_len; congruence); try congruence. eapply (pl_fits H2); [exact HN|exact Ba1]. }
  assert (J2 : incl (rows bl (both bsl (opposite rsl))) (rows al (both asl (opposite lsl)))).
  { rewrite <- wcol_one in I2 by (rewrite both_len; rewrite ?opp_len; congruence). refine (inclusion_rows Hp _ _ _ _ _ _ _ _ _ _ I2); try assumption; rewrite ?both_len, ?Lm by (rewrite ?opp_len; congruence); try congruence. eapply (pl_fits H2); [exact HN|exact Bb1]. }
  split; [exact Bl|]. split; [exact Br|]. split.
  - apply (join_marks al asl lsl bl bsl rsl); try assumption; congruence.
  - apply (join_marks bl bsl rsl al asl lsl); try assumption; try congruence. intros x X1 X2. exact (D1 x X2 X1).
Qed.
End P.
