(** What the verifier's folded rows are read as. *)
From Coq Require Import String List Arith Lia Bool ZArith Znumtheory Permutation.
Import ListNotations.
From Verif Require Import Res ResLemmas Fp FSum SpecMle MleLemmas SpecPoly SpecTracker SpecIop SpecRel ModelMle ModelTranscript Pairing ModelKzg ModelProver ModelVerifier ModelAdvice ModelIop
  ProverHist VerifierHist IopHist BagLemmas IopVer IopSound IopSound2 CompSound CompSound2 CompSound3 CompClaims.
Local Open Scope list_scope.
Local Open Scope nat_scope.
#[local] Opaque track_virtual v_add_scalar.

Section P.
Context {p : positive} {E : pairing p}.
Implicit Types (v : vtrk E) (A : reading (p:=p)).
Add Ring Fr : (@F_ring p).

Lemma reads_sub : forall A N v v' id n l, sub_map (vt_virt v) (vt_virt v') -> reads A N v id n l -> reads A N v' id n l.
Proof. intros A N v v' id n l S [H1 [H3 H]]. split; [exact H1|]. split; [exact H3|]. intros j Hj. eapply means_mono; [exact S|auto]. Qed.
Lemma mod_lt : forall j n, j mod 2 ^ n < 2 ^ n. Proof. intros. apply Nat.mod_upper_bound. apply Nat.pow_nonzero. lia. Qed.
Lemma reads_mul : forall A N v i a b n l l', mget (vt_virt v) i = Some (VMul a b) -> reads A N v a n l -> reads A N v b n l' -> reads A N v i n (both l l').
Proof.
  intros A N v i a b n l l' H [L1 [L2 L3]] [_ [M2 M3]]. split; [exact L1|]. split; [rewrite both_len; lia|]. intros j Hj. rewrite both_nth; [|lia|rewrite L2; apply mod_lt]. eapply me_mul; eauto.
Qed.
Lemma reads_scale : forall A N v i a r n l, mget (vt_virt v) i = Some (VMulS a r) -> reads A N v a n l -> reads A N v i n (map (fun x => (r * x)%F) l).
Proof.
  intros A N v i a r n l H [L1 [L2 L3]]. split; [exact L1|]. split; [rewrite map_length; exact L2|]. intros j Hj.
  rewrite (nth_indep (map _ l) F0 (r * F0)%F) by (rewrite map_length, L2; apply mod_lt). rewrite (map_nth (fun x => (r * x)%F)). eapply me_muls; eauto.
Qed.
Lemma agg_reads : forall cols v acc rs i v' A N n accl ls, vready v -> agg_comms v acc cols rs = Ok (i, v') -> reads A N v acc n accl -> Forall2 (fun id l => reads A N v id n l) cols ls ->
  reads A N v' i n (aggfold accl ls rs).
Proof.
  induction cols as [|c cols IH]; intros v acc rs i v' A N n accl ls R H Ha Hl; cbn [agg_comms] in H.
  - apply Okinj in H. inversion H; subst. inversion Hl; subst. exact Ha.
  - destruct rs as [|r rs]; [discriminate|]. pose proof (vgo_refl v R) as G. vvirt G H. vvirt G H. inversion Hl as [|c' l cs' ls' Hc Hls]; subst. cbn [aggfold].
    pose proof (y_sub _ _ _ G) as S. eapply (IH _ _ _ _ _ _ _ _ _ _ (y_ready _ _ _ G) H).
    + eapply reads_mul; [exact Im0|exact (reads_sub _ _ _ _ _ _ _ S Ha)|]. eapply reads_scale; [exact Im|exact (reads_sub _ _ _ _ _ _ _ S Hc)].
    + eapply Forall2_imp'; [|exact Hls]. cbv beta. intros x y Hx. eapply reads_sub; [exact S|exact Hx].
Qed.
Lemma row_agg_reads : prime (Zpos p) -> 2 < fsize p -> forall v, vready v -> forall A N t rs b v' cols sl, row_agg_verify v t rs = Ok (b, v') -> table_reads A N v t cols sl ->
  bc_sel b = tc_sel t /\ bc_nv b = tc_nv t /\ reads A N v' (bc_poly b) (tc_nv t) (aggregated rs cols sl).
Proof.
  intros Hp H2 v R A N t rs b v' cols sl H [T1 T2]. unfold row_agg_verify in H. destruct (agg_comms _ _ _ _) as [[i v1]| |] eqn:E1; cbn [bind] in H; try discriminate. apply Okinj in H. inversion H; subst. cbn [bc_sel bc_nv bc_poly].
  split; [reflexivity|]. split; [reflexivity|]. rewrite <- (aggfold_is) by (first [assumption|destruct T2 as [_ [T2 _]]; rewrite T2; clear -T1; induction T1 as [|x y lx ly H1 H2 IH]; constructor; [apply H1|exact IH]]); eapply agg_reads; eauto.
Qed.
Lemma agg_short : forall cols v acc rs, length rs < length cols -> agg_comms (E:=E) v acc cols rs = Panic.
Proof. induction cols as [|c cols IH]; intros v acc rs H; cbn in H; [lia|]. destruct rs as [|r rs]; [reflexivity|]. cbn [agg_comms]. destruct (v_mul_scalar v c r) as [x v1]. destruct (mul_comms v1 acc x) as [y v2]. apply IH. cbn in H. lia. Qed.
Lemma row_agg_short : forall v t rs, length rs < length (tc_cols t) -> row_agg_verify (E:=E) v t rs = Panic.
Proof. intros v t rs H. unfold row_agg_verify. rewrite agg_short by exact H. reflexivity. Qed.

(** Rows with the same entries in another order are folded into the same value. *)
Lemma prod_split' : forall (rs xs : list (F p)), length rs = length xs -> Fprod (map (fun rx => (fst rx * snd rx)%F) (combine rs xs)) = (Fprod rs * Fprod xs)%F.
Proof. induction rs as [|r rs IH]; intros [|x xs] H; cbn in H; try discriminate; cbn [combine map]; rewrite ?Fprod_cons, ?Fprod_nil; [ring|]. cbn [fst snd]. rewrite IH by lia. ring. Qed.
Lemma agg_collide : forall rs (cols : list (list (F p))) sl j k, length rs = length cols -> j < length sl -> k < length sl -> nth j sl F0 = nth k sl F0 -> Permutation (row cols j) (row cols k) ->
  nth j (aggregated rs cols sl) F0 = nth k (aggregated rs cols sl) F0.
Proof.
  intros rs cols sl j k L Hj Hk Hs HP. unfold aggregated. rewrite !(nth_map_seq (fun k => (nth k sl F0 * Fprod (map (fun rx => (fst rx * snd rx)%F) (combine rs (row cols k))))%F)) by assumption.
  rewrite !prod_split' by (unfold row; rewrite map_length; exact L). rewrite Hs, (Fprod_perm _ _ HP). reflexivity.
Qed.
End P.

(** The result of grouping has a column for the keys and one per count, and none for the sums. *)
Section G.
Context {p : positive} {E : pairing p}.
Variable o : oracle p (gcar (PG1 E)).
Lemma gb_prove_cols : forall t pre grp mult ins cols (s : ptrk E) cols' s', foldM (gb_agg_prove o t pre grp mult) (cols, s) ins = Ok (cols', s') ->
  length cols' = length cols + length (filter (fun i => match snd (fst i) with AggCount => true | _ => false end) ins) /\ Forall (fun i => snd (fst i) = AggCount \/ snd (fst i) = AggSum) ins.
Proof.
  intros t pre grp mult. induction ins as [|[[c k] a] ins IH]; intros cols s cols' s' H; cbn [foldM] in H.
  - injection H as <- _. cbn. split; [lia|constructor].
  - unfold gb_agg_prove in H at 1. destruct k; cbn [bind] in H; try discriminate.
    + destruct (IH _ _ _ _ H) as [L FF]. cbn [fst snd] in L. split; [rewrite L, app_length; cbn; lia|constructor; [left; reflexivity|exact FF]].
    + destruct (rnth (t_cols t) c) as [q| |]; cbn [bind] in H; try discriminate. destruct (multitool_prove o _ _ _ _ _) as [s1| |]; cbn [bind] in H; try discriminate. destruct (IH _ _ _ _ H) as [L FF]. cbn [fst snd] in L. split; [rewrite L; cbn; lia|constructor; [right; reflexivity|exact FF]].
Qed.
Lemma gb_verify_cols : forall debug t pre grp mult ins cols (v : vtrk E) cols' v', foldM (gb_agg_verify o debug t pre grp mult) (cols, v) ins = Ok (cols', v') ->
  length cols' = length cols + counts_in ins /\ Forall agg_ok ins.
Proof.
  intros debug t pre grp mult. unfold counts_in. induction ins as [|[[c k] a] ins IH]; intros cols s cols' s' H; cbn [foldM] in H.
  - injection H as <- _. cbn. split; [lia|constructor].
  - unfold gb_agg_verify in H at 1. destruct k; cbn [bind] in H; try discriminate.
    + destruct (IH _ _ _ _ H) as [L FF]. cbn [fst snd] in L. split; [rewrite L, app_length; cbn; lia|constructor; [left; reflexivity|exact FF]].
    + destruct (rnth (tc_cols t) c) as [q| |]; cbn [bind] in H; try discriminate. destruct (multitool_verify o _ _ _ _ _ _) as [s1| |]; cbn [bind] in H; try discriminate. destruct (IH _ _ _ _ H) as [L FF]. cbn [fst snd] in L. split; [rewrite L; cbn; lia|constructor; [right; reflexivity|exact FF]].
Qed.
Lemma filter_strict : forall X (f : X -> bool) l, (exists x, In x l /\ f x = false) -> length (filter f l) < length l.
Proof.
  intros X f l [x [Hx Hf]]. induction l as [|y l IH]; [destruct Hx|]. assert (Q : forall l, length (filter f l) <= length l) by (induction l0 as [|z l0 I]; cbn; [lia|destruct (f z); cbn; lia]). cbn [filter]. destruct Hx as [->|Hx].
  - rewrite Hf. specialize (Q l). cbn. lia.
  - specialize (IH Hx). destruct (f y); cbn; lia.
Qed.
Lemma group_by_prover_cols : forall debug (s : ptrk E) t gi range res s', group_by_prove o debug s t gi range = Ok (res, s') -> In AggSum (map (fun i => snd (fst i)) (gp_agg gi)) -> length (t_cols res) < 1 + length (gp_agg gi).
Proof.
  intros debug s t gi range res s' H Hs. unfold group_by_prove in H.
  repeat match type of H with bind ?r _ = Ok _ => let Q := fresh "Q" in destruct r as [?q| |] eqn:Q; cbn [bind] in H; try discriminate end. destruct q6 as [cols s1]. injection H as <- <-. cbn [t_cols].
  assert (Hq : length (t_cols q5) = 1). { unfold table_new in Q5. destruct (if debug then _ else _); cbn [bind] in Q5; try discriminate. injection Q5 as <-. reflexivity. }
  destruct (gb_prove_cols _ _ _ _ _ _ _ _ _ Q6) as [L _]. rewrite L, Hq. apply -> Nat.add_lt_mono_l. apply filter_strict. apply in_map_iff in Hs. destruct Hs as [i [Hi Hin]]. exists i. split; [exact Hin|]. rewrite Hi. reflexivity.
Qed.
Lemma group_by_verifier_cols : forall debug (v : vtrk E) t gi range res v', group_by_verify o debug v t gi range = Ok (res, v') -> In AggSum (map (fun i => snd (fst i)) (gv_agg gi)) -> length (tc_cols res) < 1 + length (gv_agg gi).
Proof.
  intros debug v t gi range res v' H Hs. unfold group_by_verify in H. cbv zeta in H.
  repeat match type of H with bind ?r _ = Ok _ => let Q := fresh "Q" in destruct r as [?q| |] eqn:Q; cbn [bind] in H; try discriminate end. destruct q3 as [cols s1]. injection H as <- <-. cbn [tc_cols].
  destruct (gb_verify_cols _ _ _ _ _ _ _ _ _ _ Q3) as [L _]. rewrite L. cbn [length]. apply -> Nat.add_lt_mono_l. apply filter_strict. apply in_map_iff in Hs. destruct Hs as [i [Hi Hin]]. exists i. split; [exact Hin|]. rewrite Hi. reflexivity.
Qed.
Lemma group_by_unsupported : forall debug (v : vtrk E) t gi range res v', group_by_verify o debug v t gi range = Ok (res, v') -> Forall agg_ok (gv_agg gi).
Proof.
  intros debug v t gi range res v' H. unfold group_by_verify in H. cbv zeta in H.
  repeat match type of H with bind ?r _ = Ok _ => let Q := fresh "Q" in destruct r as [?q| |] eqn:Q; cbn [bind] in H; try discriminate end. destruct q3 as [cols s1]. destruct (gb_verify_cols _ _ _ _ _ _ _ _ _ _ Q3) as [_ L]. exact L.
Qed.
End G.
