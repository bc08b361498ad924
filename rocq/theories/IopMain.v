(** From a world reached by a protocol to the checked proof. *)
From Coq Require Import String List Arith Lia Bool ZArith Znumtheory.
Import ListNotations.
From Verif Require Import Res ResLemmas Fp FSum SpecMle SpecKzg SpecPoly SpecSumcheck SpecBatch SpecTracker SpecIop ModelMle MleLemmas MleProofs MleExtra ModelVp ModelTranscript ModelSumcheck
  Pairing ModelKzg KzgProofs KzgExtra ModelBatch ModelProver ModelVerifier ModelIop ProverHist VerifierHist CompileHist IopHist TmapLemmas ProverProofs ProverExtra ProverStep
  DegreeProofs HistExtra LockProofs VerifierExtra CompileMain CompileSound IopWorld IopInit.
Local Open Scope string_scope.
Local Open Scope list_scope.
Local Open Scope nat_scope.

Section M.
Context {p : positive} {E : pairing p}.
Hypothesis HE : pairing_laws E.
Hypothesis Hp : prime (Zpos p).
Notation comm := (gcar (PG1 E)).
Implicit Types (w : wd (E:=E)) (v : vtrk E).

Add Ring Fr : (@F_ring p).

(** The tables of the prover, as a reading. *)
Lemma held_tabled : forall s : ptrk E, tabled (held s) s.
Proof. intros s id [a m] H. unfold held. rewrite H. split; [reflexivity|intros j; reflexivity]. Qed.
Lemma held_old : forall (s s' : ptrk E), (forall id a, mget (pt_mat s) id = Some a -> mget (pt_mat s') id = Some a) -> tabled (held s') s.
Proof. intros s s' X id a H. apply held_tabled. apply X. exact H. Qed.

Lemma periodic_sum : forall m q (l : list (F p)), length l = m -> 0 < m -> Fsum (map (fun j => nth (j mod m) l F0) (seq 0 (m * q))) = (ofN q * Fsum l)%F.
Proof.
  intros m q l Hl Hm. induction q as [|q IH].
  - rewrite Nat.mul_0_r. change (F0 = ofN 0 * Fsum l)%F. rewrite ofN_0. ring.
  - rewrite Nat.mul_succ_r, seq_app, map_app, Fsum_app, IH. cbn [Nat.add]. rewrite <- seq_shift_add, map_map.
    replace (map (fun x => nth ((x + m * q) mod m) l F0) (seq 0 m)) with l.
    + rewrite ofN_S. ring.
    + apply (nth_ext _ _ F0 F0); [rewrite map_length, seq_length; exact Hl|]. intros i Hi. rewrite (nth_map_seq (fun x => nth ((x + m * q) mod m) l F0)) by lia.
      rewrite (Nat.mul_comm m q), Nat.mod_add, Nat.mod_small by lia. reflexivity.
Qed.

(** A verifier in step with a prover whose zero claims are true has collected true claims only. *)
Lemma lk_claims : forall o ck k D cp vk w v N, good o ck k D w -> zeros_hold (wo w) -> lk (cp, held (ws w), N) vk w v -> cov (cp, held (ws w), N) N w -> claims_hold (held (ws w)) N v.
Proof.
  intros o ck k D cp vk w v N G Z L [_ [C2 _]]. destruct (hist_calls o ck _ _ _ (g_run _ _ _ _ w G)) as [Zc [Sc [_ Lc]]]. split.
  - intros id Hid j Hj. rewrite (k_zc _ _ _ _ L), Zc in Hid. apply in_map_iff in Hid. destruct Hid as [i [<- Hi]].
    assert (Hl : i < length (wh w)) by (apply Lc; auto). destruct (nth_error (wh w) i) as [h|] eqn:Hh; [|apply nth_error_None in Hh; lia]. rewrite (nth_error_nth _ _ dh Hh).
    destruct (k_read _ _ _ _ L i h Hh) as [_ [_ X]]. specialize (X j). cbn [fst snd] in X. pose proof (Z i Hi) as Zi. rewrite Forall_forall in Zi.
    match type of X with means _ _ _ _ _ ?y => replace y with (@F0 p) in X; [exact X|] end. symmetry.
    destruct (Nat.lt_ge_cases (j mod 2 ^ tp_nv h) (length (corners (poly_at (wo w) i)))) as [Hlt|Hge]; [apply Zi; apply nth_In; exact Hlt|apply nth_overflow; exact Hge].
  - intros id c Hid. pose proof (k_sums _ _ _ _ L id c Hid) as Hc. cbn [fst] in Hc. assert (In id (map fst (vt_sc v))) as Hin by (apply in_map_iff; exists (id, c); auto).
    rewrite (k_sc _ _ _ _ L), Sc in Hin. apply in_map_iff in Hin. destruct Hin as [i [<- Hi]].
    assert (Hl : i < length (wh w)) by (apply Lc; auto). destruct (nth_error (wh w) i) as [h|] eqn:Hh; [|apply nth_error_None in Hh; lia]. rewrite (nth_error_nth _ _ dh Hh) in *.
    destruct (k_read _ _ _ _ L i h Hh) as [X1 [X2 X]]. cbn [fst snd] in X, X2. exists (fun j => nth (j mod 2 ^ tp_nv h) (corners (poly_at (wo w) i)) F0). split; [intros j _; apply X|].
    pose proof (C2 i h Hi Hh) as C. cbn [fst] in C. rewrite C in Hc. inversion Hc as [Hc']. unfold sum_at. destruct (hasd_nv o ck k D w h i G Hh) as [Nh _]. rewrite Nh.
    replace (2 ^ N) with (2 ^ tp_nv h * 2 ^ (N - tp_nv h)) by (rewrite <- Nat.pow_add_r; f_equal; lia). symmetry. apply periodic_sum; [exact X1|]. pose proof (Nat.pow_nonzero 2 (tp_nv h) ltac:(lia)). lia.
Qed.

(** The world at the start of a protocol: every handle is read over all cubes. *)
Definition start (ops : list (pop p)) (s : ptrk E) (hs : list tpoly) : wd := mkW ops s hs (combine hs (map corners (denote ops))).
Section S.
Variables (o : oracle p comm) (addr : nat -> nat) (k : nat) (ck : pparam E) (vk : vparam E) (ops : list (pop p)) (vops : list (vop E)) (s : ptrk E) (hs : list tpoly) (d D : nat).
Hypothesis HS : setting o addr k ck vk ops vops s hs d D.
Hypothesis HD : 1 <= D.
Let w0 : wd := start ops s hs.

Lemma set_commit : forall n l, n <= k -> length l = 2 ^ n -> exists c, kzg_commit ck (mkMle n l) = Ok c.
Proof.
  intros n l Hn Hl. destruct (st_keys _ _ _ _ _ _ _ _ _ _ _ HS) as [g [h [rnd [N [srs [H1 [H2 [H3 H4]]]]]]]]. eexists.
  apply (kzg_commit_value HE g h rnd N k srs ck vk (mkMle n l) H3 H4); [exact Hl|exact Hn].
Qed.
Lemma set_good : d <= D -> good o ck k D w0.
Proof.
  intros Hd. constructor; cbn [wo ws wh w0 start].
  - apply (st_run _ _ _ _ _ _ _ _ _ _ _ HS).
  - intros x Hx. pose proof (st_deg _ _ _ _ _ _ _ _ _ _ _ HS x Hx). lia.
  - intros h Hh. pose proof (max_nv_ge hs h Hh). pose proof (st_nv _ _ _ _ _ _ _ _ _ _ _ HS). lia.
  - pose proof (st_commits _ _ _ _ _ _ _ _ _ _ _ HS). lia.
Qed.

Lemma set_finish : forall sc sc' debug vdebug w, good o ck k D w -> le w0 w -> zeros w0 w ->
  exists cp s', compile_proof o sc sc' addr debug (ws w) = Ok (cp, s') /\ let c : rdg := (cp, held (ws w), max_nv (wh w)) in (exists v, vrun o vdebug vk cp vops = Ok (v, map tp_id hs) /\ lk c vk w0 v) /\
    cov c (max_nv (wh w)) w /\ forall v, lk c vk w v -> claims_hold (held (ws w)) (max_nv (wh w)) v /\ (off_nodes cp -> exists v', verify_claims o v = Ok v') /\ (~ off_nodes cp -> verify_claims o v = Panic).
Proof.
  intros sc sc' debug vdebug w G L Z. destruct HS as [[g [h [rnd [N [srs [K1 [K2 [K3 K4]]]]]]]] Ha Hr Hm Hbk Hc Hz Hd Hn Hcm H2 HDf].
  destruct (kzg_trim_srs HE g h rnd N k K1 K2) as [srs' [ck' [vk' [G1 [G2 [G3 G4]]]]]]. rewrite K3 in G1. injection G1 as G1. rewrite <- G1, K4 in G2. injection G2 as G2a G2b. rewrite <- G2a in G3. rewrite <- G2b in G4. clear G1 G2a G2b.
  set (tau := suffix k (trapdoor rnd N)) in *.
  assert (Lt : length tau = k) by (unfold tau; apply suffix_length; rewrite trapdoor_length; exact K2).
  pose proof L as [more [hs' [L1 [L2 [L3 [L4 [L5 _]]]]]]]. cbn [w0 start wo ws wh] in L1, L2, L3, L4, L5.
  assert (Hmax : 0 < max_nv (wh w) <= length tau).
  { split.
    - rewrite L2. unfold max_nv in *. rewrite map_app, list_max_app. lia.
    - rewrite Lt. unfold max_nv. apply list_max_le. apply Forall_forall. intros x Hx. apply in_map_iff in Hx. destruct Hx as [hh [<- Hh]]. apply (g_nv _ _ _ _ w G hh Hh). }
  assert (Hcom : 2 <= commit_calls (wo w)) by (rewrite L1, commit_calls_app; lia).
  pose proof (g_run _ _ _ _ w G) as Hrw. rewrite G3 in Hrw.
  destruct (hist_compile HE Hp o o sc sc' addr g h tau (wo w) (ws w) (wh w) D Hrw Ha (g_deg _ _ _ _ w G) HD HDf H2 Hcom Hmax) as [cz [t1 [r [t2 [cs [t3 [R1 [R2 [R3 Hcc]]]]]]]]].
  cbv zeta in Hcc.
  assert (Hzh : zeros_hold (wo w)).
  { intros i Hi. assert (Hi2 : In i (zero_calls ops) \/ In i (zero_calls more)) by (rewrite L1, zero_calls_app in Hi; apply in_app_or; exact Hi).
    destruct Hi2 as [Hi'|Hi']; [|apply Z; cbn [w0 start wo]; rewrite L1, skipn_len; exact Hi']. rewrite L1.
    assert (Gd : good o ck k (list_max (degrees ops)) w0).
    { constructor; cbn [wo ws wh w0 start]; [exact Hr| |intros hh Hh; pose proof (max_nv_ge hs hh Hh); lia|lia].
      intros x Hx. pose proof (proj1 (list_max_le (degrees ops) _) (Nat.le_refl _)) as Fm. rewrite Forall_forall in Fm. apply Fm. exact Hx. }
    pose proof (poly_prefix o ck k (list_max (degrees ops)) w0 more i Gd) as Pp. cbn [w0 start wo wh] in Pp. rewrite Pp; [apply Hz; exact Hi'|].
    apply (hist_calls o ck _ _ _ Hr). auto. }
  rewrite (zero_claims o _ _ _ _ (max_nv (wh w)) cz r Hrw Hzh) in Hcc.
  destruct (proj2 (Hcc debug) (fun _ => eq_refl)) as [cp [s' [C1 [C2 [C3 [C3p [C4 [C5 [C6 _]]]]]]]]].
  exists cp, s'. split; [exact C1|].
  assert (Hcov : proof_covers cp s).
  { split.
    - intros id c Hid. apply C4. apply L4. exact Hid.
    - intros id c Hid. destruct (hist_calls o ck _ _ _ Hr) as [_ [Sc [_ Lc]]]. assert (In id (map fst (pt_sc s))) as Hin by (apply in_map_iff; exists (id, c); auto).
      rewrite Sc in Hin. apply in_map_iff in Hin. destruct Hin as [i [Hi1 Hi2]].
      assert (Hl : i < length hs) by (apply Lc; auto).
      assert (nth i (wh w) dh = nth i hs dh) as Hnth by (rewrite L2; apply app_nth1; exact Hl).
      rewrite <- Hi1, <- Hnth, C5; [discriminate|]. rewrite L1, sum_calls_app. apply in_or_app. auto. }
  destruct (lockstep o vdebug true _ vk cp ops vops s hs Hm Hr Hcov) as [v [V1 [[_ V2 V3 V4 V5 V6 _ _ V10] _]]].
  set (c := (cp, held (ws w), max_nv (wh w)) : rdg). assert (Cv : cov c (max_nv (wh w)) w).
  { split; [intros id c0 Hid; cbn [c fst]; rewrite C2; exact Hid|]. split; [|split; [intros hh Hh; apply max_nv_ge; exact Hh|split; [reflexivity|apply held_tabled]]].
    intros i hh Hi Hh. cbn [c fst]. rewrite <- (C5 i Hi). f_equal. f_equal. symmetry. apply nth_error_nth. exact Hh. }
  destruct (vrun_sc _ _ _ _ _ _ _ V1) as [V7 [V8 [_ V9]]]. cbn in V7, V8.
  split; [|split].
  - exists v. split; [exact V1|]. constructor; cbn [w0 start ws]; try assumption.
    + intros id c0 Hin. destruct (V9 id c0 Hin) as [[]|[V|[i [V _]]]]; [|exfalso; apply (Hc i c0); exact V].
      unfold get_prover_claimed_sum in V. cbn in V. unfold c. cbn [fst]. destruct (mget (cp_sums cp) id); inversion V. reflexivity.
    + cbn [w0 start wo wh]. intros i hh Hi. destruct (init_read (held (ws w)) o vdebug _ vk cp ops vops s hs v _ Hm Hbk Hr (held_old _ _ L5) V1 i hh Hi) as [R4 R5]. split; [|split].
      * change (length (corners (poly_at ops i)) = 2 ^ tp_nv hh). unfold corners. rewrite map_length, seq_length. f_equal. exact R4.
      * cbn [c snd]. apply max_nv_ge. rewrite L2. apply in_or_app. left. eapply nth_error_In. exact Hi.
      * intros j. cbn [c fst snd wo]. replace (tp_nv hh) with (fst (poly_at ops i)) by exact R4. rewrite corners_nth by (apply Nat.mod_upper_bound, Nat.pow_nonzero; lia). apply R5. apply max_nv_ge. rewrite L2. apply in_or_app. left. eapply nth_error_In. exact Hi.
    + cbn [w0 start wf]. intros hh l Hin. apply In_nth_error in Hin. destruct Hin as [i Hi]. assert (Li : length (denote ops) = length hs) by (symmetry; eapply Forall2_len; exact (prun_den o ck _ _ _ false Hr ltac:(discriminate))).
      assert (Hc1 : nth_error hs i = Some hh /\ l = corners (poly_at ops i)).
      { clear -Hi Li. unfold poly_at. revert i Hi. generalize (denote ops) Li. generalize hs. induction hs0 as [|h0 r IH]; intros [|d0 ds] L i Hi; try discriminate L; [destruct i; discriminate Hi|]. destruct i as [|i]; [injection Hi as <- <-; split; reflexivity|]. cbn in Hi. injection L as L. exact (IH ds L i Hi). }
      destruct Hc1 as [Hh ->]. destruct (init_read (held (ws w)) o vdebug _ vk cp ops vops s hs v _ Hm Hbk Hr (held_old _ _ L5) V1 i hh Hh) as [R4 R5]. split.
      * unfold corners. rewrite map_length, seq_length. f_equal. exact R4.
      * intros M HM j. cbn [c fst snd]. replace (tp_nv hh) with (fst (poly_at ops i)) by exact R4. rewrite corners_nth by (apply Nat.mod_upper_bound, Nat.pow_nonzero; lia). apply R5. exact HM.
  - exact Cv.
  - intros v' Lk. split; [exact (lk_claims o ck k D cp vk w v' _ G Hzh Lk Cv)|]. destruct (hist_calls o ck _ _ _ (g_run _ _ _ _ w G)) as [Zc [Sc [_ Lc]]]. destruct Lk. cbn [c fst] in *.
    apply (C6 v' k_proof ltac:(congruence) k_tr k_mat).
    + rewrite k_zc, Zc, map_length. reflexivity.
    + rewrite <- (map_length fst), k_sc, Sc, map_length. reflexivity.
    + f_equal. f_equal. rewrite Sc in k_sc. unfold claimed_sums.
      assert (Hi : forall i, In i (sum_calls (wo w)) -> mget (cp_sums cp) (tp_id (nth i (wh w) dh)) = Some (sum_at (wo w) (max_nv (wh w)) i)) by exact C5.
      clear - k_sc k_sums Hi. revert k_sc k_sums. generalize (vt_sc v'). induction (sum_calls (wo w)) as [|i r IH]; intros l Hf Hs; destruct l as [|[id c] l]; cbn in *; try discriminate; [reflexivity|].
      inversion Hf; subst. f_equal.
      * pose proof (Hs _ _ (or_introl eq_refl)) as X. rewrite Hi in X by auto. inversion X. reflexivity.
      * apply IH; auto.
Qed.

Lemma set_check_ok : forall sc sc' debug vdebug w verify, good o ck k D w -> le w0 w -> zeros w0 w ->
  (forall cp v, lk cp vk w0 v -> cov cp (max_nv (wh w)) w -> exists v', verify v = Ok v' /\ lk cp vk w v') ->
  exists cp s' v0 ids v1, compile_proof o sc sc' addr debug (ws w) = Ok (cp, s') /\ vrun o vdebug vk cp vops = Ok (v0, ids) /\ verify v0 = Ok v1 /\ (off_nodes cp -> exists v2, verify_claims o v1 = Ok v2) /\ (~ off_nodes cp -> verify_claims o v1 = Panic) /\
    exists N, claims_hold (held (ws w)) N v1.
Proof.
  intros sc sc' debug vdebug w verify G L Z HV. destruct (set_finish sc sc' debug vdebug w G L Z) as [cp [s' [C1 [[v [C2 C3]] [C4 C5]]]]].
  destruct (HV _ v C3 C4) as [v' [V1 V2]]. destruct (C5 v' V2) as [V4 [V3 V5]]. exists cp, s', v, (map tp_id hs), v'. repeat (split; [assumption|]). eexists. exact V4.
Qed.
Lemma set_check_err : forall sc sc' debug vdebug w verify e, good o ck k D w -> le w0 w -> zeros w0 w ->
  (forall cp v, lk cp vk w0 v -> cov cp (max_nv (wh w)) w -> verify v = Err e) ->
  check o sc sc' addr debug vdebug vk vops (ws w) verify = Err e.
Proof.
  intros sc sc' debug vdebug w verify e G L Z HV. destruct (set_finish sc sc' debug vdebug w G L Z) as [cp [s' [C1 [[v [C2 C3]] [C4 C5]]]]].
  unfold check. rewrite C1. cbn [bind]. rewrite C2. cbn [bind]. rewrite (HV _ v C3 C4). reflexivity.
Qed.
Lemma set_hasd : forall h l, d <= D -> stands ops hs h l -> hasd w0 h l d.
Proof.
  intros h l Hd [i [H1 H2]]. exists i. cbn [w0 start wo wh]. split; [exact H1|]. split; [exact H2|].
  destruct (Nat.lt_ge_cases i (length (degrees ops))) as [Hl|Hl].
  - apply (st_deg _ _ _ _ _ _ _ _ _ _ _ HS). apply nth_In. exact Hl.
  - exfalso. pose proof (degrees_length o ck k D w0 (set_good Hd)) as Hx. cbn [w0 start wo wh] in Hx. rewrite Hx in Hl.
    assert (i < length hs) by (apply nth_error_Some; congruence). lia.
Qed.
End S.
End M.
