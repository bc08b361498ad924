(** Selectors that checks ignore, closures that have no value at longer points, and groupings that are smaller than their input. *)
From Coq Require Import String List Arith Lia Bool ZArith Znumtheory Permutation.
Import ListNotations.
From Verif Require Import Res ResLemmas Fp FSum SpecMle SpecPoly PolyLemmas SpecTracker SpecIop SpecRel ModelMle MleLemmas MleProofs ModelTranscript Pairing ModelKzg ModelBatch
  ModelProver ModelVerifier ModelAdvice ModelIop ProverHist VerifierHist CompileHist IopHist SessHist TmapLemmas LogDeriv BagLemmas EqualizeProofs IopWorld IopBasic IopMulti IopRuns IopSort IopVer IopSound IopSound2 SortSound InterpProofs MleExtra AdviceProofs IopClaims CompSound CompSound2 CompSound3 CompClaims SessProofs SelHist.
Local Open Scope string_scope.
Local Open Scope list_scope.
Local Open Scope nat_scope.
#[local] Opaque track_virtual v_add_scalar.

Section P.
Context {p : positive} {E : pairing p}.
Add Ring Fq : (@F_ring p).
Notation comm := (gcar (PG1 E)).
Implicit Types (v : vtrk E).
Variable o : oracle p comm.
Hypothesis Hp : prime (Zpos p).
Hypothesis H2 : 2 < fsize p.


(** The two virtual commitments of a prescribed permutation that are claimed to vanish. *)
Lemma perm_ids : forall debug v v' fx gx perm, vready v -> presc_perm_verify o debug v fx gx perm = Ok v' ->
  exists g i a b c d e, vgo v v' g /\ vt_next v <= i /\ mget (vt_virt v') i = Some (VFun ordered_fun) /\
    In c (vt_zc v') /\ vt_next v <= c /\ mget (vt_virt v') c = Some (VSub a b) /\ mget (vt_virt v') a = Some (VAdd perm d) /\
    In e (vt_zc v') /\ vt_next v <= e /\ uses (vt_virt v') e i.
Proof.
  intros debug v v' fx gx perm R H. pose proof (vgo_refl v R) as G. unfold presc_perm_verify in H.
  vchal G H g. vvirt G H. vvirt G H. vtrans G H. vtrans G H. vvirt G H. vvirt G H. vvirt G H. vvirt G H. vvirt G H. vvirt G H.
  destruct (bag_eq_verify _ _ _ _ _) as [w| |] eqn:Eb in H; cbn [bind] in H; try discriminate.
  destruct (calls_later o Hp H2 _ _ (vcs_more o _ _ _ (vcs_nil o _) (vc_bag_eq o _ _ _ _ _ Eb)) (y_ready _ _ _ G)) as [g' G1]. fwd G1. vjoin G G1.
  match type of H with context [v_add_zerocheck_claim (v_add_zerocheck_claim ?w ?a) ?c] =>
    pose proof (go_zero w a (y_ready _ _ _ G)) as Ig; fwd Ig; vjoin G Ig; pose proof (go_zero (v_add_zerocheck_claim w a) c (y_ready _ _ _ G)) as Ig; fwd Ig; vjoin G Ig;
    assert (Iza : In a (vt_zc (v_add_zerocheck_claim (v_add_zerocheck_claim w a) c))) by (cbn; apply in_or_app; left; apply in_or_app; right; left; reflexivity);
    assert (Izc : In c (vt_zc (v_add_zerocheck_claim (v_add_zerocheck_claim w a) c))) by (cbn; apply in_or_app; right; left; reflexivity)
  end.
  apply Okinj in H. rewrite H in *. eexists _, i0, i7, i2, i8, i6, i5. split; [exact G|]. split; [lia|]. split; [exact Im0|]. split; [exact Izc|]. split; [lia|]. split; [exact Im8|]. split; [exact Im7|]. split; [exact Iza|]. split; [lia|].
  eapply us_sub; [exact Im5|left]. eapply us_add; [exact Im4|left]. apply us_here.
Qed.

Lemma uses_up : forall m m' e i, uses (p:=p) m e i -> sub_map m m' -> uses m' e i.
Proof.
  intros m m' e i H S. revert e i H. fix IH 3. intros e i H. destruct H as [id|id a b i0 M [U|U]|id a b i0 M [U|U]|id a b i0 M [U|U]|id a c i0 M U|id a c i0 M U|id a k i0 M U|id a k i0 M U]; [apply us_here|..].
  all: try (pose proof (IH _ _ U) as U').
  - eapply us_add; [apply S; exact M|left; exact U'].
  - eapply us_add; [apply S; exact M|right; exact U'].
  - eapply us_sub; [apply S; exact M|left; exact U'].
  - eapply us_sub; [apply S; exact M|right; exact U'].
  - eapply us_mul; [apply S; exact M|left; exact U'].
  - eapply us_mul; [apply S; exact M|right; exact U'].
  - eapply us_adds; [apply S; exact M|exact U'].
  - eapply us_muls; [apply S; exact M|exact U'].
  - eapply us_front; [apply S; exact M|exact U'].
  - eapply us_back; [apply S; exact M|exact U'].
Qed.
Lemma index_differs : forall n N, n < N -> ordered_fun (p:=p) (bpoint N (2 ^ n)) <> Ok (index_poly n (bpoint N (2 ^ n))).
Proof.
  intros n N H Q. rewrite ordered_bpoint in Q. apply Okinj in Q. rewrite Nat.mod_small in Q by (apply Nat.pow_lt_mono_r; lia). apply (IopMulti.two_pow Hp H2 n). rewrite Q. unfold index_poly.
  replace N with (n + (N - n)) by lia. rewrite bpoint_firstn.
rewrite Nat.mod_same by (apply Nat.pow_nonzero; lia). rewrite mle_ext_bpoint by (pose proof (Nat.pow_nonzero 2 n); lia). apply ofN_0.
Qed.
Lemma index_closure : forall v v' v'', in_session o v -> vcalls o v' v'' -> forall debug fx gx perm N, presc_perm_verify o debug v fx gx perm = Ok v' -> bc_nv fx < N ->
  exists e id x, In e (vt_zc v'') /\ mget (vt_virt v) e = None /\ uses (vt_virt v'') e id /\ mget (vt_virt v) id = None /\ length x = N /\
    forall q, exists y, eval_virtual_comm (answered v'' q) id x = Ok y /\ y <> index_poly (bc_nv fx) x.
Proof.
  intros v v' v'' HV HL debug fx gx perm N H Hn. pose proof (session_ready o Hp H2 v HV) as R. destruct (perm_ids _ _ _ _ _ _ R H) as [g [i [a [b [c [d [e [G [I1 [I2 [_ [_ [_ [_ [E1 [E2 E3]]]]]]]]]]]]]]]].
  destruct (vcalls_go o Hp H2 v' v'' HL (y_ready _ _ _ G)) as [g4 G4]. exists e, i, (bpoint N (2 ^ bc_nv fx)). split; [apply (in_zc _ _ _ _ G4 E1)|]. split; [apply R; exact E2|]. split; [eapply uses_up; [exact E3|exact (y_sub _ _ _ G4)]|].
  split; [apply R; exact I1|]. split; [apply bpoint_length|]. intros q. unfold eval_virtual_comm, answered. cbn [vt_virt vt_query Nat.mul Nat.add eval_loop]. rewrite (y_sub _ _ _ G4 _ _ I2). cbn [ounwrap bind run_vexp].
  pose proof (index_differs _ _ Hn) as Q. unfold ordered_fun in *. eexists. split; [reflexivity|]. intros Q'. apply Q. rewrite <- Q'. reflexivity.
Qed.
Lemma perm_panics : forall v v' v'', in_session o v -> vcalls o v' v'' -> forall debug b r, strict_sort_verify o debug v b r = Ok v' ->
  exists e, In e (vt_zc v'') /\ mget (vt_virt v) e = None /\ forall q x, length x <> bc_nv b -> eval_virtual_comm (answered v'' q) e x = Panic.
Proof.
  intros v v' v'' HV HL debug fx rx H. pose proof (session_ready o Hp H2 v HV) as R. pose proof (vgo_refl v R) as G. unfold strict_sort_verify in H. cbv zeta in H. set (n := bc_nv fx) in *.
  assert (Hlen : 0 < 2 ^ n) by (pose proof (Nat.pow_nonzero 2 n); lia).
  assert (Ls : length (next_column (p:=p) n) = 2 ^ n) by apply next_len. assert (Ld : length (dsel (p:=p) (2 ^ n)) = 2 ^ n) by (apply dsel_len; exact Hlen).
  rewrite shift_next, (from_evals n _ Ls) in H. cbn [bind] in H. rewrite diff_sel_ok in H by exact Hlen. cbn [bind] in H. rewrite (from_evals n _ Ld) in H. cbn [bind] in H.
  vvirt G H. vvirt G H. vtrans G H.
  destruct (presc_perm_verify _ _ _ _ _ _) as [w| |] eqn:Eb in H; cbn [bind] in H; try discriminate.
  destruct (perm_ids _ _ _ _ _ _ (y_ready _ _ _ G) Eb) as [g [i9 [a [b [c [d [e [G1 [_ [_ [C1 [C2 [C3 [C4 _]]]]]]]]]]]]]].
  pose proof (y_next _ _ _ G) as Hlt. fwd G1. vjoin G G1.
  vvirt G H. vvirt G H. vvirt G H. vadds G H. vvirt G H. vvirt G H.
  match type of H with context [inclusion_verify ?o ?d ?v ?a ?b] => destruct (inclusion_verify o d v a b) as [w1| |] eqn:Ec; cbn [bind] in H; try discriminate H end.
  destruct (calls_later o Hp H2 _ _ (vcs_more o _ _ _ (vcs_nil o _) (vc_inclusion o _ _ _ _ _ Ec)) (y_ready _ _ _ G)) as [g2 G2]. fwd G2. vjoin G G2.
  destruct (calls_later o Hp H2 _ _ (vcs_more o _ _ _ (vcs_nil o _) (vc_no_zeros o _ _ _ _ H)) (y_ready _ _ _ G)) as [g3 G3]. fwd G3. vjoin G G3.
  destruct (vcalls_go o Hp H2 v' v'' HL (y_ready _ _ _ G)) as [g4 G4]. fwd G4.
  exists c. split; [exact C1|]. split; [apply R; lia|]. intros q x Hx. unfold eval_virtual_comm, answered. cbn [vt_virt vt_query]. generalize (S (length (vt_virt v'')) * S (length x)). intros fuel.
  destruct fuel as [|fuel]; [reflexivity|]. cbn [eval_loop]. rewrite C3. cbn [ounwrap bind run_vexp].
  destruct fuel as [|fuel]; [reflexivity|]. cbn [eval_loop]. rewrite C4. cbn [ounwrap bind run_vexp].
  destruct fuel as [|fuel]; [reflexivity|]. cbn [eval_loop]. rewrite Im0. cbn [ounwrap bind run_vexp]. unfold mle_fun. rewrite ark_evaluate_spec by exact Ls. cbn [nv].
  destruct (Nat.eqb_spec n (length x)) as [Q|Q]; [congruence|]. reflexivity.
Qed.

(** A table repeated over more variables has the same rows several times. *)
Lemma spread_S : forall n k (l : list (F p)), k <= n -> spread (S n) k l = spread n k l ++ spread n k l.
Proof.
  intros n k l H. unfold spread. change (2 ^ S n) with (2 * 2 ^ n). replace (2 * 2 ^ n) with (2 ^ n + 2 ^ n) by lia. rewrite seq_app, map_app. f_equal. cbn [plus]. rewrite <- seq_shift_add, map_map. apply map_ext. intros j. f_equal.
  replace (2 ^ n) with (2 ^ (n - k) * 2 ^ k) by (rewrite <- Nat.pow_add_r; f_equal; lia). apply Nat.mod_add. apply Nat.pow_nonzero. lia.
Qed.
Lemma spread_len : forall n k (l : list (F p)), length (spread n k l) = 2 ^ n.
Proof. intros. unfold spread. rewrite map_length, seq_length. reflexivity. Qed.
Lemma spread_nth : forall n k (l : list (F p)) j, j < 2 ^ n -> nth j (spread n k l) F0 = nth (j mod 2 ^ k) l F0.
Proof. intros n k l j H. unfold spread. exact (nth_map_seq (fun j => nth (j mod 2 ^ k) l F0) _ _ _ H). Qed.
Lemma twice_nodup : forall {X} (r : list X), NoDup (r ++ r) -> r = [].
Proof. intros X [|x r] H; [reflexivity|]. cbn in H. inversion H as [|? ? H1 _]; subst. exfalso. apply H1. apply in_or_app. right. left. reflexivity. Qed.
Lemma spread_rows : forall n k (l sl : list (F p)), k < n -> length l = 2 ^ k -> length sl = 2 ^ k -> NoDup (rows (spread n k l) (spread n k sl)) -> rows l sl = [].
Proof.
  intros [|n] k l sl H H1 H3 D; [lia|]. rewrite !spread_S in D by lia. rewrite rows_app in D by (rewrite !spread_len; reflexivity). apply twice_nodup in D.
  destruct (rows l sl) as [|x r] eqn:Q; [reflexivity|]. exfalso. assert (I : In x (rows l sl)) by (rewrite Q; left; reflexivity). apply rows_In in I; [|congruence]. destruct I as [j [J1 [J2 J3]]].
  pose proof (Nat.pow_le_mono_r 2 k n ltac:(lia) ltac:(lia)) as Hle.
  assert (I : In x (rows (spread n k l) (spread n k sl))). { apply rows_In; [rewrite !spread_len; reflexivity|]. exists j. rewrite spread_len, !spread_nth by lia. rewrite Nat.mod_small by lia. split; [lia|auto]. }
  rewrite D in I. exact I.
Qed.
Lemma reads_spread : forall A N v id n k l, reads A N v id k l -> k <= n -> n <= N -> reads A N v id n (spread n k l).
Proof.
  intros A N v id n k l [H1 [H3 H4]] Hk Hn. split; [exact Hn|]. split; [apply spread_len|]. intros j Hj. rewrite spread_nth by (apply Nat.mod_upper_bound; apply Nat.pow_nonzero; lia).
  replace ((j mod 2 ^ n) mod 2 ^ k) with (j mod 2 ^ k); [apply H4; exact Hj|].
  replace (2 ^ n) with (2 ^ k * 2 ^ (n - k)) by (rewrite <- Nat.pow_add_r; f_equal; lia). rewrite Nat.mod_mul_r by (apply Nat.pow_nonzero; lia). rewrite Nat.mul_comm, Nat.mod_add by (apply Nat.pow_nonzero; lia). symmetry. apply Nat.mod_mod. apply Nat.pow_nonzero. lia.
Qed.
Lemma spread_boolean : forall n k (l : list (F p)), boolean l -> length l = 2 ^ k -> boolean (spread n k l).
Proof.
  intros n k l H Hl. unfold boolean, spread in *. rewrite Forall_forall in *. intros x Hx. apply in_map_iff in Hx. destruct Hx as [j [<- _]]. apply H. apply nth_In. rewrite Hl. apply Nat.mod_upper_bound. apply Nat.pow_nonzero. lia.
Qed.
Lemma group_by_smaller : forall v v' v'', in_session o v -> vcalls o v' v'' ->
  forall A N, claims_hold A N v'' -> forall dbg t gi rx res tcs sl k sup sl' ml rl, group_by_verify o dbg v t gi rx = Ok (res, v') -> 2 ^ N < fsize p ->
  table_reads A N v t tcs sl -> k < tc_nv t -> Forall (fun id => reads A N v id k sup) (firstn 1 (gv_supp gi)) -> reads A N v (gv_sel gi) k sl' -> reads A N v (gv_mult gi) k ml -> reads A N v (bc_poly rx) (bc_nv rx) rl ->
  boolean sl -> boolean sl' -> small_range rl (tc_nv t) -> rows sup sl' <> [] ->
  exists c q mm h g g1 g2 hs, gv_cols gi = [c] /\ drawn (vt_tr v) (vt_tr v') = [h; g; g1; g2] ++ hs /\ Forall (received v v') [q; mm] /\
    let n := tc_nv t in
    ~ (~ unlucky (combine (nth c tcs []) sl) (wcol (spread n k sup) (spread n k sl') (spread n k ml)) h /\ sort_lucky A N n (bc_nv rx) q mm (spread n k sup) rl g g1 g2).
Proof.
  intros v v' v'' HV HL A N HC dbg t gi rx res tcs sl k sup sl' ml rl H HN RT Hk R3 R4 R5 R6 B1 B2 Hr Hne.
  assert (Hn : tc_nv t <= N) by (destruct RT as [_ [X _]]; exact X).
  assert (B2' : boolean (spread (tc_nv t) k sl')) by (apply spread_boolean; [exact B2|apply R4]).
  destruct (group_by_claims o Hp H2 v v' v'' A N (session_ready o Hp H2 v HV) (vcalls_go o Hp H2 v' v'' HL) HC dbg t gi rx res tcs sl (spread (tc_nv t) k sup) (spread (tc_nv t) k sl') (spread (tc_nv t) k ml) rl H HN RT
    ltac:(eapply Forall_impl; [|exact R3]; cbv beta; intros id X; apply reads_spread; [exact X|lia|exact Hn]) (reads_spread _ _ _ _ _ _ _ R4 (Nat.lt_le_incl _ _ Hk) Hn) (reads_spread _ _ _ _ _ _ _ R5 (Nat.lt_le_incl _ _ Hk) Hn) R6 B1 B2' Hr)
    as [c [sp [q [mm [h [g [g1 [g2 [hs [Y1 [Y2 [Y3 [Y4 [Y5 [Y6 [Y7 [Y8 Y9]]]]]]]]]]]]]]]]].
  exists c, q, mm, h, g, g1, g2, hs. split; [exact Y1|]. split; [exact Y6|]. split; [exact Y8|]. cbv zeta in *. intros [U1 U2]. destruct (Y9 U1 U2) as [D _].
  apply Hne. apply (spread_rows (tc_nv t) k); [exact Hk| |apply R4|exact D]. destruct (gv_supp gi) as [|x xs]; [discriminate|]. cbn [firstn] in R3. inversion R3 as [|? ? X _]; subst. apply X.
Qed.
End P.
