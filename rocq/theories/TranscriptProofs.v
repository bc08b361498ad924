(** Transcript histories, and the round discipline of the interactive sum check. *)
From Coq Require Import String List Arith Lia Bool ZArith Znumtheory Field.
Import ListNotations.
From Verif Require Import Res ResLemmas Fp FSum SpecMle SpecVp SpecPoly SpecSumcheck MleLemmas PolyLemmas ModelMle ModelVp VpHist MleProofs MleExtra
  VpProofs VpExtra ModelTranscript ModelSumcheck InterpProofs SumcheckHist SumcheckProofs SumcheckVerify ZerocheckProofs.
Local Open Scope string_scope.
Local Open Scope list_scope.
Local Open Scope nat_scope.

Section S.
Context {p : positive} {C : Type}.
Implicit Types (t : tr p C) (o : oracle p C).

Definition flag_ok t : Prop := is_empty t = true <-> exists l, hist t = [ENew l].

Lemma run_draws_nonempty : forall o l n t, is_empty t = false ->
  is_empty (snd (run_draws o l n t)) = false /\ exists h, hist (snd (run_draws o l n t)) = hist t ++ h.
Proof.
  intros o l n. induction n as [|n IH]; intros t Ht; cbn [run_draws].
  - split; [exact Ht|]. exists []. cbn. rewrite app_nil_r. reflexivity.
  - specialize (IH (tdraw l (o (hist t) l) t) eq_refl). destruct (run_draws o l n _) as [cs t']. cbn [snd] in *.
    destruct IH as [I1 [h I2]]. split; [exact I1|]. eexists. rewrite I2. unfold tdraw, append. cbn [hist].
    rewrite <- !app_assoc. reflexivity.
Qed.

Lemma trun_inv : forall o label cs, let t := trun o label cs in
  (is_empty t = true /\ hist t = [ENew label]) \/ (is_empty t = false /\ exists e h, hist t = ENew label :: e :: h).
Proof.
  intros o label cs. unfold trun.
  assert (G : forall t, (is_empty t = true /\ hist t = [ENew label]) \/ (is_empty t = false /\ exists e h, hist t = ENew label :: e :: h) ->
    let t' := fold_left (tstep o) cs t in
    (is_empty t' = true /\ hist t' = [ENew label]) \/ (is_empty t' = false /\ exists e h, hist t' = ENew label :: e :: h)).
  { induction cs as [|c cs IH]; intros t Ht; [exact Ht|]. cbn [fold_left]. apply IH. clear IH.
    destruct c as [l x|l|l n]; cbn [tstep].
    - right. split; [reflexivity|]. unfold append. cbn [hist].
      destruct Ht as [[_ ->]|[_ [e [h ->]]]]; cbn [app]; eauto.
    - unfold draw. destruct Ht as [[He Hh]|[He [e [h Hh]]]]; rewrite He; [left; auto|]. right. split; [reflexivity|].
      unfold append. cbn [fst hist]. rewrite Hh. cbn [app]. eauto.
    - unfold draw_vec. destruct Ht as [[He Hh]|[He [e [h Hh]]]]; rewrite He; [left; auto|].
      rewrite draw_loop_spec by exact He. cbn [fst]. destruct (run_draws_nonempty o l n t He) as [A [h' B]].
      right. split; [exact A|]. rewrite B, Hh. cbn [app]. eauto. }
  apply G. left. split; reflexivity.
Qed.

(** The history determines the transcript. *)
Lemma hist_determines : forall o1 o2 l1 l2 cs1 cs2, hist (trun o1 l1 cs1) = hist (trun o2 l2 cs2) -> trun o1 l1 cs1 = trun o2 l2 cs2.
Proof.
  intros o1 o2 l1 l2 cs1 cs2 H.
  pose proof (trun_inv o1 l1 cs1) as A. pose proof (trun_inv o2 l2 cs2) as B. cbn zeta in A, B.
  destruct (trun o1 l1 cs1) as [h1 e1]. destruct (trun o2 l2 cs2) as [h2 e2]. cbn [hist is_empty] in *. subst h2.
  f_equal. destruct A as [[-> A]|[-> [e [h A]]]]; destruct B as [[-> B]|[-> [e' [h' B]]]]; auto; rewrite A in B; discriminate.
Qed.

(** Same history, same challenges, same future. *)
Lemma same_future : forall o o1 o2 l1 l2 cs1 cs2 more, hist (trun o1 l1 cs1) = hist (trun o2 l2 cs2) ->
  (forall l, draw o l (trun o1 l1 cs1) = draw o l (trun o2 l2 cs2)) /\
  (forall l n, draw_vec o l n (trun o1 l1 cs1) = draw_vec o l n (trun o2 l2 cs2)) /\
  fold_left (tstep o) more (trun o1 l1 cs1) = fold_left (tstep o) more (trun o2 l2 cs2).
Proof. intros o o1 o2 l1 l2 cs1 cs2 more H. apply hist_determines in H. rewrite H. auto. Qed.

(** A draw happens iff something was appended; it is absorbed with its challenge. *)
Lemma draw_spec : forall o o' label cs l, let t := trun o label cs in
  (existsb (fun c => match c with TAppend _ _ => true | _ => false end) cs = false ->
     draw o' l t = (t, Err TranscriptInvalid) /\ t = tr_new label) /\
  (existsb (fun c => match c with TAppend _ _ => true | _ => false end) cs = true ->
     exists t', draw o' l t = (t', Ok (o' (hist t) l)) /\ hist t' = hist t ++ [EChal l; EMsg l (PF (o' (hist t) l))]).
Proof.
  intros o o' label cs l t.
  assert (G1 : existsb (fun c => match c with TAppend _ _ => true | _ => false end) cs = false -> t = tr_new label).
  { unfold t, trun. induction cs as [|c cs IH] using rev_ind; intros H; [reflexivity|].
    rewrite existsb_app in H. apply orb_false_iff in H. destruct H as [H1 H2]. rewrite fold_left_app. cbn [fold_left].
    rewrite IH by exact H1. destruct c; [discriminate H2|reflexivity|reflexivity]. }
  assert (G2 : existsb (fun c => match c with TAppend _ _ => true | _ => false end) cs = true -> is_empty t = false).
  { clear G1. unfold t, trun. clear t. induction cs as [|c cs IH] using rev_ind; intros H; [discriminate|].
    rewrite fold_left_app. cbn [fold_left]. destruct c as [l' x|l'|l' n]; [reflexivity| |];
      rewrite existsb_app in H; cbn in H; rewrite orb_false_r in H; specialize (IH H); cbn [tstep].
    - unfold draw. rewrite IH. reflexivity.
    - unfold draw_vec. rewrite IH, draw_loop_spec by exact IH. apply run_draws_nonempty. exact IH. }
  split.
  - intros H. rewrite (G1 H). split; reflexivity.
  - intros H. unfold draw. rewrite (G2 H). eexists. split; [reflexivity|]. unfold append. cbn [hist]. rewrite <- app_assoc. reflexivity.
Qed.

Lemma draw_vec_draws : forall o l n t, is_empty t = false ->
  draw_vec o l n t = (fst (draws o l n t), Ok (snd (draws o l n t))) /\ length (snd (draws o l n t)) = n.
Proof.
  intros o l n t Ht. unfold draw_vec. rewrite Ht, draw_loop_spec by exact Ht. cbn [app].
  assert (G : run_draws o l n t = (snd (draws o l n t), fst (draws o l n t))).
  { clear - Ht. revert t Ht. induction n as [|n IH]; intros t Ht; [reflexivity|]. cbn [run_draws draws]. unfold draw at 1. rewrite Ht.
    fold (tdraw l (o (hist t) l) t). rewrite IH by reflexivity. unfold draw. rewrite Ht. fold (tdraw l (o (hist t) l) t).
    destruct (draws o l n (tdraw l (o (hist t) l) t)) as [t2 cs]. reflexivity. }
  rewrite G. cbn [fst snd]. split; [reflexivity|]. pose proof (run_draws_length o l n t) as L. rewrite G in L. exact L.
Qed.

(** The history records the appended messages in order. *)
Definition msgs_of (h : list (event p C)) : list (string * payload p C) :=
  flat_map (fun e => match e with EMsg l x => [(l, x)] | _ => [] end) h.
Definition appends (cs : list (top p C)) : list (string * payload p C) :=
  flat_map (fun c => match c with TAppend l x => [(l, x)] | _ => [] end) cs.

Lemma appends_recorded : forall o label cs, (forall c, In c cs -> match c with TAppend _ _ => True | _ => False end) ->
  hist (trun o label cs) = ENew label :: map (fun lx => EMsg (fst lx) (snd lx)) (appends cs).
Proof.
  intros o label cs. unfold trun. induction cs as [|c cs IH] using rev_ind; intros H; [reflexivity|].
  rewrite fold_left_app. cbn [fold_left]. destruct c as [l x|l|l n].
  - cbn [tstep]. unfold append. cbn [hist]. rewrite IH by (intros c Hc; apply H; apply in_or_app; left; exact Hc).
    unfold appends. rewrite flat_map_app, map_app. reflexivity.
  - exfalso. apply (H (TDraw l)). apply in_or_app. right. left. reflexivity.
  - exfalso. apply (H (TDrawVec l n)). apply in_or_app. right. left. reflexivity.
Qed.
End S.

(** ** Malformed proofs *)
Section Mal.
Context {p : positive} {C : Type}.
Add Ring Fr2 : (@F_ring p).
Implicit Types (t : tr p C) (o : oracle p C).

Lemma sc_verify_point_irrelevant : forall o c pt pt' ms d n t,
  sc_verify o c (mkProof pt ms) d n t = sc_verify o c (mkProof pt' ms) d n t.
Proof. reflexivity. Qed.

Lemma vat_init : forall d n, 0 < n -> verifier_init d n = vat (p:=p) n d 0 [] [].
Proof.
  intros d n Hn. unfold verifier_init, vat. replace (n <=? 0) with false by (symmetry; apply Nat.leb_gt; lia). f_equal. lia.
Qed.

Lemma sc_verify_short : forall o c pt ms d n t, length ms < n -> sc_verify o c (mkProof pt ms) d n t = Panic.
Proof.
  intros o c pt ms d n t H. unfold sc_verify. cbn [pf_msgs]. rewrite vat_init by lia.
  pose proof (verify_loop_short o n d ms n 0 [] (append "aux info" (PAux d n) t)) as E. cbn [firstn] in E. rewrite E by lia. reflexivity.
Qed.

Lemma sc_verify_unfold : forall o c pt ms d n t, 0 < n -> n <= length ms ->
  let (cs, t') := run_msgs o (firstn n ms) (append "aux info" (PAux d n) t) in
  sc_verify o c (mkProof pt ms) d n t =
  bind (check_and_generate_subclaim (mkVstate n n d true (firstn n ms) cs) c) (fun s => Ok (s, t')).
Proof.
  intros o c pt ms d n t Hn Hl. unfold sc_verify. cbn [pf_msgs]. rewrite vat_init by lia.
  pose proof (verify_loop_spec o n d (firstn n ms) n 0 [] [] (append "aux info" (PAux d n) t)) as E.
  specialize (E ltac:(lia) eq_refl ltac:(rewrite firstn_length; lia) (skipn n ms)). cbn [app] in E. rewrite firstn_skipn in E. rewrite E.
  destruct (run_msgs o (firstn n ms) _) as [cs t']. cbn [bind fst snd]. unfold vat.
  replace (n <=? n) with true by (symmetry; apply Nat.leb_le; lia). replace (Nat.min (n + 1) n) with n by lia. reflexivity.
Qed.

Lemma sc_verify_surplus : forall o c pt ms extra d n t, length ms = n ->
  sc_verify o c (mkProof pt (ms ++ extra)) d n t = sc_verify o c (mkProof pt ms) d n t.
Proof.
  intros o c pt ms extra d n t Hl. destruct (Nat.eq_dec n 0) as [-> |Hn]; [reflexivity|].
  pose proof (sc_verify_unfold o c pt (ms ++ extra) d n t ltac:(lia) ltac:(rewrite app_length; lia)) as A.
  pose proof (sc_verify_unfold o c pt ms d n t ltac:(lia) ltac:(lia)) as B.
  rewrite firstn_app, Hl, Nat.sub_diag in A. cbn [firstn] in A. rewrite app_nil_r in A.
  destruct (run_msgs o (firstn n ms) _) as [cs t']. rewrite A, B. reflexivity.
Qed.

Lemma sc_zero_vars : forall o sc c pf d t (v : vp p), num_variables v = 0 ->
  sc_prove o sc v t = Err IOPInvalidParameters /\ sc_verify o c pf d 0 t = Err IOPInvalidVerifier.
Proof.
  intros o sc c pf d t v Hv. split; [|reflexivity]. unfold sc_prove, prover_init. rewrite Hv. reflexivity.
Qed.

Lemma mapM_err_at : forall {A B} (f : A -> res B) e l, (forall a, In a l -> (exists b, f a = Ok b) \/ f a = Err e) ->
  (exists a, In a l /\ f a = Err e) -> mapM f l = Err e.
Proof.
  intros A B f e l. induction l as [|a l IH]; intros H [x [Hx Hf]]; [contradiction|]. cbn [mapM].
  destruct (H a (or_introl eq_refl)) as [[b Hb]|He]; [|rewrite He; reflexivity]. rewrite Hb. cbn [bind].
  destruct Hx as [-> |Hx]; [congruence|]. rewrite IH; [reflexivity|intros y Hy; apply H; right; exact Hy|exists x; auto].
Qed.

Section Prime.
Hypothesis Hp : prime (Zpos p).

Lemma run_msgs_in : forall o ms t c, In c (fst (run_msgs o ms t)) -> exists h l, c = o h l.
Proof.
  intros o ms. induction ms as [|m ms IH]; intros t c Hc; [contradiction|]. cbn [run_msgs] in Hc.
  match type of Hc with context [run_msgs o ms ?x] => specialize (IH x); destruct (run_msgs o ms x) as [cs t'] end.
  cbn [fst] in *. destruct Hc as [<-|Hc]; [eauto|]. apply IH. exact Hc.
Qed.

Lemma nonnode_existsb : forall n (c : F p), nonnode n c -> existsb (fun i => Feqb c (ofN i)) (seq 0 n) = false.
Proof.
  intros n c H. apply not_true_iff_false. intros E. apply existsb_exists in E. destruct E as [i [Hi E]].
  apply in_seq in Hi. apply Feqb_eq in E. apply (H i); [lia|exact E].
Qed.

Lemma sc_verify_bad_length : forall o c pt ms d n t, d < fsize p -> n <= length ms ->
  (exists m, In m (firstn n ms) /\ length m <> d + 1) ->
  (forall s, sc_verify o c (mkProof pt ms) d n t <> Ok s) /\
  ((forall h l, nonnode (d + 1) (o h l)) -> sc_verify o c (mkProof pt ms) d n t = Err IOPInvalidVerifier).
Proof.
  intros o c pt ms d n t Hd Hl [m [Hm Hlen]].
  assert (Hn : 0 < n) by (destruct n; [contradiction|lia]).
  pose proof (sc_verify_unfold o c pt ms d n t Hn Hl) as E.
  destruct (run_msgs o (firstn n ms) _) as [cs t'] eqn:R. rewrite E.
  assert (Hcs : length cs = length (firstn n ms)).
  { pose proof (run_msgs_length o (firstn n ms) (append "aux info" (PAux d n) t)) as L. rewrite R in L. exact L. }
  assert (Hin : exists x, In (m, x) (combine (firstn n ms) cs)).
  { destruct (In_nth _ _ [] Hm) as [i [Hi Ei]]. exists (nth i cs F0).
    rewrite <- Ei, <- combine_nth by lia. apply nth_In. rewrite combine_length. lia. }
  destruct Hin as [x Hin].
  unfold check_and_generate_subclaim. cbn [vs_finished vs_polys vs_nv vs_deg vs_chals ensure bind].
  rewrite firstn_length, Nat.min_l, Nat.eqb_refl by exact Hl. cbn [ensure bind]. split.
  - intros s H. apply bind_ok_inv in H. destruct H as [s' [H _]]. apply bind_ok_inv in H. destruct H as [ev [H _]].
    destruct (mapM_in_inv _ _ _ H (m, x) Hin) as [b [Hb _]]. cbn [fst snd] in Hb.
    apply Nat.eqb_neq in Hlen. rewrite Hlen in Hb. discriminate Hb.
  - intros Ho.
    rewrite (mapM_err_at _ IOPInvalidVerifier); [reflexivity| |].
    + intros [m' x'] Hmx. cbn [fst snd]. destruct (Nat.eqb_spec (length m') (d + 1)) as [El|]; [|right; reflexivity]. left. cbn [ensure bind].
      rewrite (interpolate_total Hp); [|intros ->; simpl in El; lia|lia].
      rewrite nonnode_existsb; [eauto|]. rewrite El. apply in_combine_r in Hmx.
      destruct (run_msgs_in o (firstn n ms) (append "aux info" (PAux d n) t) x') as [h [l ->]]; [rewrite R; exact Hmx|]. apply Ho.
    + exists (m, x). split; [exact Hin|]. cbn [fst snd]. apply Nat.eqb_neq in Hlen. rewrite Hlen. reflexivity.
Qed.

(** Degree 0: the verifier reads evaluations[1]. *)
Lemma sc_verify_deg0 : forall o c pt ms n t, 1 < fsize p -> 0 < n ->
  (forall s, sc_verify o c (mkProof pt ms) 0 n t <> Ok s) /\
  (n <= length ms -> (forall m, In m ms -> length m = 1) -> (forall h l, nonnode 1 (o h l)) ->
   sc_verify o c (mkProof pt ms) 0 n t = Panic).
Proof.
  intros o c pt ms n t Hf Hn.
  destruct (Nat.le_gt_cases n (length ms)) as [Hl|Hl].
  2:{ rewrite sc_verify_short by exact Hl. split; [discriminate|reflexivity]. }
  pose proof (sc_verify_unfold o c pt ms 0 n t Hn Hl) as E.
  destruct (run_msgs o (firstn n ms) _) as [cs t'] eqn:R. rewrite E.
  assert (Hcs : length cs = length (firstn n ms)).
  { pose proof (run_msgs_length o (firstn n ms) (append "aux info" (PAux 0 n) t)) as L. rewrite R in L. exact L. }
  unfold check_and_generate_subclaim. cbn [vs_finished vs_polys vs_nv vs_deg vs_chals ensure bind].
  rewrite firstn_length, Nat.min_l, Nat.eqb_refl by exact Hl. cbn [ensure bind].
  destruct n as [|n]; [lia|]. destruct ms as [|m ms]; [simpl in Hl; lia|]. cbn [firstn] in *. destruct cs as [|x cs]; [discriminate|].
  split.
  - intros s H. apply bind_ok_inv in H. destruct H as [s' [H _]]. apply bind_ok_inv in H. destruct H as [ev [H1 H2]].
    apply bind_ok_inv in H2. destruct H2 as [us [H2 _]]. cbn [combine mapM] in H1. apply bind_ok_inv in H1. destruct H1 as [y [H1 _]].
    cbn [fst snd] in H1. destruct (Nat.eqb_spec (length m) (0 + 1)) as [El|]; [|discriminate H1].
    cbn [combine firstn mapM fst snd] in H2. rewrite (rnth_panic m 1) in H2 by lia.
    destruct (rnth m 0); discriminate H2.
  - intros _ Hm Ho. rewrite (mapM_ok _ (fun mc : list (F p) * F p => interp (fst mc) (snd mc))).
    + cbn [bind combine firstn mapM fst snd]. rewrite (rnth_ok m 0 F0), (rnth_panic m 1) by (rewrite (Hm m (or_introl eq_refl)); lia). reflexivity.
    + intros [m' x'] Hmx. cbn [fst snd].
      assert (El : length m' = 1).
      { apply Hm. apply in_combine_l in Hmx. destruct Hmx as [->|Hmx]; [left; reflexivity|]. right.
        rewrite <- (firstn_skipn n ms). apply in_or_app. left. exact Hmx. }
      rewrite El. cbn [Nat.add Nat.eqb ensure bind]. rewrite (interpolate_total Hp); [|intros ->; discriminate|lia].
      rewrite nonnode_existsb; [reflexivity|]. rewrite El. apply in_combine_r in Hmx.
      destruct (run_msgs_in o (m :: firstn n ms) (append "aux info" (PAux 0 (S n)) t) x') as [h [l ->]]; [rewrite R; exact Hmx|]. apply Ho.
Qed.

(** ** Interactive prover: any sequence of calls *)
Lemma prover_calls_spec : forall sc (v : vp p), vp_inv v -> max_degree v < fsize p -> forall calls i st cs,
  (ps_round st = 0 /\ cs = [] \/ ps_round st = S (length cs)) -> st_inv v st cs ->
  prover_calls sc i st calls = expected_calls (num_variables v) (max_degree v) (vp_val v) (ps_round st) cs calls.
Proof.
  intros sc v Hi Hd. induction calls as [|c calls IH]; intros i st cs Hr Hs; [reflexivity|]. cbn [prover_calls expected_calls].
  destruct (Nat.leb_spec (num_variables v) (ps_round st)) as [Hle|Hlt].
  { unfold prove_round at 1. rewrite (si_nv v st cs Hs). replace (num_variables v <=? ps_round st) with true by (symmetry; apply Nat.leb_le; exact Hle).
    f_equal. apply IH; assumption. }
  destruct Hr as [[Hr ->]|Hr].
  - rewrite Hr in *. destruct c as [x|].
    + assert (E : prove_round (sc i) st (Some x) = Err IOPInvalidProver).
      { unfold prove_round. rewrite (si_nv v st [] Hs), Hr. replace (num_variables v <=? 0) with false by (symmetry; apply Nat.leb_gt; exact Hlt). reflexivity. }
      rewrite E. f_equal. rewrite <- Hr. apply IH; auto.
    + destruct (prove_round_spec Hp v (sc i) st None [] Hi Hd) as [st' [E [R S']]]; [cbn; auto|simpl; lia|].
      rewrite E. f_equal. change 1 with (S (length (@nil (F p)))). rewrite <- R. apply IH; auto.
  - rewrite Hr. destruct c as [x|].
    + destruct (prove_round_spec Hp v (sc i) st (Some x) (cs ++ [x]) Hi Hd) as [st' [E [R S']]]; [exists cs; auto|rewrite app_length; simpl; lia|].
      rewrite E. f_equal. rewrite app_length in R. cbn [length] in R. replace (S (S (length cs))) with (ps_round st') by lia. apply IH; auto.
      right. rewrite R, app_length. reflexivity.
    + assert (E : prove_round (sc i) st None = Err IOPInvalidProver).
      { unfold prove_round. rewrite (si_nv v st cs Hs), Hr. replace (num_variables v <=? S (length cs)) with false by (symmetry; apply Nat.leb_gt; lia). reflexivity. }
      rewrite E. f_equal. rewrite <- Hr. apply IH; auto.
Qed.

Lemma prover_calls_init : forall sc (v : vp p) e st calls, built v e -> max_degree v < fsize p -> prover_init v = Ok st ->
  prover_calls sc 0 st calls = expected_calls (num_variables v) (max_degree v) (pden e) 0 [] calls.
Proof.
  intros sc v e st calls Hb Hd Hini. destruct (built_inv v e Hb) as [Hi [_ He]].
  assert (Hn : 0 < num_variables v).
  { unfold prover_init in Hini. destruct (Nat.eqb_spec (num_variables v) 0); [discriminate|lia]. }
  destruct (prover_init_at v Hi Hn) as [st' [E [_ [Hr Hs]]]]. rewrite Hini in E. inversion E; subst st'.
  rewrite (prover_calls_spec sc v Hi Hd calls 0 st []); [|left; auto|exact Hs]. rewrite Hr.
  assert (G : forall calls k cs, length cs <= k - 1 -> expected_calls (num_variables v) (max_degree v) (vp_val v) k cs calls =
    expected_calls (num_variables v) (max_degree v) (pden e) k cs calls).
  { assert (M : forall cs, length cs < num_variables v -> round_msg (num_variables v) (max_degree v) (vp_val v) cs = round_msg (num_variables v) (max_degree v) (pden e) cs).
    { intros cs Hc. unfold round_msg, round_poly, cube_sum. apply map_ext. intros x. apply sumN_ext. intros k _. apply He.
      rewrite app_length. cbn [length]. rewrite bpoint_length. lia. }
    induction calls0 as [|c l IH]; intros k cs Hc; [reflexivity|]. cbn [expected_calls].
    destruct (Nat.leb_spec (num_variables v) k); [f_equal; apply IH; exact Hc|].
    destruct k as [|k]; destruct c as [x|]; try (f_equal; apply IH; simpl in *; lia).
    - rewrite M by (simpl; lia). f_equal. apply IH. simpl. lia.
    - rewrite M by (rewrite app_length; simpl in *; lia). f_equal. apply IH. rewrite app_length. simpl in *. lia. }
  apply G. simpl. lia.
Qed.

(** ** Interactive verifier *)
Lemma verifier_calls_spec : forall o n d ms i pre cs t, i <= n -> length pre = i ->
  let (l, s) := verifier_calls o (vat n d i pre cs) t ms in
  map is_ok l = map (fun k => k <? n) (seq i (length ms)) /\
  (forall r, In r l -> is_ok r = false -> r = Err IOPInvalidVerifier) /\
  vs_finished s = (n <=? i + length ms) /\ vs_nv s = n /\ length (vs_polys s) = Nat.min n (i + length ms).
Proof.
  intros o n d ms. induction ms as [|m ms IH]; intros i pre cs t Hi Hpre; cbn [verifier_calls].
  - cbn. rewrite Nat.add_0_r. repeat split; [contradiction|lia].
  - destruct (Nat.eq_dec i n) as [-> |Hne].
    + assert (E : forall t, verify_round o (vat n d n pre cs) m t = Err IOPInvalidVerifier).
      { intros t'. unfold verify_round, vat. cbn [vs_finished]. rewrite Nat.leb_refl. reflexivity. }
      rewrite E. clear E. specialize (IH n pre cs (append "prover msg" (PMsg m) t) Hi Hpre).
      destruct (verifier_calls o _ _ ms) as [l s]. destruct IH as [A [B [D [E F]]]]. cbn [map length].
      assert (Hseq : forall a, n <= a -> forall k, map (fun k => k <? n) (seq a k) = repeat false k).
      { intros a Ha k. revert a Ha. induction k as [|k IHk]; intros a Ha; [reflexivity|]. cbn [seq map repeat].
        replace (a <? n) with false by (symmetry; apply Nat.ltb_ge; exact Ha). f_equal. apply IHk. lia. }
      split; [|split; [|split; [|split]]].
      * rewrite A, !Hseq by lia. reflexivity.
      * intros r [<-|Hr]; [reflexivity|apply B; exact Hr].
      * rewrite D. replace (n <=? n + length ms) with true by (symmetry; apply Nat.leb_le; lia). symmetry. apply Nat.leb_le. lia.
      * exact E.
      * lia.
    + rewrite verify_round_step by (auto; lia).
      set (t1 := append "prover msg" (PMsg m) t). set (c := o (hist t1) "Internal round").
      specialize (IH (S i) (pre ++ [m]) (cs ++ [c]) (tdraw "Internal round" c t1) ltac:(lia) ltac:(rewrite app_length; simpl; lia)).
      destruct (verifier_calls o _ _ ms) as [l s]. destruct IH as [A [B [D [E F]]]]. cbn [map length seq is_ok].
      split; [|split; [|split; [|split]]].
      * rewrite A. f_equal. symmetry. apply Nat.ltb_lt. lia.
      * intros r [<-|Hr]; [discriminate|apply B; exact Hr].
      * rewrite D. f_equal. lia.
      * exact E.
      * lia.
Qed.

Lemma verifier_discipline : forall o n d ms t, 0 < n ->
  let (l, s) := verifier_calls o (verifier_init d n) t ms in
  map is_ok l = map (fun k => k <? n) (seq 0 (length ms)) /\
  (forall r, In r l -> is_ok r = false -> r = Err IOPInvalidVerifier) /\
  (length ms < n -> forall c, check_and_generate_subclaim s c = Err IOPInvalidVerifier) /\
  (n <= length ms -> vs_finished s = true).
Proof.
  intros o n d ms t Hn. rewrite vat_init by exact Hn.
  pose proof (verifier_calls_spec o n d ms 0 [] [] t ltac:(lia) eq_refl) as H.
  destruct (verifier_calls o _ t ms) as [l s]. destruct H as [A [B [D [E F]]]]. split; [exact A|]. split; [exact B|]. cbn [Nat.add] in D.
  split; intros Hl.
  - intros c. unfold check_and_generate_subclaim. rewrite D. replace (n <=? length ms) with false by (symmetry; apply Nat.leb_gt; exact Hl). reflexivity.
  - rewrite D. apply Nat.leb_le. exact Hl.
Qed.

(** With zero variables the verifier never finishes. *)
Lemma verifier_zero_vars : forall o d ms t,
  let (l, s) := verifier_calls o (verifier_init d 0) t ms in forall c, check_and_generate_subclaim s c = Err IOPInvalidVerifier.
Proof.
  intros o d ms t.
  assert (G : forall ms st t, vs_nv st = 0 -> 0 < vs_round st -> vs_finished st = false ->
    let (l, s) := verifier_calls o st t ms in vs_finished s = false).
  { clear. induction ms as [|m ms IH]; intros st t Hn Hr Hf; [exact Hf|]. cbn [verifier_calls].
    unfold verify_round. rewrite Hf, drawT_ok by reflexivity. cbn [bind]. rewrite Hn.
    replace (vs_round st =? 0) with false by (symmetry; apply Nat.eqb_neq; lia).
    match goal with |- context [verifier_calls o ?a ?b ms] => specialize (IH a b); destruct (verifier_calls o a b ms) as [l s] end.
    apply IH; cbn; [reflexivity|lia|reflexivity]. }
  specialize (G ms (verifier_init d 0) t eq_refl ltac:(simpl; lia) eq_refl).
  destruct (verifier_calls o _ t ms) as [l s]. intros c. unfold check_and_generate_subclaim. rewrite G. reflexivity.
Qed.
End Prime.
End Mal.
