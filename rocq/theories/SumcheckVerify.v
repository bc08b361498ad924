(** The sum-check verifier, completeness and soundness. *)
From Coq Require Import String List Arith Lia Bool ZArith Znumtheory Field.
Import ListNotations.
From Verif Require Import Res ResLemmas Fp FSum SpecMle SpecPoly SpecSumcheck MleLemmas PolyLemmas ModelMle ModelVp MleProofs
  VpProofs ModelTranscript ModelSumcheck InterpProofs SumcheckHist SumcheckProofs.
Local Open Scope string_scope.
Local Open Scope list_scope.
Local Open Scope nat_scope.

Section S.
Context {p : positive} {C : Type}.
Add Ring Fr : (@F_ring p).
Implicit Types (t : tr p C) (o : oracle p C).

(** Transcript after a draw with answer c. *)
Definition tdraw (label : string) (c : F p) t : tr p C :=
  append label (PF c) (mkTr (hist t ++ [EChal label]) false).

Lemma drawT_ok : forall o l t, is_empty t = false -> drawT o l t = Ok (o (hist t) l, tdraw l (o (hist t) l) t).
Proof. intros o l t H. unfold drawT, draw. rewrite H. reflexivity. Qed.

(** The challenges drawn for a list of messages, and the transcript afterwards. *)
Fixpoint run_msgs o (ms : list (list (F p))) t : list (F p) * tr p C :=
  match ms with
  | [] => ([], t)
  | m :: r => let t1 := append "prover msg" (PMsg m) t in
              let c := o (hist t1) "Internal round" in
              let (cs, t') := run_msgs o r (tdraw "Internal round" c t1) in (c :: cs, t')
  end.

Lemma run_msgs_length : forall o ms t, length (fst (run_msgs o ms t)) = length ms.
Proof.
  intros o ms. induction ms as [|m ms IH]; intros t; [reflexivity|]. cbn [run_msgs].
  specialize (IH (tdraw "Internal round" (o (hist (append "prover msg" (PMsg m) t)) "Internal round") (append "prover msg" (PMsg m) t))).
  destruct (run_msgs o ms _) as [cs t']. simpl in *. lia.
Qed.

(** Verifier state before round [i+1] of [n]. *)
Definition vat (n deg i : nat) (ms : list (list (F p))) (cs : list (F p)) : vstate p :=
  mkVstate (Nat.min (i + 1) n) n deg (n <=? i) ms cs.

Lemma verify_round_step : forall o n deg i ms cs m t, i < n -> is_empty t = false ->
  verify_round o (vat n deg i ms cs) m t =
  Ok (o (hist t) "Internal round", vat n deg (S i) (ms ++ [m]) (cs ++ [o (hist t) "Internal round"]),
      tdraw "Internal round" (o (hist t) "Internal round") t).
Proof.
  intros o n deg i ms cs m t Hi Ht. unfold verify_round, vat. cbn [vs_finished vs_round vs_nv vs_deg vs_polys vs_chals].
  replace (n <=? i) with false by (symmetry; apply Nat.leb_gt; exact Hi).
  rewrite drawT_ok by exact Ht. cbn [bind].
  replace (Nat.min (i + 1) n) with (i + 1) by lia. do 3 f_equal.
  destruct (Nat.eqb_spec (i + 1) n) as [E|E].
  - f_equal; [lia|]. symmetry. apply Nat.leb_le. lia.
  - f_equal; [lia|]. symmetry. apply Nat.leb_gt. lia.
Qed.

Lemma verify_loop_spec : forall o n deg ms k i pre cs t, i + k = n -> length pre = i -> length ms = k ->
  forall post, verify_loop o (pre ++ ms ++ post) k i (vat n deg i pre cs) t =
  Ok (vat n deg n (pre ++ ms) (cs ++ fst (run_msgs o ms t)), snd (run_msgs o ms t)).
Proof.
  intros o n deg ms. induction ms as [|m ms IH]; intros k i pre cs t Hn Hpre Hk post.
  - simpl in Hk. subst k. replace n with i by lia. simpl. rewrite !app_nil_r. reflexivity.
  - destruct k as [|k]; [discriminate|]. cbn [verify_loop].
    rewrite (rnth_ok _ i []) by (rewrite !app_length; simpl; lia).
    rewrite app_nth2 by lia. replace (i - length pre) with 0 by lia. cbn [app nth bind].
    rewrite verify_round_step by (auto; lia). cbn [bind].
    set (t1 := append "prover msg" (PMsg m) t). set (c := o (hist t1) "Internal round").
    replace (pre ++ m :: ms ++ post) with ((pre ++ [m]) ++ ms ++ post) by (rewrite <- app_assoc; reflexivity).
    rewrite IH; [|lia|rewrite app_length; simpl; lia|simpl in Hk; lia].
    cbn [run_msgs]. fold t1 c. destruct (run_msgs o ms (tdraw "Internal round" c t1)) as [cs' t']. cbn [fst snd].
    rewrite <- !app_assoc. reflexivity.
Qed.

Lemma verify_loop_short : forall o n deg ms k i cs t, i + k = n -> length ms < n -> i <= length ms ->
  verify_loop o ms k i (vat n deg i (firstn i ms) cs) t = Panic.
Proof.
  intros o n deg ms k. induction k as [|k IH]; intros i cs t Hn Hl Hi; [lia|]. cbn [verify_loop].
  destruct (Nat.eq_dec i (length ms)) as [E|E].
  - rewrite rnth_panic by lia. reflexivity.
  - rewrite (rnth_ok ms i []) by lia. cbn [bind]. rewrite verify_round_step by (auto; lia). cbn [bind].
    assert (E2 : firstn i ms ++ [nth i ms []] = firstn (S i) ms).
    { assert (Hi2 : i < length ms) by lia. clear - Hi2. revert i Hi2. induction ms as [|a ms IH]; intros [|i] H; simpl in *; try lia; [reflexivity|].
      f_equal. apply IH. lia. }
    rewrite E2. apply IH; lia.
Qed.

(** ** The final check *)
(** Expected final evaluation, or None when some check fails. *)
Fixpoint final (deg : nat) (ms : list (list (F p))) (cs : list (F p)) (claim : F p) : option (F p) :=
  match ms, cs with
  | [], [] => Some claim
  | m :: ms', c :: cs' =>
      if (length m =? deg + 1) && Feqb (nth 0 m F0 + nth 1 m F0)%F claim && negb (existsb (fun i => Feqb c (ofN i)) (seq 0 (length m)))
      then final deg ms' cs' (interp m c) else None
  | _, _ => None
  end.

Section Prime.
Hypothesis Hp : prime (Zpos p).
Add Field Ff : (F_field Hp).

Definition check_len_interp (deg : nat) (mc : list (F p) * F p) : res (F p) :=
  _ <- ensure (length (fst mc) =? deg + 1) IOPInvalidVerifier ;; interpolate_uni_poly (fst mc) (snd mc).
Definition check_sum (me : list (F p) * F p) : res unit :=
  a <- rnth (fst me) 0 ;; b <- rnth (fst me) 1 ;; ensure (Feqb (a + b)%F (snd me)) IOPInvalidProof.

Lemma check_len_interp_inv : forall deg m c y, deg + 1 <= fsize p -> check_len_interp deg (m, c) = Ok y ->
  length m = deg + 1 /\ existsb (fun i => Feqb c (ofN i)) (seq 0 (length m)) = false /\ y = interp m c.
Proof.
  intros deg m c y Hd H. unfold check_len_interp in H. cbn [fst snd] in H.
  destruct (Nat.eqb_spec (length m) (deg + 1)) as [E|E]; cbn [ensure bind] in H; [|discriminate].
  rewrite (interpolate_total Hp) in H; [|intros ->; simpl in E; lia|lia].
  destruct (existsb _ _); [discriminate|]. inversion H. auto.
Qed.

Lemma check_len_interp_ok : forall deg m c, deg + 1 <= fsize p -> length m = deg + 1 ->
  existsb (fun i => Feqb c (ofN i)) (seq 0 (length m)) = false -> check_len_interp deg (m, c) = Ok (interp m c).
Proof.
  intros deg m c Hd E Hx. unfold check_len_interp. cbn [fst snd]. rewrite E, Nat.eqb_refl. cbn [ensure bind].
  rewrite (interpolate_total Hp); [rewrite Hx; reflexivity|intros ->; simpl in E; lia|lia].
Qed.

Lemma check_sum_iff : forall m e, 2 <= length m -> check_sum (m, e) = ensure (Feqb (nth 0 m F0 + nth 1 m F0)%F e) IOPInvalidProof.
Proof.
  intros m e Hm. unfold check_sum. cbn [fst snd]. rewrite (rnth_ok m 0 F0), (rnth_ok m 1 F0) by lia. reflexivity.
Qed.

(** The two passes of the code, fused. *)
Lemma passes_sound : forall deg ms cs claim ev us e, deg + 1 <= fsize p -> 1 <= deg -> length ms = length cs ->
  mapM (check_len_interp deg) (combine ms cs) = Ok ev ->
  mapM check_sum (firstn (length ms) (combine ms (claim :: ev))) = Ok us ->
  rnth (claim :: ev) (length ms) = Ok e -> final deg ms cs claim = Some e.
Proof.
  intros deg ms. induction ms as [|m ms IH]; intros [|c cs] claim ev us e Hd H1 Hl He Hs Hr; try discriminate Hl.
  - cbn [combine mapM] in He. inversion He; subst ev. cbn in Hr. inversion Hr. reflexivity.
  - cbn [combine mapM] in He. apply bind_ok_inv in He. destruct He as [y [Hy He]].
    apply bind_ok_inv in He. destruct He as [ev' [He' He]]. inversion He; subst ev.
    apply check_len_interp_inv in Hy; [|exact Hd]. destruct Hy as [Hm [Hx ->]].
    cbn [length combine firstn mapM] in Hs. apply bind_ok_inv in Hs. destruct Hs as [u [Hu Hs]].
    apply bind_ok_inv in Hs. destruct Hs as [us' [Hs' Hs]]. rewrite check_sum_iff in Hu by lia.
    cbn [final]. rewrite Hx, Hm, Nat.eqb_refl. destruct (Feqb _ claim) eqn:Ec; [|discriminate Hu]. cbn [andb negb].
    simpl in Hl. apply (IH cs (interp m c) ev' us'); auto.
Qed.

Lemma passes_complete : forall deg ms cs claim e, deg + 1 <= fsize p -> 1 <= deg -> final deg ms cs claim = Some e ->
  exists ev us, mapM (check_len_interp deg) (combine ms cs) = Ok ev /\
  mapM check_sum (firstn (length ms) (combine ms (claim :: ev))) = Ok us /\
  rnth (claim :: ev) (length ms) = Ok e /\ length ms = length cs.
Proof.
  intros deg ms. induction ms as [|m ms IH]; intros [|c cs] claim e Hd H1 H; try discriminate H.
  - inversion H; subst. exists [], []. auto.
  - cbn [final] in H. destruct (Nat.eqb_spec (length m) (deg + 1)) as [Hm|]; [|discriminate].
    destruct (Feqb (nth 0 m F0 + nth 1 m F0)%F claim) eqn:Ec; [|discriminate].
    destruct (existsb _ _) eqn:Ex; [discriminate|]. cbn [andb negb] in H.
    destruct (IH cs (interp m c) e Hd H1 H) as [ev [us [A [B [D E]]]]].
    exists (interp m c :: ev), (tt :: us). cbn [combine mapM length firstn].
    rewrite check_len_interp_ok by assumption. cbn [bind]. rewrite A. cbn [bind]. rewrite check_sum_iff by lia. rewrite Ec.
    cbn [ensure bind]. rewrite B. cbn [bind]. split; [reflexivity|]. split; [reflexivity|]. split; [exact D|]. lia.
Qed.

Lemma check_spec_ok : forall n deg ms cs claim s, deg + 1 <= fsize p -> 1 <= deg -> length ms = length cs ->
  check_and_generate_subclaim (mkVstate n n deg true ms cs) claim = Ok s <->
  length ms = n /\ sub_point s = cs /\ final deg ms cs claim = Some (sub_eval s).
Proof.
  intros n deg ms cs claim s Hd H1 Hl. unfold check_and_generate_subclaim. cbn [vs_finished vs_polys vs_nv vs_chals vs_deg ensure bind].
  fold (check_len_interp deg). fold check_sum. split.
  - intros H. destruct (Nat.eqb_spec (length ms) n) as [En|]; cbn [ensure bind] in H; [|discriminate].
    apply bind_ok_inv in H. destruct H as [ev [A H]]. apply bind_ok_inv in H. destruct H as [us [B H]].
    apply bind_ok_inv in H. destruct H as [e [D H]]. inversion H; subst s. cbn [sub_point sub_eval].
    split; [exact En|]. split; [reflexivity|]. rewrite <- En in B, D.
    eapply passes_sound; eauto.
  - intros [En [Hs Hf]]. apply passes_complete in Hf; auto. destruct Hf as [ev [us [A [B [D _]]]]].
    rewrite En, Nat.eqb_refl. cbn [ensure bind]. change (fun mc : list (F p) * F p => _ <- ensure (length (fst mc) =? deg + 1) IOPInvalidVerifier;; interpolate_uni_poly (fst mc) (snd mc)) with (check_len_interp deg).
    rewrite A. cbn [bind]. rewrite <- En in *. change (fun me : list (F p) * F p => a <- rnth (fst me) 0;; b <- rnth (fst me) 1;; ensure (Feqb (a + b)%F (snd me)) IOPInvalidProof) with check_sum.
    rewrite B. cbn [bind]. rewrite D. cbn [bind]. destruct s as [sp se]. cbn in *. subst sp. reflexivity.
Qed.

(** Acceptance by [verify], in terms of [final]. *)
Lemma sc_verify_ok : forall o claimed pf deg n t s t', deg + 1 <= fsize p -> 1 <= deg ->
  sc_verify o claimed pf deg n t = Ok (s, t') <->
  0 < n /\ n <= length (pf_msgs pf) /\
  run_msgs o (firstn n (pf_msgs pf)) (append "aux info" (PAux deg n) t) = (sub_point s, t') /\
  final deg (firstn n (pf_msgs pf)) (sub_point s) claimed = Some (sub_eval s).
Proof.
  intros o claimed pf deg n t s t' Hd H1. unfold sc_verify.
  set (t1 := append "aux info" (PAux deg n) t). set (msgs := pf_msgs pf).
  destruct (Nat.eq_dec n 0) as [-> |Hn].
  { cbn [verify_loop bind]. unfold check_and_generate_subclaim, verifier_init. cbn [vs_finished ensure bind].
    split; [discriminate|lia]. }
  change (verifier_init deg n) with (@mkVstate p 1 n deg false [] []).
  replace (@mkVstate p 1 n deg false [] []) with (vat n deg 0 [] []).
  2:{ unfold vat. replace (n <=? 0) with false by (symmetry; apply Nat.leb_gt; lia). f_equal. lia. }
  destruct (Nat.le_gt_cases n (length msgs)) as [Hle|Hgt].
  - replace msgs with ([] ++ firstn n msgs ++ skipn n msgs) at 1 by apply firstn_skipn.
    rewrite verify_loop_spec; [|lia|reflexivity|rewrite firstn_length; lia]. cbn [app bind].
    destruct (run_msgs o (firstn n msgs) t1) as [cs tt'] eqn:Er. cbn [fst snd].
    assert (Hcs : length cs = length (firstn n msgs)).
    { pose proof (run_msgs_length o (firstn n msgs) t1) as E. rewrite Er in E. exact E. }
    unfold vat. replace (n <=? n) with true by (symmetry; apply Nat.leb_le; lia). replace (Nat.min (n + 1) n) with n by lia.
    split.
    + intros H. apply bind_ok_inv in H. destruct H as [s' [H H']]. inversion H'; subst s' tt'.
      apply check_spec_ok in H; [|exact Hd|exact H1|lia]. destruct H as [_ [Ha Hb]]. subst cs.
      split; [lia|]. split; [exact Hle|]. split; [reflexivity|exact Hb].
    + intros [_ [_ [Ha Hb]]]. inversion Ha; subst cs tt'.
      assert (E : check_and_generate_subclaim (mkVstate n n deg true (firstn n msgs) (sub_point s)) claimed = Ok s).
      { apply check_spec_ok; auto. split; [rewrite firstn_length; lia|]. split; [reflexivity|exact Hb]. }
      rewrite E. reflexivity.
  - pose proof (verify_loop_short o n deg msgs n 0 [] t1) as E. cbn [firstn] in E. rewrite E by lia. split; [discriminate|lia].
Qed.

(** ** Sums *)
Lemma cube_sum_step : forall n (f : list (F p) -> F p) pre, length pre < n ->
  (round_poly n f pre F0 + round_poly n f pre F1)%F = cube_sum (n - length pre) (fun b => f (pre ++ b)).
Proof.
  intros n f pre Hl. unfold round_poly. remember (n - length pre - 1) as m eqn:Em.
  replace (n - length pre) with (S m) by lia. unfold cube_sum. rewrite pow2_S.
  rewrite sumN_even_odd, <- sumN_add. apply sumN_ext. intros k _.
  unfold bpoint. rewrite bits_double, bits_double1. cbn [map b2f]. reflexivity.
Qed.

Lemma round_poly_next : forall n (f : list (F p) -> F p) pre c, length pre < n ->
  round_poly n f pre c = cube_sum (n - length (pre ++ [c])) (fun b => f ((pre ++ [c]) ++ b)).
Proof.
  intros n f pre c Hl. unfold round_poly. rewrite app_length. simpl. rewrite Nat.sub_add_distr.
  unfold cube_sum. apply sumN_ext. intros k _. rewrite <- app_assoc. reflexivity.
Qed.

Lemma round_poly_polyfun : forall n d (f : list (F p) -> F p) pre, ind_degree n d f -> length pre < n ->
  polyfun d (round_poly n f pre).
Proof.
  intros n d f pre Hf Hl. unfold round_poly, cube_sum.
  apply (polyfun_sumN d (fun k x => f (pre ++ x :: bpoint (n - length pre - 1) k))). intros k _. apply Hf.
  rewrite bpoint_length. lia.
Qed.

Lemma round_msg_length : forall n d (f : list (F p) -> F p) cs, length (round_msg n d f cs) = d + 1.
Proof. intros. unfold round_msg. rewrite map_length, seq_length. reflexivity. Qed.

Lemma round_msg_nth : forall n d (f : list (F p) -> F p) cs i, i <= d -> nth i (round_msg n d f cs) F0 = round_poly n f cs (ofN i).
Proof. intros n d f cs i Hi. unfold round_msg. rewrite (nth_map_seq (fun x => round_poly n f cs (ofN x))) by lia. reflexivity. Qed.

Lemma interp_round_msg : forall n d (f : list (F p) -> F p) cs x, ind_degree n d f -> d + 1 <= fsize p -> length cs < n ->
  interp (round_msg n d f cs) x = round_poly n f cs x.
Proof.
  intros n d f cs x Hf Hd Hl. apply (interp_unique Hp d); [apply round_poly_polyfun; assumption|rewrite round_msg_length; lia|lia|].
  intros i Hi. apply round_msg_nth. exact Hi.
Qed.

(** ** Completeness *)
(** The honest messages for a given challenge vector. *)
Definition honest (n d : nat) (f : list (F p) -> F p) (pre cs : list (F p)) : list (list (F p)) :=
  map (fun j => round_msg n d f (pre ++ firstn j cs)) (seq 0 (length cs)).

Lemma honest_cons : forall n d f pre c cs, honest n d f pre (c :: cs) = round_msg n d f pre :: honest n d f (pre ++ [c]) cs.
Proof.
  intros n d f pre c cs. unfold honest. cbn [length seq map]. rewrite <- seq_shift, map_map. cbn [firstn]. rewrite app_nil_r.
  f_equal. apply map_ext. intros j. rewrite <- app_assoc. reflexivity.
Qed.

Lemma honest_final : forall n d (f : list (F p) -> F p) cs pre, ind_degree n d f -> d + 1 <= fsize p -> 1 <= d ->
  length pre + length cs = n -> (forall c, In c cs -> nonnode (d + 1) c) ->
  final d (honest n d f pre cs) cs (cube_sum (n - length pre) (fun b => f (pre ++ b))) = Some (f (pre ++ cs)).
Proof.
  intros n d f cs. induction cs as [|c cs IH]; intros pre Hf Hd H1 Hl Hn.
  - simpl in Hl. replace (n - length pre) with 0 by lia. unfold honest. cbn [length seq map final]. f_equal. unfold cube_sum, sumN. cbn. rewrite !app_nil_r. ring.
  - simpl in Hl. rewrite honest_cons. cbn [final]. rewrite round_msg_length, Nat.eqb_refl. cbn [andb].
    rewrite !round_msg_nth by lia. change (@ofN p 0) with (@F0 p). change (@ofN p 1) with (@F1 p).
    rewrite cube_sum_step by lia. rewrite Feqb_refl. cbn [andb].
    replace (existsb _ _) with false.
    + cbn [negb]. rewrite interp_round_msg by (auto; lia). rewrite round_poly_next by lia. rewrite IH; auto.
      * rewrite <- app_assoc. reflexivity.
      * rewrite app_length. simpl. lia.
      * intros c' Hc'. apply Hn. right. exact Hc'.
    + symmetry. apply not_true_iff_false. intros E. apply existsb_exists in E. destruct E as [i [Hi E]].
      apply in_seq in Hi. apply Feqb_eq in E. apply (Hn c (or_introl eq_refl) i); [lia|exact E].
Qed.

(** The prover's loop: it sends the honest messages for the challenges that its transcript gives. *)
Lemma prove_loop_spec : forall o sc (v : vp p), vp_inv v -> S (max_degree v) <= fsize p ->
  forall k i st chal cs msgs t, at_round v st chal cs -> length cs + k = num_variables v ->
  exists st' chal' new t', prove_loop o sc k i st chal msgs t =
      Ok (st', chal', msgs ++ honest (num_variables v) (max_degree v) (vp_val v) cs new, t') /\
    length new = k /\ at_round v st' chal' (cs ++ new) /\
    run_msgs o (honest (num_variables v) (max_degree v) (vp_val v) cs new) t = (new, t').
Proof.
  intros o sc v Hi Hd. induction k as [|k IH]; intros i st chal cs msgs t Hat Hl.
  - exists st, chal, [], t. cbn. rewrite !app_nil_r. auto.
  - cbn [prove_loop].
    destruct (prove_round_spec Hp v (sc i) st chal cs Hi Hd Hat) as [st' [E [Hr Hs]]]; [lia|].
    rewrite E. cbn [bind]. set (m := round_msg (num_variables v) (max_degree v) (vp_val v) cs) in *.
    rewrite drawT_ok by reflexivity. cbn [bind]. set (t1 := append "prover msg" (PMsg m) t).
    set (c := o (hist t1) "Internal round").
    destruct (IH (S i) st' (Some c) (cs ++ [c]) (msgs ++ [m]) (tdraw "Internal round" c t1)) as [st2 [chal2 [new [t2 [A [B [D R]]]]]]].
    { exists cs. auto. }
    { rewrite app_length. simpl. lia. }
    exists st2, chal2, (c :: new), t2. rewrite honest_cons. fold m. rewrite A. split; [rewrite <- app_assoc; reflexivity|].
    split; [simpl; lia|]. split; [rewrite <- app_assoc in D; exact D|]. cbn [run_msgs]. fold t1 c. rewrite R. reflexivity.
Qed.

Lemma prover_init_at : forall v : vp p, vp_inv v -> 0 < num_variables v ->
  exists st, prover_init v = Ok st /\ at_round v st None [].
Proof.
  intros v Hi Hn. unfold prover_init. replace (num_variables v =? 0) with false by (symmetry; apply Nat.eqb_neq; lia).
  eexists. split; [reflexivity|]. cbn [at_round]. split; [reflexivity|]. split; [reflexivity|]. constructor; try reflexivity.
  intros i Hi'. cbn [ps_poly flat]. destruct (inv_flat v Hi (nth i (flat v) dummy)) as [Hw Hnv]; [apply nth_In; exact Hi'|].
  cbn zeta. rewrite Hnv. split; [exact Hw|]. split; [simpl; lia|]. intros x. reflexivity.
Qed.

Lemma sc_prove_spec : forall o sc (v : vp p) t, vp_inv v -> S (max_degree v) <= fsize p -> 0 < num_variables v ->
  exists cs t', sc_prove o sc v t = Ok (mkProof cs (honest (num_variables v) (max_degree v) (vp_val v) [] cs), t') /\
    length cs = num_variables v /\
    run_msgs o (honest (num_variables v) (max_degree v) (vp_val v) [] cs)
       (append "aux info" (PAux (max_degree v) (num_variables v)) t) = (cs, t').
Proof.
  intros o sc v t Hi Hd Hn. unfold sc_prove. destruct (prover_init_at v Hi Hn) as [st [-> Hat]]. cbn [bind].
  destruct (prove_loop_spec o sc v Hi Hd (num_variables v) 0 st None [] [] (append "aux info" (PAux (max_degree v) (num_variables v)) t) Hat eq_refl)
    as [st' [chal [new [t' [E [Hl [Hat' R]]]]]]].
  rewrite E. cbn [bind]. exists new, t'. split; [|auto]. do 3 f_equal. cbn [app] in Hat'.
  destruct chal as [c|]; cbn [at_round] in Hat'.
  - destruct Hat' as [cs' [-> [_ Hs]]]. rewrite (si_chals v st' cs' Hs). reflexivity.
  - destruct Hat' as [-> [_ Hs]]. exact (si_chals v st' [] Hs).
Qed.

Lemma honest_length : forall n d f pre cs, length (honest n d f pre cs) = length cs.
Proof. intros. unfold honest. rewrite map_length, seq_length. reflexivity. Qed.

(** Multilinear extensions are affine in each coordinate. *)
Lemma mle_coord : forall n (f : nat -> F p) pre post, length pre + 1 + length post = n ->
  exists a b, forall x, mle_ext n f (pre ++ x :: post) = (a + x * b)%F.
Proof.
  intros n f pre post Hl. replace n with (length pre + S (length post)) by lia.
  set (g := fun x : F p => mle_ext (length pre + S (length post)) f (pre ++ x :: post)).
  exists (g F0), (g F1 - g F0)%F. intros x. unfold g. rewrite !mle_ext_app by reflexivity.
  rewrite !mle_ext_cons. ring.
Qed.

Lemma vp_val_degree : forall v : vp p, vp_inv v -> ind_degree (num_variables v) (max_degree v) (vp_val v).
Proof.
  intros v Hi pre post Hl. unfold vp_val.
  apply (polyfun_Fsum (max_degree v) (fun cp x => prod_val v (pre ++ x :: post) cp)). intros [c idx] Hc.
  destruct (inv_prod v Hi c idx Hc) as [_ [Hb _]]. unfold prod_val. cbn [fst snd]. apply polyfun_scale.
  apply (polyfun_mono (length idx)); [exact Hb|].
  apply (polyfun_Fprod (fun i x => flat_val v (pre ++ x :: post) i)). intros i _. unfold flat_val.
  destruct (mle_coord (num_variables v) (tab (evs (snd (nth i (flat v) dummy)))) pre post Hl) as [a [b E]].
  apply (polyfun_ext 1 (fun x => a + x * b)%F); [intros x; symmetry; apply E|apply polyfun_linear].
Qed.

Lemma sc_complete : forall o sc (v : vp p) t, vp_inv v -> max_degree v < fsize p -> 0 < num_variables v -> 1 <= max_degree v ->
  exists pf t', sc_prove o sc v t = Ok (pf, t') /\ length (pf_point pf) = num_variables v /\
    extract_sum pf = Ok (cube_sum (num_variables v) (vp_val v)) /\
    ((forall c, In c (pf_point pf) -> nonnode (max_degree v + 1) c) ->
     sc_verify o (cube_sum (num_variables v) (vp_val v)) pf (max_degree v) (num_variables v) t =
       Ok (mkSub (pf_point pf) (vp_val v (pf_point pf)), t')).
Proof.
  intros o sc v t Hi Hd Hn H1. destruct (sc_prove_spec o sc v t Hi Hd Hn) as [cs [t' [E [Hl R]]]].
  eexists. exists t'. split; [exact E|]. cbn [pf_point]. split; [exact Hl|]. split.
  - unfold extract_sum. cbn [pf_msgs]. destruct cs as [|c cs]; [simpl in Hl; lia|]. rewrite honest_cons. cbn [rnth nth_error ounwrap bind].
    rewrite (rnth_ok _ 0 F0), (rnth_ok _ 1 F0) by (rewrite round_msg_length; lia). cbn [bind]. rewrite !round_msg_nth by lia. f_equal.
    change (@ofN p 0) with (@F0 p). change (@ofN p 1) with (@F1 p). rewrite cube_sum_step by (simpl; lia).
    cbn [length app]. rewrite Nat.sub_0_r. reflexivity.
  - intros Hc. apply sc_verify_ok; [lia|exact H1|]. cbn [pf_msgs sub_point sub_eval]. rewrite honest_length.
    rewrite firstn_all2 by (rewrite honest_length; lia). split; [exact Hn|]. split; [lia|]. split; [exact R|].
    pose proof (honest_final (num_variables v) (max_degree v) (vp_val v) cs []) as F. cbn [length app] in F. rewrite Nat.sub_0_r in F.
    apply F; auto; [apply vp_val_degree; exact Hi|lia].
Qed.

(** ** Soundness *)
Lemma final_sound : forall n d (f : list (F p) -> F p), ind_degree n d f -> d + 1 <= fsize p -> 1 <= d ->
  forall ms cs pre claim, length pre + length cs = n -> final d ms cs claim = Some (f (pre ++ cs)) ->
  claim = cube_sum (n - length pre) (fun b => f (pre ++ b)) \/
  exists j, j < length cs /\ lucky n d f (nth j ms []) (pre ++ firstn j cs) (nth j cs F0).
Proof.
  intros n d f Hf Hd H1. induction ms as [|m ms IH]; intros [|c cs] pre claim Hl H; try discriminate H.
  - left. inversion H. simpl in Hl. replace (n - length pre) with 0 by lia.
    unfold cube_sum, sumN. cbn. rewrite app_nil_r. ring.
  - cbn [final] in H. destruct (Nat.eqb_spec (length m) (d + 1)) as [Hm|]; [|discriminate].
    destruct (Feqb (nth 0 m F0 + nth 1 m F0)%F claim) eqn:Ec; [|discriminate]. apply Feqb_eq in Ec.
    destruct (existsb _ _) eqn:Ex; [discriminate|]. cbn [andb negb] in H.
    replace (pre ++ c :: cs) with ((pre ++ [c]) ++ cs) in H by (rewrite <- app_assoc; reflexivity).
    simpl in Hl. destruct (IH cs (pre ++ [c]) (interp m c)) as [E|[j [Hj L]]]; [rewrite app_length; simpl; lia|exact H| |].
    + rewrite <- round_poly_next in E by lia.
      destruct (F_dec claim (cube_sum (n - length pre) (fun b => f (pre ++ b)))) as [Y|N]; [left; exact Y|].
      right. exists 0. split; [simpl; lia|]. cbn [nth firstn]. rewrite app_nil_r.
      assert (Hx : exists x, interp m x <> round_poly n f pre x).
      { rewrite <- cube_sum_step in N by lia. rewrite <- Ec in N.
        rewrite <- (interp_node Hp m 0), <- (interp_node Hp m 1) in N by lia.
        change (@ofN p 0) with (@F0 p) in N. change (@ofN p 1) with (@F1 p) in N.
        destruct (F_dec (interp m F0) (round_poly n f pre F0)) as [E0|N0]; [|exists F0; exact N0].
        exists F1. intros E1. apply N. rewrite E0, E1. reflexivity. }
      split; [exact Hx|]. split; [exact E|]. apply (polyfun_agree_count Hp); [|apply round_poly_polyfun; auto; lia|exact Hx].
      apply (interp_polyfun Hp). lia.
    + right. exists (S j). split; [simpl; lia|]. cbn [nth firstn]. rewrite <- app_assoc in L. exact L.
Qed.

Lemma sc_sound : forall o claimed pf n d t s t' (f : list (F p) -> F p), ind_degree n d f -> d < fsize p -> 1 <= d ->
  sc_verify o claimed pf d n t = Ok (s, t') -> sub_eval s = f (sub_point s) ->
  claimed = cube_sum n f \/
  exists j, j < n /\ lucky n d f (nth j (pf_msgs pf) []) (firstn j (sub_point s)) (nth j (sub_point s) F0).
Proof.
  intros o claimed pf n d t s t' f Hf Hd H1 H He. apply sc_verify_ok in H; [|lia|exact H1]. destruct H as [Hn [Hl [R H]]].
  assert (Hc : length (sub_point s) = n).
  { pose proof (run_msgs_length o (firstn n (pf_msgs pf)) (append "aux info" (PAux d n) t)) as E. rewrite R in E. cbn [fst] in E.
    rewrite E, firstn_length. lia. }
  rewrite He in H. destruct (final_sound n d f Hf ltac:(lia) H1 (firstn n (pf_msgs pf)) (sub_point s) [] claimed Hc H) as [E|[j [Hj L]]].
  - left. rewrite E. cbn [length app]. rewrite Nat.sub_0_r. reflexivity.
  - right. exists j. split; [lia|]. cbn [app] in L. replace (nth j (firstn n (pf_msgs pf)) []) with (nth j (pf_msgs pf) []) in L; [exact L|].
    assert (Hj' : j < n) by lia. clear - Hj'. revert n Hj'. generalize (pf_msgs pf). intros l. revert j.
    induction l as [|a l IH]; intros j n Hj; [rewrite firstn_nil; reflexivity|]. destruct n; [lia|]. destruct j; [reflexivity|].
    simpl. apply IH. lia.
Qed.

(** *** Counting *)
Lemma nchal_app : forall (h1 h2 : list (event p C)), nchal (h1 ++ h2) = nchal h1 + nchal h2.
Proof. intros. unfold nchal. rewrite filter_app, app_length. reflexivity. Qed.

Lemma run_msgs_script : forall ms (ch : list (F p)) k0 t j, nchal (hist t) = k0 + j -> j + length ms <= length ch ->
  fst (run_msgs (script k0 ch) ms t) = firstn (length ms) (skipn j ch).
Proof.
  induction ms as [|m ms IH]; intros ch k0 t j Hn Hl; [reflexivity|]. cbn [run_msgs].
  set (t1 := append "prover msg" (PMsg m) t). set (c := script k0 ch (hist t1) "Internal round").
  simpl in Hl. specialize (IH ch k0 (tdraw "Internal round" c t1) (S j)).
  destruct (run_msgs (script k0 ch) ms (tdraw "Internal round" c t1)) as [cs t']. cbn [fst] in *.
  assert (H1 : nchal (hist t1) = k0 + j).
  { unfold t1, append. cbn [hist]. rewrite nchal_app. unfold nchal at 2. cbn. lia. }
  rewrite IH; [| |lia].
  - assert (Hc : c = nth j ch F0). { unfold c, script. rewrite H1. f_equal. lia. }
    rewrite Hc. assert (Hj : j < length ch) by lia. clear - Hj. revert ch Hj. induction j as [|j IH]; intros [|a ch] H; simpl in *; try lia; [reflexivity|].
    apply IH. lia.
  - unfold tdraw, append. cbn [hist]. rewrite !nchal_app, H1. unfold nchal. cbn. lia.
Qed.

Definition opt_is (x : option (F p)) (y : F p) : bool := match x with Some e => Feqb e y | None => false end.

Lemma play_cons : forall st c (ch : list (F p)), play st (c :: ch) = st [] :: play (fun pre => st (c :: pre)) ch.
Proof. intros st c ch. unfold play. cbn [length seq map firstn]. f_equal. rewrite <- seq_shift, map_map. reflexivity. Qed.

Lemma final_count : forall n d (f : list (F p) -> F p), ind_degree n d f -> d + 1 <= fsize p -> 1 <= d ->
  forall k pre st claim, length pre + k = n -> claim <> cube_sum k (fun b => f (pre ++ b)) ->
  count (fun ch => opt_is (final d (play st ch) ch claim) (f (pre ++ ch))) (allV p k) <= k * d * fsize p ^ (k - 1).
Proof.
  intros n d f Hf Hd H1. induction k as [|k IH]; intros pre st claim Hl Hne.
  - rewrite count_false; [lia|]. intros ch Hch. apply allV_in_length in Hch. destruct ch; [|discriminate].
    cbn. apply Feqb_neq. intros E. apply Hne. rewrite E. unfold cube_sum, sumN. cbn. ring.
  - set (m := st []).
    destruct ((length m =? d + 1) && Feqb (nth 0 m F0 + nth 1 m F0)%F claim) eqn:Eg.
    2:{ rewrite count_false; [lia|]. intros ch Hch. apply allV_in_length in Hch. destruct ch as [|c ch]; [discriminate|].
        rewrite play_cons. cbn [final]. fold m. rewrite Eg. reflexivity. }
    apply andb_true_iff in Eg. destruct Eg as [Em Ec]. apply Nat.eqb_eq in Em. apply Feqb_eq in Ec.
    assert (Hx : exists x, interp m x <> round_poly n f pre x).
    { replace (S k) with (n - length pre) in Hne by lia. rewrite <- cube_sum_step in Hne by lia. rewrite <- Ec in Hne.
      rewrite <- (interp_node Hp m 0), <- (interp_node Hp m 1) in Hne by lia.
      change (@ofN p 0) with (@F0 p) in Hne. change (@ofN p 1) with (@F1 p) in Hne.
      destruct (F_dec (interp m F0) (round_poly n f pre F0)) as [E0|N0]; [|exists F0; exact N0].
      exists F1. intros E1. apply Hne. rewrite E0, E1. reflexivity. }
    replace (S k - 1) with k by lia.
    eapply Nat.le_trans; [|apply bound_step].
    apply (count_step k d (k * d * fsize p ^ (k - 1)) (fun c => Feqb (interp m c) (round_poly n f pre c))).
    + apply (polyfun_agree_count Hp); [apply (interp_polyfun Hp); lia|apply round_poly_polyfun; auto; lia|exact Hx].
    + intros c Hbad. apply Feqb_neq in Hbad.
      eapply Nat.le_trans; [|apply (IH (pre ++ [c]) (fun q => st (c :: q)) (interp m c))].
      * apply count_le. intros ch Hch. rewrite play_cons. cbn [final]. fold m.
        destruct (_ && _); [|discriminate]. rewrite <- app_assoc. cbn [app]. auto.
      * rewrite app_length. simpl. lia.
      * intros E. apply Hbad. rewrite E, round_poly_next by lia. f_equal. rewrite app_length. simpl. lia.
Qed.

Lemma play_length : forall st (ch : list (F p)), length (play st ch) = length ch.
Proof. intros. unfold play. rewrite map_length, seq_length. reflexivity. Qed.

Lemma script_point : forall ms (ch : list (F p)) d n t, length ms = length ch ->
  fst (run_msgs (script (nchal (hist t)) ch) ms (append "aux info" (PAux d n) t)) = ch.
Proof.
  intros ms ch d n t Hl. rewrite (run_msgs_script ms ch _ _ 0).
  - cbn [skipn]. rewrite Hl. apply firstn_all.
  - unfold append. cbn [hist]. rewrite nchal_app. unfold nchal at 2. cbn. lia.
  - lia.
Qed.

Lemma sc_sound_count : forall n d (f : list (F p) -> F p) claimed st pt t, ind_degree n d f -> d < fsize p -> 1 <= d ->
  claimed <> cube_sum n f ->
  count (accepts_false n d f claimed st pt t) (allV p n) <= n * d * fsize p ^ (n - 1).
Proof.
  intros n d f claimed st pt t Hf Hd H1 Hne.
  eapply Nat.le_trans; [|apply (final_count n d f Hf ltac:(lia) H1 n [] st claimed eq_refl Hne)].
  apply count_le. intros ch Hch H. apply allV_in_length in Hch. unfold accepts_false in H.
  destruct (sc_verify _ _ _ _ _ _) as [[s t']| |] eqn:E; try discriminate.
  apply sc_verify_ok in E; [|lia|exact H1]. cbn [pf_msgs] in E. destruct E as [Hn [_ [R F]]].
  rewrite firstn_all2 in R, F by (rewrite play_length; lia).
  pose proof (script_point (play st ch) ch d n t (play_length st ch)) as Ep. rewrite R in Ep. cbn [fst] in Ep.
  rewrite Ep in *. rewrite F. cbn [opt_is app]. exact H.
Qed.
End Prime.
End S.
