(** Completeness of the compiled proof, and how many challenges let an honest proof of a false claim pass. *)
From Coq Require Import String List Arith Lia Bool ZArith Znumtheory.
Import ListNotations.
From Verif Require Import Res ResLemmas Fp FSum SpecMle SpecVp SpecKzg SpecPoly SpecSumcheck SpecBatch SpecTracker ModelMle MleLemmas MleProofs MleExtra ModelVp VpHist VpProofs VpExtra
  ModelTranscript ModelSumcheck PolyLemmas SumcheckVerify ZerocheckProofs TranscriptProofs Pairing ModelKzg KzgProofs KzgExtra ModelBatch BatchProofs BatchExtra
  ModelProver ModelVerifier ProverHist VerifierHist CompileHist TmapLemmas ProverProofs ProverExtra ProverStep DegreeProofs EqualizeProofs CompileProofs CompileExtra HistExtra
  LockProofs VerifierExtra CompileMain.
Local Open Scope string_scope.
Local Open Scope list_scope.
Local Open Scope nat_scope.

Section C.
Context {p : positive}.
Hypothesis Hp : prime (Zpos p).
Add Ring Fr : (@F_ring p).
Implicit Types cs ds : list (F p).

Definition F_eq_dec (x y : F p) : {x = y} + {x <> y}.
Proof. destruct (Feqb x y) eqn:H; [left; apply Feqb_eq|right; apply Feqb_neq]; exact H. Defined.

Lemma weighted_sub : forall cs a b, length a = length b -> weighted cs a = weighted cs b -> weighted cs (map (fun xy : F p * F p => fst xy - snd xy)%F (combine a b)) = F0.
Proof.
  intros cs a b Hl H. assert (G : weighted cs (map (fun xy : F p * F p => (fst xy - snd xy)%F) (combine a b)) = (weighted cs a - weighted cs b)%F).
  { clear H. revert a b Hl. induction cs as [|c cs IH]; intros a b Hl.
    - unfold weighted. cbn. unfold Fsum. cbn. ring.
    - destruct a as [|x a]; destruct b as [|y b]; try discriminate Hl.
      + cbn [combine map]. unfold weighted. cbn. unfold Fsum. cbn. ring.
      + cbn [combine map fst snd]. rewrite !weighted_cons, IH by (cbn in Hl; lia). ring. }
  rewrite G, H. ring.
Qed.

Lemma weighted_zeros : forall cs ds, (forall d, In d ds -> d = F0) -> weighted cs ds = F0.
Proof.
  induction cs as [|c cs IH]; intros ds H; [reflexivity|]. destruct ds as [|d ds]; [reflexivity|].
  rewrite weighted_cons, IH by (intros; apply H; right; assumption). rewrite (H d (or_introl eq_refl)). ring.
Qed.

Lemma count_eq_one : forall (d e : F p), d <> F0 -> count (fun a => Feqb (a * d)%F e) (allF p) <= 1.
Proof.
  intros d e Hd. eapply Nat.le_trans; [|apply (polyfun_zero_count Hp 1 (fun x => (F0 - e) + x * d)%F (polyfun_linear _ _))].
  - apply count_le. intros a _ H. apply Feqb_eq in H. apply Feqb_eq. rewrite H. ring.
  - destruct (F_eq_dec e F0) as [->|He].
    + exists F1. intros H. apply Hd. rewrite <- H. ring.
    + exists F0. intros H. apply He. replace e with (F0 - ((F0 - e) + F0 * d))%F by ring. rewrite H. ring.
Qed.

Lemma count_weighted : forall ds e, (exists d, In d ds /\ d <> F0) -> count (fun cs => Feqb (weighted cs ds) e) (allV p (length ds)) <= fsize p ^ (length ds - 1).
Proof.
  induction ds as [|d ds IH]; intros e [x [Hx Hn]]; [contradiction|]. cbn [length]. replace (S (length ds) - 1) with (length ds) by lia.
  destruct (Forall_Exists_dec (fun y => y = F0) (fun y => F_eq_dec y F0) ds) as [Hz|Hz].
  - assert (Hd : d <> F0). { destruct Hx as [<-|Hx]; [exact Hn|]. rewrite Forall_forall in Hz. elim Hn. apply Hz. exact Hx. }
    eapply Nat.le_trans; [apply (count_step (length ds) 1 0 (fun a => Feqb (a * d)%F e)); [apply count_eq_one; exact Hd|]|lia].
    intros a Ha. rewrite count_false; [lia|]. intros cs _. rewrite weighted_cons, weighted_zeros by (apply Forall_forall; exact Hz).
    rewrite <- Ha. f_equal. ring.
  - apply Exists_exists in Hz. destruct Hz as [y [Hy Hyn]].
    eapply Nat.le_trans; [apply (count_step (length ds) 0 (fsize p ^ (length ds - 1)) (fun _ => false)); [rewrite count_false; auto|]|].
    + intros a _. eapply Nat.le_trans; [|apply (IH (e - a * d)%F); exists y; auto]. apply count_le. intros cs _ H. apply Feqb_eq in H. apply Feqb_eq.
      rewrite weighted_cons in H. rewrite <- H. ring.
    + destruct ds as [|z ds]; [contradiction|]. cbn [length]. replace (S (length ds) - 1) with (length ds) by lia. cbn [Nat.pow]. lia.
Qed.

Lemma count_prefix : forall m M (Q : list (F p) -> bool), count (fun ch => Q (firstn m ch)) (allV p (m + M)) <= count Q (allV p m) * fsize p ^ M.
Proof.
  intros m M Q. eapply Nat.le_trans; [apply (count_two_phase m M 0 (count Q (allV p m)) Q); [lia|]|lia].
  intros x Hx H. rewrite count_false; [lia|]. intros y _. apply allV_in_length in Hx. rewrite firstn_app, Hx, Nat.sub_diag, firstn_O, app_nil_r, <- Hx, firstn_all. exact H.
Qed.

(** The three rounds of challenges of a compiled proof. *)
Lemma count_claims : forall Z n M (zs : nat -> list (F p)) claims sums (Q : list (F p) -> bool),
  (forall k, length (zs k) = Z) -> length claims = length sums -> 0 < n ->
  (claims <> sums \/ exists k d, k < 2 ^ n /\ In d (zs k) /\ d <> F0) ->
  (forall ch, length ch = Z + n + length sums + 1 + M -> Q ch = true ->
    weighted (firstn (length sums + 1) (skipn (Z + n) ch)) (claims ++ [F0]) =
    weighted (firstn (length sums + 1) (skipn (Z + n) ch)) (sums ++ [mle_ext n (fun k => weighted (firstn Z ch) (zs k)) (firstn n (skipn Z ch))])) ->
  count Q (allV p (Z + n + length sums + 1 + M)) <= (n + 2) * fsize p ^ (Z + n + length sums + 1 + M - 1).
Proof.
  intros Z n M zs claims sums Q Lz Lc Hn Hbad HQ.
  set (m := length sums) in *. set (q := fsize p) in *.
  assert (Cs : forall X, (claims <> sums \/ X <> F0) ->
    count (fun ch => Feqb (weighted (firstn (m + 1) ch) (claims ++ [F0])) (weighted (firstn (m + 1) ch) (sums ++ [X]))) (allV p (m + 1 + M)) <= q ^ (m + M)).
  { intros X HX. eapply Nat.le_trans; [apply (count_prefix (m + 1) M (fun cs => Feqb (weighted cs (claims ++ [F0])) (weighted cs (sums ++ [X]))))|].
    rewrite Nat.pow_add_r. apply Nat.mul_le_mono_r.
    set (ds := map (fun xy : F p * F p => (fst xy - snd xy)%F) (combine (claims ++ [F0]) (sums ++ [X]))).
    assert (Ld : length ds = m + 1) by (unfold ds; rewrite map_length, combine_length, !app_length; cbn; lia).
    eapply Nat.le_trans; [apply (count_le _ (fun cs => Feqb (weighted cs ds) F0))|].
    - intros cs _ H. apply Feqb_eq in H. apply Feqb_eq. apply weighted_sub; [rewrite !app_length; cbn; lia|exact H].
    - rewrite <- Ld. replace m with (length ds - 1) by lia. apply count_weighted.
      assert (Hex : claims ++ [F0] <> sums ++ [X]). { intros He. apply app_inj_tail in He. destruct He as [He1 He2]. destruct HX as [HX|HX]; congruence. }
      assert (Hl : length (claims ++ [F0]) = length (sums ++ [X])) by (rewrite !app_length; cbn; lia).
      unfold ds. revert Hex Hl. generalize (claims ++ [F0]) as a, (sums ++ [X]) as b. clear. induction a as [|x a IH]; intros [|y b] Hex Hl; try discriminate; [congruence|].
      cbn [combine map fst snd]. destruct (F_eq_dec x y) as [->|Hne].
      + destruct (IH b) as [d [D1 D2]]; [congruence|cbn in Hl; lia|]. exists d. split; [right; exact D1|exact D2].
      + exists (x - y)%F. split; [left; reflexivity|]. intros H. apply Hne. replace x with ((x - y) + y)%F by ring. rewrite H. ring. }
  replace (Z + n + m + 1 + M) with (Z + (n + (m + 1 + M))) in * by lia.
  destruct (list_eq_dec F_eq_dec claims sums) as [Heq|Hne].
  - destruct Hbad as [Hb|[k0 [d0 [Hk0 [Hd0 Hdn]]]]]; [contradiction|].
    assert (HZ : Z = S (Z - 1)). { rewrite <- (Lz k0). destruct (zs k0); [contradiction|]. cbn. lia. }
    assert (H2 : forall cz, In cz (allV p Z) -> Feqb (weighted cz (zs k0)) F0 = false -> count (fun y => Q (cz ++ y)) (allV p (n + (m + 1 + M))) <= (n + 1) * q ^ (n + m + M)).
    { intros cz Hcz Hg. apply allV_in_length in Hcz. apply Feqb_neq in Hg.
      eapply Nat.le_trans; [apply (count_two_phase n (m + 1 + M) (q ^ (m + M)) (n * q ^ (n - 1)) (fun r => Feqb (mle_ext n (fun k => weighted cz (zs k)) r) F0))|].
      - apply (mle_zero_count Hp). exists k0. auto.
      - intros r Hr Hx. apply allV_in_length in Hr. apply Feqb_neq in Hx. eapply Nat.le_trans; [|apply (Cs _ (or_intror Hx))]. apply count_le. intros ch Hch H. apply allV_in_length in Hch.
        apply Feqb_eq. apply HQ in H; [|rewrite !app_length; lia]. 
        rewrite (app_assoc cz r ch) in H. rewrite skipn_app in H. rewrite (skipn_all2 (cz ++ r)) in H by (rewrite app_length; lia). rewrite app_length, Hcz, Hr, Nat.sub_diag in H. cbn [skipn app] in H.
        rewrite H. do 3 f_equal. rewrite <- app_assoc. rewrite firstn_app, Hcz, Nat.sub_diag, firstn_O, app_nil_r, <- Hcz, firstn_all.
        rewrite skipn_app, skipn_all, Nat.sub_diag. cbn [skipn app]. rewrite firstn_app, Hr, Nat.sub_diag, firstn_O, app_nil_r, <- Hr, firstn_all. reflexivity.
      - fold q. replace (n + m + M) with ((n - 1) + (m + 1 + M)) by lia. rewrite !Nat.pow_add_r. replace (q ^ n) with (q ^ (n - 1) * q) by (replace n with (S (n - 1)) at 2 by lia; cbn; lia).
        rewrite Nat.pow_1_r. nia. }
    eapply Nat.le_trans; [apply (count_two_phase Z (n + (m + 1 + M)) ((n + 1) * q ^ (n + m + M)) (q ^ (Z - 1)) (fun cz => Feqb (weighted cz (zs k0)) F0)); [|exact H2]|].
    + rewrite <- (Lz k0). apply count_weighted. exists d0. auto.
    + fold q. rewrite HZ. replace (S (Z - 1) - 1) with (Z - 1) by lia. replace (S (Z - 1) + (n + (m + 1 + M)) - 1) with ((Z - 1) + (n + (m + 1 + M))) by lia.
      rewrite (Nat.pow_add_r q (Z - 1)). replace (n + (m + 1 + M)) with (S (n + m + M)) by lia. cbn [Nat.pow]. nia.
  - assert (H2 : forall x, In x (allV p (Z + n)) -> false = false -> count (fun y => Q (x ++ y)) (allV p (m + 1 + M)) <= q ^ (m + M)).
    { intros x Hx _. apply allV_in_length in Hx.
      eapply Nat.le_trans; [|apply (Cs (mle_ext n (fun k => weighted (firstn Z x) (zs k)) (firstn n (skipn Z x))) (or_introl Hne))]. apply count_le. intros ch Hch H. apply allV_in_length in Hch.
      apply Feqb_eq. apply HQ in H; [|rewrite !app_length; lia].
      rewrite skipn_app in H. rewrite (skipn_all2 x) in H by lia. rewrite Hx, Nat.sub_diag in H. cbn [skipn app] in H. rewrite H. do 3 f_equal.
      rewrite firstn_app. replace (Z - length x) with 0 by lia. rewrite firstn_O, app_nil_r.
      rewrite skipn_app. rewrite firstn_app. replace (n - length (skipn Z x)) with 0 by (rewrite skipn_length; lia). rewrite firstn_O, app_nil_r. reflexivity. }
    replace (Z + (n + (m + 1 + M))) with ((Z + n) + (m + 1 + M)) by lia.
    eapply Nat.le_trans; [apply (count_two_phase (Z + n) (m + 1 + M) (q ^ (m + M)) 0 (fun _ => false)); [rewrite count_false; auto|exact H2]|].
    fold q. rewrite <- Nat.pow_add_r. replace (Z + n + (m + M)) with (Z + n + (m + 1 + M) - 1) by lia. nia.
Qed.
End C.

Section S.
Context {p : positive} {E : pairing p}.
Hypothesis HE : pairing_laws E.
Hypothesis Hp : prime (Zpos p).
Add Ring Fr2 : (@F_ring p).
Implicit Types (s : ptrk E) (v : vtrk E).
Local Notation comm := (gcar (PG1 E)).

Lemma mirror_sums : forall exact (pp : pparam E) ops vops, mirror exact pp ops vops -> forall i c, In (VOSum i c) vops -> In i (sum_calls ops).
Proof.
  intros exact pp ops vops Hm. induction Hm; intros i0 c0 Hin; unfold sum_calls in *; cbn [flat_map app]; cbn [In] in Hin;
    try (destruct Hin as [Hin|Hin]; [discriminate Hin|]); try (eapply IHHm; eassumption); try (right; eapply IHHm; eassumption).
  - contradiction.
  - destruct Hin as [Hin|Hin]; [inversion Hin; subst; left; reflexivity|right; eapply IHHm; eassumption].
Qed.

(** A claim given by the verifier's caller is recorded. *)
Lemma vstep_old : forall (o : oracle p comm) debug op v cs v' cs', vstep o debug (v, cs) op = Ok (v', cs') ->
  (exists suf, cs' = cs ++ suf) /\ (exists suf, vt_sc v' = vt_sc v ++ suf) /\ (forall i c, op = VOSum i c -> exists id, nth_error cs' i = Some id /\ In (id, c) (vt_sc v')) /\
  map snd (vt_sc v') = map snd (vt_sc v) ++ match op with VOSum _ c => [c] | VOClaimed i => match nth_error cs' i with Some id => match mget (cp_sums (vt_proof v)) id with Some c => [c] | None => [] end | None => [] end | _ => [] end.
Proof.
  intros o debug op v cs v' cs' H1.
  destruct op; cbn [vstep] in H1; unfold vpush, track_virtual_comm, add_comms, sub_comms, mul_comms, v_add_scalar, v_mul_scalar, v_increase_nv_front, v_increase_nv_back, track_virtual, track_mat_comm, v_gen_id in H1; cbn [bind] in H1;
    repeat match type of H1 with bind ?x _ = _ => let Hx := fresh "Hx" in destruct x eqn:Hx; try discriminate H1; cbn [bind] in H1 end;
    repeat match type of H1 with context [let (_, _) := ?x in _] => destruct x eqn:? end;
    try (inversion H1; subst; clear H1; cbn; repeat split;
      [ (eexists; reflexivity) || (exists []; rewrite app_nil_r; reflexivity) | (exists []; rewrite app_nil_r; reflexivity) || (eexists; reflexivity) | intros; discriminate | rewrite app_nil_r; reflexivity ]; fail).
  - (* next *)
    inversion H1; subst; clear H1. unfold transfer_prover_comm in Hx.
    repeat match type of Hx with bind ?x _ = _ => let Hy := fresh "Hy" in destruct x eqn:Hy; try discriminate Hx; cbn [bind] in Hx end.
    unfold track_mat_comm, v_gen_id in Hx.
    repeat match type of Hx with bind ?x _ = _ => let Hy := fresh "Hy" in destruct x eqn:Hy; try discriminate Hx; cbn [bind] in Hx end.
    inversion Hx; subst; cbn.
    split; [eexists; reflexivity|]; split; [exists []; rewrite app_nil_r; reflexivity|]; split; [intros; discriminate|rewrite app_nil_r; reflexivity].
  - (* challenge *)
    inversion H1; subst; clear H1. unfold vt_challenge in Hx. destruct (drawT _ _ _) as [[? ?]| |] in Hx; try discriminate Hx. cbn in Hx. inversion Hx; subst; cbn.
    split; [exists []; rewrite app_nil_r; reflexivity|]. split; [exists []; rewrite app_nil_r; reflexivity|]. split; [intros; discriminate|rewrite app_nil_r; reflexivity].
  - inversion H1; subst; clear H1. cbn. split; [exists []; rewrite app_nil_r; reflexivity|]. split; [eexists; reflexivity|].
    split; [|rewrite map_app; reflexivity].
    intros i0 c0 He. inversion He; subst. unfold rnth in Hx. destruct (nth_error cs' i0) as [a0|]; [|discriminate]. inversion Hx; subst. eexists. split; [reflexivity|].
    apply in_or_app. right. left. reflexivity.
  - inversion H1; subst; clear H1. cbn. split; [exists []; rewrite app_nil_r; reflexivity|]. split; [eexists; reflexivity|].
    split; [intros; discriminate|]. rewrite map_app. unfold rnth in Hx. destruct (nth_error cs' i) as [b0|]; [|discriminate]. inversion Hx; subst.
    unfold get_prover_claimed_sum in Hx0. destruct (mget (cp_sums (vt_proof v)) _); [|discriminate]. cbn in Hx0. inversion Hx0; subst. reflexivity.
Qed.

Lemma vrun_given : forall (o : oracle p comm) debug vops v cs v' cs', foldM (vstep o debug) (v, cs) vops = Ok (v', cs') ->
  (exists suf, cs' = cs ++ suf) /\ (exists suf, vt_sc v' = vt_sc v ++ suf) /\ (forall i c, In (VOSum i c) vops -> exists id, nth_error cs' i = Some id /\ In (id, c) (vt_sc v')) /\
  forall val : nat -> F p, (forall i id, In (VOClaimed i) vops -> nth_error cs' i = Some id -> mget (cp_sums (vt_proof v)) id = Some (val i)) ->
    map snd (vt_sc v') = map snd (vt_sc v) ++ flat_map (fun op => match op with VOSum _ c => [c] | VOClaimed i => [val i] | _ => [] end) vops.
Proof.
  intros o debug vops. induction vops as [|op vops IH]; intros v cs v' cs' H.
  - inversion H; subst. split; [exists []; rewrite app_nil_r; reflexivity|]. split; [exists []; rewrite app_nil_r; reflexivity|]. split; [intros i c []|intros; cbn; rewrite app_nil_r; reflexivity].
  - cbn [foldM] in H. apply bind_ok_inv in H. destruct H as [[v1 cs1] [H1 H2]]. destruct (vstep_old _ _ _ _ _ _ _ H1) as [[a1 A1] [[b1 B1] [C1 E1]]].
    destruct (IH _ _ _ _ H2) as [[a2 A2] [[b2 B2] [C2 E2]]].
    split; [exists (a1 ++ a2); rewrite A2, A1, app_assoc; reflexivity|]. split; [exists (b1 ++ b2); rewrite B2, B1, app_assoc; reflexivity|].
    assert (Pr : vt_proof v1 = vt_proof v) by (apply (vrun_sc o debug [op] v cs v1 cs1); cbn [foldM]; rewrite H1; reflexivity).
    split.
    + intros i c [Hc|Hc]; [|exact (C2 i c Hc)]. destruct (C1 i c Hc) as [id [D1 D2]]. exists id. split.
      * rewrite A2. rewrite nth_error_app1; [exact D1|]. apply nth_error_Some. rewrite D1. discriminate.
      * rewrite B2. apply in_or_app. left. exact D2.
    + intros val Hval. rewrite (E2 val), E1, <- app_assoc; [|intros i id Hi Hni; rewrite Pr; apply (Hval i id); [right; exact Hi|exact Hni]]. f_equal.
      cbn [flat_map]. f_equal. destruct op; try reflexivity.
      destruct (nth_error cs1 i) as [id|] eqn:Ni.
      * rewrite (Hval i id); [reflexivity|left; reflexivity|]. rewrite A2, nth_error_app1; [exact Ni|]. apply nth_error_Some. rewrite Ni. discriminate.
      * exfalso. cbn [vstep] in H1. apply bind_ok_inv in H1. destruct H1 as [a [Ha H1]]. apply bind_ok_inv in H1. destruct H1 as [c [_ H1]]. assert (Hq : cs1 = cs) by congruence.
        unfold rnth in Ha. rewrite Hq in Ni. rewrite Ni in Ha. discriminate.
Qed.

Lemma hist_covers_sums : forall (o : oracle p comm) debug vk cp pp ops vops s hs v n,
  mirror false pp ops vops -> prun o pp ops = Ok (s, hs) -> vrun o debug vk cp vops = Ok (v, map tp_id hs) -> map fst (vt_sc v) = map fst (pt_sc s) ->
  (forall i, In i (sum_calls ops) -> mget (cp_sums cp) (tp_id (nth i hs dh)) = Some (sum_at ops n i)) ->
  ((forall i c, In (VOSum i c) vops -> c = sum_at ops n i) <-> map snd (vt_sc v) = claimed_sums ops n).
Proof.
  intros o debug vk cp pp ops vops s hs v n Hm H Hv Hf Hs.
  destruct (hist_calls _ _ _ _ _ H) as [_ [Sc [_ Lc]]]. rewrite Sc in Hf.
  destruct (vrun_sc _ _ _ _ _ _ _ Hv) as [V1 [V2 [_ V3]]]. destruct (vrun_given _ _ _ _ _ _ _ Hv) as [_ [_ [V4 _]]].
  assert (Hid : forall i id, In i (sum_calls ops) -> nth_error (map tp_id hs) i = Some id -> id = tp_id (nth i hs dh)).
  { intros i id Hi Hn. rewrite nth_error_map in Hn. rewrite (nth_error_nth' hs dh) in Hn by (apply Lc; auto). cbn in Hn. congruence. }
  split.
  - intros Hall.
    assert (G : forall cl, In cl (vt_sc v) -> mget (cp_sums cp) (fst cl) = Some (snd cl)).
    { intros [id c] Hin. cbn [fst snd]. destruct (V3 id c Hin) as [A|[A|[i [A1 A2]]]].
      - contradiction.
      - unfold get_prover_claimed_sum in A. cbn in A. destruct (mget (cp_sums cp) id); [|discriminate]. cbn in A. congruence.
      - pose proof (mirror_sums _ _ _ _ Hm _ _ A1) as Hi. rewrite (Hid i id Hi A2), (Hs i Hi). f_equal. symmetry. apply Hall. exact A1. }
    assert (Hs' : map Some (map snd (vt_sc v)) = map Some (claimed_sums ops n)).
    { rewrite map_map. transitivity (map (fun cl : nat * F p => mget (cp_sums cp) (fst cl)) (vt_sc v)); [apply map_ext_in; intros cl Hc; symmetry; apply G; exact Hc|].
      rewrite <- (map_map fst (mget (cp_sums cp))), Hf. unfold claimed_sums. rewrite !map_map. apply map_ext_in. intros i Hi. apply Hs. exact Hi. }
    revert Hs'. generalize (map snd (vt_sc v)), (claimed_sums ops n). clear. induction l as [|x l IH]; intros [|y l2] Hq; try discriminate; [reflexivity|].
    cbn [map] in Hq. inversion Hq. f_equal. apply IH. assumption.
  - intros Heq i c Hin. destruct (V4 i c Hin) as [id [N1 N2]]. pose proof (mirror_sums _ _ _ _ Hm _ _ Hin) as Hi. pose proof (Hid i id Hi N1) as ->.
    assert (G : forall l (cl : list (nat * F p)), map fst cl = map (fun i => tp_id (nth i hs dh)) l -> map snd cl = map (sum_at ops n) l -> forall id c, In (id, c) cl -> exists j, In j l /\ id = tp_id (nth j hs dh) /\ c = sum_at ops n j).
    { clear. induction l as [|j l IH]; intros [|[a b] cl] H1 H2 id c Hin; try discriminate; [contradiction|]. cbn [map fst snd] in H1, H2. inversion H1. inversion H2. destruct Hin as [Hin|Hin].
      - inversion Hin; subst. exists j. split; [left; reflexivity|auto].
      - destruct (IH cl) with (id := id) (c := c) as [j' [J1 J2]]; auto. exists j'. split; [right; exact J1|exact J2]. }
    destruct (G _ _ Hf Heq _ _ N2) as [j [J1 [J2 J3]]]. pose proof (Hs i Hi) as X. rewrite J2, (Hs j J1) in X. congruence.
Qed.

Lemma zero_claims : forall (o : oracle p comm) pp ops s hs n cz r, prun o pp ops = Ok (s, hs) -> zeros_hold ops -> claimed_zero ops n cz r = F0.
Proof.
  intros o pp ops s hs n cz r H Hz. unfold claimed_zero.
  assert (G : forall k, weighted cz (map (corner_at ops k) (zero_calls ops)) = F0).
  { intros k. apply weighted_zeros. intros d Hd. apply in_map_iff in Hd. destruct Hd as [i [<- Hi]]. unfold corner_at.
    destruct (Nat.lt_ge_cases (k mod 2 ^ fst (poly_at ops i)) (length (corners (poly_at ops i)))) as [Hl|Hl]; [|rewrite nth_overflow by exact Hl; reflexivity].
    pose proof (Hz i Hi) as F. rewrite Forall_forall in F. apply F. apply nth_In. exact Hl. }
  apply mle_ext_zero. intros k0 _. apply G.
Qed.

Lemma hist_complete : forall (o : oracle p comm) sc sc' addr debug vdebug g h rnd N k srs ck vk ops vops s hs D,
  1 <= N -> k <= N -> gen_srs E g h rnd N = Ok srs -> kzg_trim srs None (Some k) = Ok (ck, vk) -> distinct_addresses addr ->
  prun o ck ops = Ok (s, hs) -> mirror false ck ops vops ->
  (forall d, In d (degrees ops) -> d <= D) -> 1 <= D -> D + 1 < fsize p -> 2 < fsize p ->
  2 <= commit_calls ops -> 0 < max_nv hs <= k -> zeros_hold ops ->
  exists cp s' v, compile_proof o sc sc' addr debug s = Ok (cp, s') /\ length (pf_point (cp_sc cp)) = max_nv hs /\ cp_comms cp = pt_comm s /\ vrun o vdebug vk cp vops = Ok (v, map tp_id hs) /\
    (forall i, In i (sum_calls ops) -> get_prover_claimed_sum v (tp_id (nth i hs dh)) = Ok (sum_at ops (max_nv hs) i)) /\
    ((forall i c, In (VOSum i c) vops -> c = sum_at ops (max_nv hs) i) -> (off_nodes cp -> exists v', verify_claims o v = Ok v') /\ (~ off_nodes cp -> verify_claims o v = Panic)).
Proof.
  intros o sc sc' addr debug vdebug g h rnd N k srs ck vk ops vops s hs D HN Hk Hg Ht Hadr H Hm Hdeg HD HDf H2f H2 Hn Hz.
  destruct (kzg_trim_srs HE g h rnd N k HN Hk) as [srs' [ck' [vk' [G1 [G2 [G3 G4]]]]]]. rewrite Hg in G1. inversion G1; subst srs'. rewrite Ht in G2. inversion G2; subst ck' vk'. clear G1 G2.
  set (tau := suffix k (trapdoor rnd N)) in *. subst ck vk.
  assert (Lt : length tau = k) by (unfold tau; apply suffix_length; rewrite trapdoor_length; exact Hk).
  destruct (hist_compile HE Hp o o sc sc' addr g h tau ops s hs D H Hadr Hdeg HD HDf H2f H2 ltac:(lia)) as [cz [t1 [r [t2 [cs [t3 [R1 [R2 [R3 Hc]]]]]]]]].
  cbv zeta in Hc. rewrite (zero_claims _ _ _ _ _ (max_nv hs) cz r H Hz) in Hc.
  destruct (proj2 (Hc debug) (fun _ => eq_refl)) as [cp [s' [C1 [C2 [C3 [C3p [C4 [C5 [C6 _]]]]]]]]].
  destruct (hist_lockstep o vdebug false _ (vk_of g h tau) cp ops vops s hs Hm H C4) as [v [L1 [L2 [L3 [L4 [L5 [L6 _]]]]]]].
  exists cp, s', v. split; [exact C1|]. split; [exact C3p|]. split; [exact C2|]. split; [exact L1|].
  destruct (vrun_sc _ _ _ _ _ _ _ L1) as [V1 [V2 _]]. cbn in V1, V2. split.
  { intros i Hi. unfold get_prover_claimed_sum. rewrite V1, (C5 i Hi). reflexivity. }
  intros Hall. apply (hist_covers_sums _ _ _ _ _ _ _ _ _ _ (max_nv hs) Hm H L1 L6 C5) in Hall.
  destruct (hist_calls _ _ _ _ _ H) as [Zc [Sc _]].
  apply (C6 v V1 V2 L3 L4).
  - rewrite L5, Zc, map_length. reflexivity.
  - rewrite <- (map_length fst), L6, Sc, map_length. reflexivity.
  - rewrite Hall. reflexivity.
Qed.

(** The challenges a scripted oracle hands to the three rounds. *)
Lemma script_rounds : forall k0 (ch : list (F p)) Z n m M (t : tr p comm) cz t1 r t2 cs t3, nchal (hist t) = k0 -> length ch = Z + n + m + 1 + M ->
  run_draws (script k0 ch) "zerocheck challenge" Z t = (cz, t1) -> run_draws (script k0 ch) "0check r" n t1 = (r, t2) -> run_draws (script k0 ch) "sumcheck challenge" (m + 1) t2 = (cs, t3) ->
  cz = firstn Z ch /\ r = firstn n (skipn Z ch) /\ cs = firstn (m + 1) (skipn (Z + n) ch).
Proof.
  intros k0 ch Z n m M t cz t1 r t2 cs t3 Hk Hl R1 R2 R3.
  destruct (run_draws_script ch "zerocheck challenge" k0 Z t 0 ltac:(lia) ltac:(lia)) as [A1 A2]. rewrite R1 in A1, A2. cbn [fst snd skipn] in A1, A2.
  destruct (run_draws_script ch "0check r" k0 n t1 Z ltac:(lia) ltac:(lia)) as [B1 B2]. rewrite R2 in B1, B2. cbn [fst snd] in B1, B2.
  destruct (run_draws_script ch "sumcheck challenge" k0 (m + 1) t2 (Z + n) ltac:(lia) ltac:(lia)) as [D1 D2]. rewrite R3 in D1. cbn [fst] in D1. auto.
Qed.

Lemma not_zeros : forall ops n, ~ zeros_hold ops -> (forall i, In i (zero_calls ops) -> fst (poly_at ops i) <= n) ->
  exists k d, k < 2 ^ n /\ In d (map (corner_at (p:=p) ops k) (zero_calls ops)) /\ d <> F0.
Proof.
  intros ops n Hz Hn. unfold zeros_hold in Hz.
  destruct (Exists_dec (fun i => ~ Forall (fun y : F p => y = F0) (corners (poly_at ops i))) (zero_calls ops)) as [Hex|Hnex].
  - intros i. destruct (Forall_dec (fun y : F p => y = F0) (fun y => F_eq_dec y F0) (corners (poly_at ops i))) as [A|A]; [right; tauto|left; exact A].
  - apply Exists_exists in Hex. destruct Hex as [i [Hi Hf]].
    destruct (Forall_Exists_dec (fun y : F p => y = F0) (fun y => F_eq_dec y F0) (corners (poly_at ops i))) as [A|A]; [contradiction|].
    apply Exists_exists in A. destruct A as [y [Hy Hne]]. apply (In_nth _ _ F0) in Hy. destruct Hy as [k [Hk Hk']].
    assert (Hk2 : k < 2 ^ fst (poly_at ops i)) by (unfold corners in Hk; rewrite map_length, seq_length in Hk; exact Hk).
    exists k, y. split; [eapply Nat.lt_le_trans; [exact Hk2|]; apply Nat.pow_le_mono_r; [lia|apply Hn; exact Hi]|]. split; [|exact Hne].
    apply in_map_iff. exists i. split; [|exact Hi]. unfold corner_at. rewrite Nat.mod_small by exact Hk2. exact Hk'.
  - exfalso. apply Hz. intros i Hi. destruct (Forall_dec (fun y : F p => y = F0) (fun y => F_eq_dec y F0) (corners (poly_at ops i))) as [A|A]; [exact A|].
    exfalso. apply Hnex. apply Exists_exists. exists i. auto.
Qed.

Lemma hist_caught : forall (oh : oracle p comm) sc sc' addr debug vdebug g h rnd N k srs ck vk ops vops s hs D M,
  1 <= N -> k <= N -> gen_srs E g h rnd N = Ok srs -> kzg_trim srs None (Some k) = Ok (ck, vk) -> distinct_addresses addr ->
  prun oh ck ops = Ok (s, hs) -> mirror false ck ops vops ->
  (forall d, In d (degrees ops) -> d <= D) -> 1 <= D -> D + 1 < fsize p -> 2 < fsize p ->
  2 <= commit_calls ops -> 0 < max_nv hs <= k ->
  (~ zeros_hold ops \/ exists i c, In (VOSum i c) vops /\ c <> sum_at ops (max_nv hs) i) ->
  let L := length (zero_calls ops) + max_nv hs + length (sum_calls ops) + 1 in
  count (compile_verify oh sc sc' addr debug vdebug vk vops s) (allV p (L + M)) <= (max_nv hs + 2) * fsize p ^ (L + M - 1).
Proof.
  intros oh sc sc' addr debug vdebug g h rnd N k srs ck vk ops vops s hs D M HN Hk Hg Ht Hadr H Hm Hdeg HD HDf H2f H2 Hn Hbad L.
  destruct (kzg_trim_srs HE g h rnd N k HN Hk) as [srs' [ck' [vk' [G1 [G2 [G3 G4]]]]]]. rewrite Hg in G1. inversion G1; subst srs'. rewrite Ht in G2. inversion G2; subst ck' vk'. clear G1 G2.
  set (tau := suffix k (trapdoor rnd N)) in *. subst ck vk.
  assert (Lt : length tau = k) by (unfold tau; apply suffix_length; rewrite trapdoor_length; exact Hk).
  destruct (hist_calls _ _ _ _ _ H) as [Zc [Sc [Cc Lc]]].
  set (W := flat_map (fun op : vop E => match op with VOSum _ c => [c] | VOClaimed i => [sum_at ops (max_nv hs) i] | _ => [] end) vops).
  set (n := max_nv hs) in *.
  (* what an accepting run says *)
  assert (Hacc : forall ch, length ch = L + M -> compile_verify oh sc sc' addr debug vdebug (vk_of g h tau) vops s ch = true ->
    weighted (firstn (length (sum_calls ops) + 1) (skipn (length (zero_calls ops) + n) ch)) (W ++ [F0]) =
    weighted (firstn (length (sum_calls ops) + 1) (skipn (length (zero_calls ops) + n) ch))
      (claimed_sums ops n ++ [claimed_zero ops n (firstn (length (zero_calls ops)) ch) (firstn n (skipn (length (zero_calls ops)) ch))]) /\
    length W = length (sum_calls ops) /\ ((forall i c, In (VOSum i c) vops -> c = sum_at ops n i) <-> W = claimed_sums ops n)).
  { intros ch Hl Hv. unfold compile_verify in Hv.
    set (o := script (nchal (hist (pt_tr s))) ch) in *.
    destruct (hist_compile HE Hp oh o sc sc' addr g h tau ops s hs D H Hadr Hdeg HD HDf H2f H2 ltac:(unfold n in Hn; lia)) as [cz [t1 [r [t2 [cs [t3 [R1 [R2 [R3 Hc]]]]]]]]].
    cbv zeta in Hc. destruct (Hc debug) as [Hc1 Hc2]. fold n in R2, R3, Hc1, Hc2.
    destruct (script_rounds _ ch (length (zero_calls ops)) n (length (sum_calls ops)) M (pt_tr s) _ _ _ _ _ _ eq_refl ltac:(unfold L in Hl; lia) R1 R2 R3) as [Q1 [Q2 Q3]].
    assert (Hdb : debug = true -> weighted cs (claimed_sums ops n ++ [claimed_zero ops n cz r]) = weighted cs (claimed_sums ops n ++ [F0])).
    { intros Hd. destruct (F_eq_dec (weighted cs (claimed_sums ops n ++ [claimed_zero ops n cz r])) (weighted cs (claimed_sums ops n ++ [F0]))) as [A|A]; [exact A|].
      rewrite (Hc1 Hd A) in Hv. discriminate. }
    destruct (Hc2 Hdb) as [cp [s' [C1 [C2 [C3 [C3p [C4 [C5 [C6 _]]]]]]]]]. rewrite C1 in Hv.
    destruct (hist_lockstep oh vdebug false _ (vk_of g h tau) cp ops vops s hs Hm H C4) as [v [L1 [L2 [L3 [L4 [L5 [L6 _]]]]]]]. rewrite L1 in Hv.
    destruct (vrun_sc _ _ _ _ _ _ _ L1) as [V1 [V2 _]]. cbn in V1, V2. destruct (vrun_given _ _ _ _ _ _ _ L1) as [_ [_ [_ V4]]].
    assert (HW : map snd (vt_sc v) = W).
    { apply (V4 (sum_at ops n)). intros i id Hi Hni. cbn. assert (Hin : In i (sum_calls ops)).
      { clear - Hm Hi. induction Hm; unfold sum_calls in *; cbn [flat_map app]; cbn [In] in Hi; try (destruct Hi as [Hi|Hi]; [discriminate Hi|]);
          try (apply IHHm; assumption); try (right; apply IHHm; assumption).
        - contradiction.
        - destruct Hi as [Hi|Hi]; [inversion Hi; subst; left; reflexivity|right; apply IHHm; assumption]. }
      rewrite nth_error_map, (nth_error_nth' hs dh) in Hni by (apply Lc; auto). cbn in Hni. inversion Hni; subst id. apply C5. exact Hin. }
    assert (Lv : length (vt_sc v) = length (sum_calls ops)) by (rewrite <- (map_length fst), L6, Sc, map_length; reflexivity).
    split; [|split; [rewrite <- HW, map_length; exact Lv|rewrite <- HW; exact (hist_covers_sums _ _ _ _ _ _ _ _ _ _ n Hm H L1 L6 C5)]].
    rewrite <- Q1, <- Q2, <- Q3, <- HW. apply (C6 v V1 V2 L3 L4).
    - rewrite L5, Zc, map_length. reflexivity.
    - exact Lv.
    - destruct (verify_claims o v) as [v'| |]; try discriminate. exists v'. reflexivity. }
  assert (Lsum : length (claimed_sums ops n) = length (sum_calls ops)) by (unfold claimed_sums; apply map_length).
  assert (Hcase : (length W = length (sum_calls ops) /\ (W <> claimed_sums ops n \/ ~ zeros_hold ops)) \/
     forall ch, In ch (allV p (L + M)) -> compile_verify oh sc sc' addr debug vdebug (vk_of g h tau) vops s ch = false).
  { destruct (Nat.eq_dec (length W) (length (sum_calls ops))) as [Hlw|Hlw].
    - destruct (list_eq_dec F_eq_dec W (claimed_sums ops n)) as [Heq|Hne]; [|left; auto]. destruct Hbad as [Hbad|[i [c [B1 B2]]]]; [left; auto|]. right.
      intros ch Hch. apply allV_in_length in Hch. destruct (compile_verify _ _ _ _ _ _ _ _ _ ch) eqn:Hv; [|reflexivity]. exfalso. destruct (Hacc ch Hch Hv) as [_ [_ A]].
      apply B2. apply (proj2 A Heq). exact B1.
    - right. intros ch Hch. apply allV_in_length in Hch. destruct (compile_verify _ _ _ _ _ _ _ _ _ ch) eqn:Hv; [|reflexivity]. exfalso. apply Hlw. apply (Hacc ch Hch Hv). }
  destruct Hcase as [[Hlw Hcase]|Hcase]; [|rewrite (count_false _ _ Hcase); lia].
  unfold L. rewrite <- Lsum.
  apply (count_claims Hp (length (zero_calls ops)) n M (fun k => map (corner_at ops k) (zero_calls ops)) W (claimed_sums ops n)).
  - intros. apply map_length.
  - congruence.
  - lia.
  - destruct Hcase as [A|A]; [left; exact A|right]. apply not_zeros; [exact A|]. intros i Hi. destruct (hist_at _ _ _ _ _ i H ltac:(apply Lc; auto)) as [I1 [I2 _]]. rewrite <- I2. apply max_nv_ge. exact I1.
  - intros ch Hl Hv. rewrite Lsum in Hl |- *. apply Hacc; [exact Hl|exact Hv].
Qed.

Lemma hist_refuses : forall (oh : oracle p comm) sc sc' addr g h rnd N k srs ck vk ops s hs D M,
  1 <= N -> k <= N -> gen_srs E g h rnd N = Ok srs -> kzg_trim srs None (Some k) = Ok (ck, vk) -> distinct_addresses addr ->
  prun oh ck ops = Ok (s, hs) ->
  (forall d, In d (degrees ops) -> d <= D) -> 1 <= D -> D + 1 < fsize p -> 2 < fsize p ->
  2 <= commit_calls ops -> 0 < max_nv hs <= k -> ~ zeros_hold ops ->
  let L := length (zero_calls ops) + max_nv hs + length (sum_calls ops) + 1 in
  count (compiles sc sc' addr true s) (allV p (L + M)) <= (max_nv hs + 2) * fsize p ^ (L + M - 1).
Proof.
  intros oh sc sc' addr g h rnd N k srs ck vk ops s hs D M HN Hk Hg Ht Hadr H Hdeg HD HDf H2f H2 Hn Hbad L.
  destruct (kzg_trim_srs HE g h rnd N k HN Hk) as [srs' [ck' [vk' [G1 [G2 [G3 G4]]]]]]. rewrite Hg in G1. inversion G1; subst srs'. rewrite Ht in G2. inversion G2; subst ck' vk'. clear G1 G2.
  set (tau := suffix k (trapdoor rnd N)) in *. subst ck vk.
  assert (Lt : length tau = k) by (unfold tau; apply suffix_length; rewrite trapdoor_length; exact Hk).
  destruct (hist_calls _ _ _ _ _ H) as [Zc [Sc [Cc Lc]]].
  set (n := max_nv hs) in *.
  assert (Lsum : length (claimed_sums ops n) = length (sum_calls ops)) by (unfold claimed_sums; apply map_length).
  unfold L. rewrite <- Lsum.
  apply (count_claims Hp (length (zero_calls ops)) n M (fun k => map (corner_at ops k) (zero_calls ops)) (claimed_sums ops n) (claimed_sums ops n)).
  - intros. apply map_length.
  - reflexivity.
  - lia.
  - right. apply not_zeros; [exact Hbad|]. intros i Hi. destruct (hist_at _ _ _ _ _ i H ltac:(apply Lc; auto)) as [I1 [I2 _]]. rewrite <- I2. apply max_nv_ge. exact I1.
  - intros ch Hl Hv. rewrite Lsum in Hl |- *. unfold compiles in Hv. set (o := script (nchal (hist (pt_tr s))) ch) in *.
    destruct (hist_compile HE Hp oh o sc sc' addr g h tau ops s hs D H Hadr Hdeg HD HDf H2f H2 ltac:(unfold n in Hn; lia)) as [cz [t1 [r [t2 [cs [t3 [R1 [R2 [R3 Hc]]]]]]]]].
    cbv zeta in Hc. destruct (Hc true) as [Hc1 _]. fold n in R2, R3, Hc1.
    destruct (script_rounds _ ch (length (zero_calls ops)) n (length (sum_calls ops)) M (pt_tr s) _ _ _ _ _ _ eq_refl ltac:(lia) R1 R2 R3) as [Q1 [Q2 Q3]].
    rewrite <- Q1, <- Q2, <- Q3.
    destruct (F_eq_dec (weighted cs (claimed_sums ops n ++ [claimed_zero ops n cz r])) (weighted cs (claimed_sums ops n ++ [F0]))) as [A|A]; [symmetry; exact A|].
    rewrite (Hc1 eq_refl A) in Hv. discriminate.
Qed.
End S.
