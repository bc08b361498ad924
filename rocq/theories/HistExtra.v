(** Claims, commitments and numbers of variables of a history. *)
From Coq Require Import String List Arith Lia Bool ZArith.
Import ListNotations.
From Verif Require Import Res ResLemmas Fp FSum SpecMle SpecVp SpecKzg SpecTracker ModelMle MleLemmas MleProofs MleExtra ModelVp VpHist VpProofs
  ModelTranscript ModelSumcheck Pairing ModelKzg ModelBatch
  ModelProver ModelVerifier ProverHist VerifierHist CompileHist TmapLemmas ProverProofs ProverExtra ProverStep EqualizeProofs DegreeProofs.
Local Open Scope string_scope.
Local Open Scope list_scope.
Local Open Scope nat_scope.

Section S.
Context {p : positive} {E : pairing p}.
Add Ring Fr : (@F_ring p).
Implicit Types s : ptrk E.
Local Arguments mput : simpl never.
Definition dh : tpoly := mkTp 0 0.

Lemma mput_length : forall {A} (m : tmap A) k a, mget m k = None -> length (mput m k a) = S (length m).
Proof.
  intros A m k a H. unfold mput. cbn [length]. f_equal. unfold mdel.
  induction m as [|[j b] m IH]; [reflexivity|]. unfold mget in H. cbn in H |- *. destruct (j =? k) eqn:Ej; [discriminate|].
  cbn. f_equal. apply IH. exact H.
Qed.

Definition claims_step (ops : list (pop p)) s s' hs' : Prop :=
  pt_zc s' = pt_zc s ++ map (fun i => tp_id (nth i hs' dh)) (zero_calls ops) /\
  map fst (pt_sc s') = map fst (pt_sc s) ++ map (fun i => tp_id (nth i hs' dh)) (sum_calls ops) /\
  length (pt_comm s') = length (pt_comm s) + commit_calls ops /\
  (forall i, In i (zero_calls ops) \/ In i (sum_calls ops) -> i < length hs').

Lemma claims_none : forall op s s' hs', pt_zc s' = pt_zc s -> pt_sc s' = pt_sc s -> length (pt_comm s') = length (pt_comm s) ->
  zero_calls [op] = [] -> sum_calls [op] = [] -> commit_calls [op] = 0 -> claims_step [op] s s' hs'.
Proof.
  intros op s s' hs' H1 H2 H3 H4 H5 H6. unfold claims_step. rewrite H4, H5, H6, H1, H2, H3. cbn [map]. rewrite !app_nil_r.
  repeat split; auto. intros i [[]|[]].
Qed.

Lemma claims_one : forall (o : oracle p (gcar (PG1 E))) s hs op s' hs', winv (s, hs) -> pstep o (s, hs) op = Ok (s', hs') -> claims_step [op] s s' hs'.
Proof.
  intros o s hs op s' hs' Hw H. pose proof (pstep_shape o s hs op s' hs' Hw H) as P.
  destruct op; cbn [step_post] in P;
    try (repeat match type of P with exists _, _ => destruct P as [? P] | _ /\ _ => destruct P as [? P] end;
         repeat match goal with X : pushed _ _ _ _ _ _ _ _ |- _ => destruct X as [? [? [? [? [? [[? ?] ?]]]]]] end;
         apply claims_none; try reflexivity; subst; simpl; congruence).
  - destruct P as [_ [_ [_ [_ [[A B] [[c [_ [_ C]]] _]]]]]]. unfold claims_step. cbn [zero_calls sum_calls commit_calls flat_map app length map]. rewrite !app_nil_r, A, B, C.
    split; [reflexivity|]. split; [reflexivity|]. split; [|intros i [[]|[]]]. rewrite mput_length; [lia|].
    destruct (mget (pt_comm s) (pt_next s)) as [c0|] eqn:Ec; [|reflexivity]. exfalso.
    pose proof (w_inv _ Hw) as Hi. simpl in Hi. destruct (i_comm s Hi _ _ Ec) as [a Ha]. destruct (fresh_none s (pt_next s) Hi (le_n _)). congruence.
  - destruct P as [a [_ [-> [Q _]]]]. apply claims_none; try reflexivity; destruct Q as [? [? [? [? ?]]]]; simpl in *; try congruence; try (f_equal; assumption); match goal with X : same_claims _ _ |- _ => destruct X; congruence end.
  - destruct P as [a [Ha [-> ->]]]. unfold claims_step. cbn [zero_calls sum_calls commit_calls flat_map app length map]. rewrite app_nil_r.
    split; [reflexivity|]. split; [simpl; rewrite map_app, (nth_error_nth hs i dh Ha); reflexivity|]. split; [simpl; lia|].
    intros j [[]|[<-|[]]]. apply nth_error_Some. congruence.
  - destruct P as [a [Ha [-> ->]]]. unfold claims_step. cbn [zero_calls sum_calls commit_calls flat_map app length map]. rewrite app_nil_r.
    split; [simpl; rewrite (nth_error_nth hs i dh Ha); reflexivity|]. split; [reflexivity|]. split; [simpl; lia|].
    intros j [[<-|[]]|[]]. apply nth_error_Some. congruence.
Qed.

Lemma claims_steps : forall (o : oracle p (gcar (PG1 E))) ops s hs s' hs', winv (s, hs) -> foldM (pstep o) (s, hs) ops = Ok (s', hs') -> claims_step ops s s' hs'.
Proof.
  intros o ops. induction ops as [|op ops IH]; intros s hs s' hs' Hw H.
  - inversion H; subst. unfold claims_step. cbn. rewrite !app_nil_r, Nat.add_0_r. repeat split; auto. intros i [[]|[]].
  - cbn [foldM] in H. apply bind_ok_inv in H. destruct H as [[s1 hs1] [H1 H2]].
    pose proof (claims_one o s hs op s1 hs1 Hw H1) as [A1 [A2 [A3 A4]]]. destruct (pstep_inv o s hs op _ Hw H1) as [Hw1 _].
    destruct (IH s1 hs1 s' hs' Hw1 H2) as [B1 [B2 [B3 B4]]]. destruct (steps_inv o ops _ _ Hw1 H2) as [_ [_ [suf Hsuf]]]. cbn [fst snd] in Hsuf. subst hs'.
    assert (Hn : forall i, In i (zero_calls [op]) \/ In i (sum_calls [op]) -> nth i (hs1 ++ suf) dh = nth i hs1 dh).
    { intros i Hi. apply app_nth1. apply A4. exact Hi. }
    change (op :: ops) with ([op] ++ ops). unfold claims_step, zero_calls, sum_calls, commit_calls in *. rewrite !flat_map_app, !map_app.
    split; [|split; [|split]].
    + rewrite B1, A1, <- app_assoc. f_equal. f_equal. apply map_ext_in. intros i Hi. rewrite Hn by (left; exact Hi). reflexivity.
    + rewrite B2, A2, <- app_assoc. f_equal. f_equal. apply map_ext_in. intros i Hi. rewrite Hn by (right; exact Hi). reflexivity.
    + rewrite B3, A3, app_length. lia.
    + intros i Hi. rewrite !in_app_iff in Hi. rewrite app_length.
      destruct Hi as [[Hi|Hi]|[Hi|Hi]]; [specialize (A4 i (or_introl Hi)); lia| |specialize (A4 i (or_intror Hi)); lia|].
      * specialize (B4 i (or_introl Hi)). rewrite app_length in B4. exact B4.
      * specialize (B4 i (or_intror Hi)). rewrite app_length in B4. exact B4.
Qed.

Lemma hist_calls : forall (o : oracle p (gcar (PG1 E))) pp ops s hs, prun o pp ops = Ok (s, hs) ->
  pt_zc s = map (fun i => tp_id (nth i hs dh)) (zero_calls ops) /\ map fst (pt_sc s) = map (fun i => tp_id (nth i hs dh)) (sum_calls ops) /\
  length (pt_comm s) = commit_calls ops /\ (forall i, In i (zero_calls ops) \/ In i (sum_calls ops) -> i < length hs).
Proof. intros o pp ops s hs H. exact (claims_steps o ops _ _ s hs (winv_new pp) H). Qed.

(** Every tracked polynomial has as many variables as some handle. *)
Definition covered s (hs : list tpoly) : Prop := forall id m, known s id m -> exists h, In h hs /\ tp_nv h = m.

Lemma covered_step : forall (o : oracle p (gcar (PG1 E))) s hs op s' hs', winv (s, hs) -> pstep o (s, hs) op = Ok (s', hs') -> covered s hs -> covered s' hs'.
Proof.
  intros o s hs op s' hs' Hw H Hc id m Hk. destruct (pstep_inv o s hs op _ Hw H) as [Hw' [He [suf Hs]]]. cbn [fst snd] in He, Hs.
  pose proof (w_inv _ Hw) as Hi. pose proof (w_inv _ Hw') as Hi'. simpl in Hi, Hi'.
  destruct (Nat.lt_ge_cases id (pt_next s)) as [Hlt|Hge].
  - destruct (lt_known s id Hi Hlt) as [m0 Hm0]. pose proof (proj1 (proj1 (proj2 (proj2 He)) id m0 Hm0)) as Hm1.
    assert (m = m0) by (eapply (known_unique s'); eassumption). subst m0. destruct (Hc id m Hm0) as [h [A B]]. exists h. split; [|exact B]. rewrite Hs. apply in_or_app. auto.
  - pose proof (known_lt s' id m Hi' Hk) as Hlt.
    assert (New : forall k n f keep, pushed s s' hs hs' k n f keep -> (k = 0 \/ known s' (pt_next s) n) -> k <= 1 -> exists h, In h hs' /\ tp_nv h = m).
    { intros k n f keep [P1 [P2 _]] K1 K2. exists (mkTp (k + pt_next s) n). split; [rewrite P1; apply in_or_app; right; left; reflexivity|].
      simpl. assert (Hh : known s' (k + pt_next s) n).
      { apply (w_handles _ Hw' (mkTp (k + pt_next s) n)). cbn [snd]. rewrite P1. apply in_or_app. right. left. reflexivity. }
      destruct (Nat.eq_dec id (k + pt_next s)) as [->|Hd]; [eapply (known_unique s'); eassumption|].
      assert (id = pt_next s) by lia. subst id. destruct K1 as [K1|K1]; [lia|]. exact (known_unique s' _ _ _ Hi' K1 Hk). }
    pose proof (pstep_shape o s hs op s' hs' Hw H) as P. destruct op; cbn [step_post] in P.
    + eapply New; [apply P|auto|lia].
    + destruct P as [_ [P1 [P2 _]]]. exists (mkTp (pt_next s) n). split; [rewrite P1; apply in_or_app; right; left; reflexivity|].
      assert (Hh : known s' (pt_next s) n).
      { apply (w_handles _ Hw' (mkTp (pt_next s) n)). cbn [snd]. rewrite P1. apply in_or_app. right. left. reflexivity. }
      assert (id = pt_next s) by lia. subst id. simpl. eapply (known_unique s'); eassumption.
    + destruct P as [a [b [_ [_ [_ P]]]]]. eapply New; [apply P|auto|lia].
    + destruct P as [a [b [_ [_ [_ P]]]]]. eapply New; [apply P|auto|lia].
    + destruct P as [a [b [_ [_ [_ P]]]]]. eapply New; [apply P|auto|lia].
    + destruct P as [a [Ha P]]. eapply New; [apply P| |lia]. right. cbn [pstep] in H. apply bind_ok_inv in H. destruct H as [a' [Ha' H]]. apply rnth_inv in Ha'.
      assert (a' = a) by congruence. subst a'. pose proof (w_handles _ Hw a (nth_error_In _ _ Ha)) as Ka. unfold hknown in Ka. cbn [fst] in Ka.
      unfold push in H. apply bind_ok_inv in H. destruct H as [[h2 s2] [H1 H2]]. inversion H2; subst. clear H2.
      unfold tp_add_scalar in H1. apply bind_ok_inv in H1. destruct H1 as [[id2 s3] [H1 H2]]. inversion H2; subst. clear H2.
      unfold add_scalar in H1. rewrite (get_poly_nv_ok s _ _ Hi Ka) in H1. cbn [bind] in H1. rewrite from_evaluations_ok in H1 by apply repeat_length. cbn [bind] in H1.
      destruct (track_mat_spec s (mkMle (tp_nv a) (repeat c (2 ^ tp_nv a))) Hi) as [s1 [L1 [L2 [L3 [L4 [L5 [L6 [L7 [L8 [L9 L10]]]]]]]]]].
      { unfold wf_mle. simpl. apply repeat_length. }
      rewrite L1 in H1. destruct L3 as [G1 [G2 [G3 G4]]]. destruct (G3 (tp_id a) (tp_nv a) Ka) as [Ki1 Vi1].
      destruct (add_sub_spec s1 (tp_id a) (pt_next s) (tp_nv a) false L2 Ki1 L9) as [s4 [M1 [M2 [M3 _]]]].
      unfold add_polys in H1. rewrite H1 in M1. inversion M1; subst. apply (proj1 (proj2 (proj2 M3)) _ _ L9).
    + destruct P as [a [_ P]]. eapply New; [apply P|auto|lia].
    + destruct P as [a [_ [P _]]]. eapply New; [apply P|auto|lia].
    + destruct P as [a [_ [P _]]]. eapply New; [apply P|auto|lia].
    + destruct P as [a [_ [_ [[_ [_ [Q _]]] _]]]]. lia.
    + destruct P as [c [t [_ [-> _]]]]. simpl in Hlt. lia.
    + destruct P as [-> _]. simpl in Hlt. lia.
    + destruct P as [a [_ [-> _]]]. simpl in Hlt. lia.
    + destruct P as [a [_ [-> _]]]. simpl in Hlt. lia.
Qed.
Lemma covered_steps : forall (o : oracle p (gcar (PG1 E))) ops s hs s' hs', winv (s, hs) -> foldM (pstep o) (s, hs) ops = Ok (s', hs') -> covered s hs -> covered s' hs'.
Proof.
  intros o ops. induction ops as [|op ops IH]; intros s hs s' hs' Hw H Hc; [inversion H; subst; exact Hc|].
  cbn [foldM] in H. apply bind_ok_inv in H. destruct H as [[s1 hs1] [H1 H2]]. destruct (pstep_inv o s hs op _ Hw H1) as [Hw1 _].
  eapply IH; [exact Hw1|exact H2|]. eapply covered_step; [exact Hw|exact H1|exact Hc].
Qed.
Lemma hist_covered : forall (o : oracle p (gcar (PG1 E))) pp ops s hs, prun o pp ops = Ok (s, hs) -> covered s hs.
Proof.
  intros o pp ops s hs H. eapply (covered_steps o ops _ _ s hs (winv_new pp) H).
  intros id m [[a [A _]]|[v [A _]]]; discriminate A.
Qed.

(** The equalized number of variables is the largest of a handle. *)
Lemma max_nv_ge : forall hs h, In h hs -> tp_nv h <= max_nv hs.
Proof.
  intros hs h Hin. unfold max_nv. pose proof (proj1 (list_max_le (map tp_nv hs) _) (le_n _)) as F. rewrite Forall_forall in F.
  apply F. apply in_map. exact Hin.
Qed.
Lemma equal_max : forall (o : oracle p (gcar (PG1 E))) pp ops s hs n, prun o pp ops = Ok (s, hs) ->
  (exists id a, mget (pt_mat s) id = Some a /\ nv (snd a) = n) -> (forall h, In h hs -> tp_nv h <= n) -> n = max_nv hs.
Proof.
  intros o pp ops s hs n H [id [a [A1 A2]]] Hle. destruct (hist_covered _ _ _ _ _ H id n) as [h [B1 B2]]; [left; exists a; auto|].
  apply Nat.le_antisymm; [rewrite <- B2; apply max_nv_ge; exact B1|]. unfold max_nv. apply list_max_le. apply Forall_forall. intros x Hx.
  apply in_map_iff in Hx. destruct Hx as [h' [<- Hh]]. apply Hle. exact Hh.
Qed.

(** ** The verifier's claims *)
Lemma vrun_sc : forall (o : oracle p (gcar (PG1 E))) debug vops (v : vtrk E) cs v' cs', foldM (vstep o debug) (v, cs) vops = Ok (v', cs') ->
  vt_proof v' = vt_proof v /\ vt_vk v' = vt_vk v /\ (exists suf, cs' = cs ++ suf) /\
  forall id c, In (id, c) (vt_sc v') -> In (id, c) (vt_sc v) \/ get_prover_claimed_sum v id = Ok c \/ exists i, In (VOSum i c) vops /\ nth_error cs' i = Some id.
Proof.
  intros o debug vops. induction vops as [|op vops IH]; intros v cs v' cs' H.
  - inversion H; subst. split; [reflexivity|]. split; [reflexivity|]. split; [exists []; rewrite app_nil_r; reflexivity|]. auto.
  - cbn [foldM] in H. apply bind_ok_inv in H. destruct H as [[v1 cs1] [H1 H2]].
    assert (G : vt_proof v1 = vt_proof v /\ vt_vk v1 = vt_vk v /\ (exists suf, cs1 = cs ++ suf) /\
      forall id c, In (id, c) (vt_sc v1) -> In (id, c) (vt_sc v) \/ get_prover_claimed_sum v id = Ok c \/ exists i, In (VOSum i c) [op] /\ nth_error cs1 i = Some id).
    { destruct op; cbn [vstep] in H1; unfold vpush, track_virtual_comm, add_comms, sub_comms, mul_comms, v_add_scalar, v_mul_scalar, v_increase_nv_front, v_increase_nv_back, track_virtual, track_mat_comm, v_gen_id in H1; cbn [bind] in H1;
        repeat match type of H1 with bind ?x _ = _ => let Hx := fresh in destruct x eqn:Hx; try discriminate H1; cbn [bind] in H1 end;
        repeat match type of H1 with context [let (_, _) := ?x in _] => destruct x eqn:? end;
        try (inversion H1; subst; clear H1; cbn; repeat split; auto; (eexists; reflexivity) || (exists []; rewrite app_nil_r; reflexivity) || idtac; fail).
      - inversion H1; subst. unfold transfer_prover_comm in *.
        match goal with X : bind _ _ = Ok _ |- _ => apply bind_ok_inv in X; destruct X as [c [_ X]]; unfold track_mat_comm in X; cbn in X; destruct (negb debug || _) in X; [|discriminate X]; cbn in X; inversion X; subst end.
        cbn. repeat split; auto. eexists. reflexivity.
      - inversion H1; subst. match goal with X : vt_challenge _ _ _ = Ok _ |- _ => unfold vt_challenge in X; apply bind_ok_inv in X; destruct X as [[c t] [_ X]]; inversion X; subst end.
        cbn. repeat split; auto. exists []; rewrite app_nil_r; reflexivity.
      - inversion H1; subst. cbn. split; [reflexivity|]. split; [reflexivity|]. split; [exists []; rewrite app_nil_r; reflexivity|]. intros id d Hin.
        apply in_app_or in Hin. destruct Hin as [Hin|[Hin|[]]]; [auto|]. inversion Hin; subst. right. right. exists i. split; [left; reflexivity|]. apply rnth_inv. assumption.
      - inversion H1; subst. cbn. split; [reflexivity|]. split; [reflexivity|]. split; [exists []; rewrite app_nil_r; reflexivity|]. intros id d Hin.
        apply in_app_or in Hin. destruct Hin as [Hin|[Hin|[]]]; [auto|]. inversion Hin; subst. right. left. assumption. }
    destruct G as [G1 [G0 [[suf1 G2] G3]]]. destruct (IH _ _ _ _ H2) as [I1 [I0 [[suf2 I2] I3]]].
    split; [congruence|]. split; [congruence|]. split; [exists (suf1 ++ suf2); rewrite I2, G2, app_assoc; reflexivity|].
    intros id c Hin. destruct (I3 id c Hin) as [A|[A|[i [A B]]]].
    + destruct (G3 id c A) as [B|[B|[i [B C]]]]; [auto|auto|]. right. right. exists i. split; [destruct B as [B|[]]; left; exact B|].
      rewrite I2. rewrite nth_error_app1; [exact C|]. apply nth_error_Some. congruence.
    + right. left. unfold get_prover_claimed_sum in *. rewrite <- G1. exact A.
    + right. right. exists i. split; [right; exact A|exact B].
Qed.
End S.
