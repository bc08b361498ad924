(** Prover and verifier trackers run in lockstep; virtual commitments evaluate to the polynomials they stand for. *)
From Coq Require Import String List Arith Lia Bool ZArith.
Import ListNotations.
From Verif Require Import Res ResLemmas Fp FSum SpecMle SpecKzg SpecTracker ModelMle MleLemmas MleProofs MleExtra ModelVp ModelTranscript Pairing ModelKzg ModelBatch
  ModelProver ModelVerifier ProverHist VerifierHist TmapLemmas ProverProofs ProverExtra ProverStep.
Local Open Scope string_scope.
Local Open Scope list_scope.
Local Open Scope nat_scope.

Section S.
Context {p : positive} {E : pairing p}.
Add Ring Fr : (@F_ring p).
Implicit Types (s : ptrk E) (v : vtrk E).
Local Arguments mput : simpl never.
Local Arguments Nat.add : simpl never.

Record lsim (cp : cproof E) s (hs : list tpoly) v (cs : list nat) : Prop := {
  l_ids : cs = map tp_id hs;
  l_next : vt_next v = pt_next s;
  l_tr : vt_tr v = pt_tr s;
  l_comm : vt_mat v = pt_comm s;
  l_zc : vt_zc v = pt_zc s;
  l_sc : map fst (vt_sc v) = map fst (pt_sc s);
  l_proof : vt_proof v = cp;
  l_len : length cs <= length (vt_virt v);
  l_keys : forall id e, mget (vt_virt v) id = Some e -> id < vt_next v }.

Lemma mdel_none : forall A (m : tmap A) k, mget m k = None -> mdel m k = m.
Proof.
  intros A m k. unfold mdel. induction m as [|[j a] m IH]; intros H; [reflexivity|]. unfold mget in H. fold (@mget A) in H.
  cbn [filter fst]. destruct (Nat.eqb_spec j k) as [->|Hne]; [discriminate|]. simpl. f_equal. apply IH. exact H.
Qed.
Lemma mput_length : forall A (m : tmap A) k a, mget m k = None -> length (mput m k a) = S (length m).
Proof. intros. unfold mput. simpl. rewrite mdel_none by assumption. reflexivity. Qed.

(** Tracking a new closure on the verifier's side. *)
Lemma v_fresh : forall cp s hs v cs, lsim cp s hs v cs -> mget (vt_virt v) (vt_next v) = None.
Proof.
  intros cp s hs v cs H. destruct (mget (vt_virt v) (vt_next v)) eqn:Em; [|reflexivity].
  apply (l_keys _ _ _ _ _ H) in Em. lia.
Qed.
Lemma v_fresh_ge : forall cp s hs v cs id, lsim cp s hs v cs -> vt_next v <= id -> mget (vt_virt v) id = None.
Proof.
  intros cp s hs v cs id H Hle. destruct (mget (vt_virt v) id) eqn:Em; [|reflexivity]. apply (l_keys _ _ _ _ _ H) in Em. lia.
Qed.

Lemma claims_grow : forall o s hs op s' hs', winv (s, hs) -> pstep o (s, hs) op = Ok (s', hs') ->
  (forall cl, In cl (pt_sc s) -> In cl (pt_sc s')).
Proof.
  intros o s hs op s' hs' Hw H cl Hin. pose proof (pstep_shape o s hs op s' hs' Hw H) as P.
  destruct op; simpl in P;
    repeat match goal with
    | H : exists _, _ |- _ => destruct H
    | H : _ /\ _ |- _ => destruct H
    | H : pushed _ _ _ _ _ _ _ _ |- _ => unfold pushed in H
    | H : quiet _ _ |- _ => unfold quiet in H
    | H : same_claims _ _ |- _ => destruct H
    end; subst; simpl; try congruence; try assumption.
  apply in_or_app. left. exact Hin.
Qed.
Lemma claims_grow_steps : forall o ops s hs s' hs', winv (s, hs) -> foldM (pstep o) (s, hs) ops = Ok (s', hs') ->
  (forall cl, In cl (pt_sc s) -> In cl (pt_sc s')).
Proof.
  intros o ops. induction ops as [|op ops IH]; intros s hs s' hs' Hw H cl Hin; [inversion H; subst; exact Hin|].
  cbn [foldM] in H. apply bind_ok_inv in H. destruct H as [[s1 hs1] [H1 H2]].
  assert (Hw1 : winv (s1, hs1)) by (apply (pstep_inv o s hs op _ Hw H1)).
  eapply IH; [exact Hw1|exact H2|]. eapply claims_grow; [exact Hw|exact H1|exact Hin].
Qed.

Lemma rnth_of_error : forall A (l : list A) i a, nth_error l i = Some a -> rnth l i = Ok a.
Proof. intros A l i a H. unfold rnth. rewrite H. reflexivity. Qed.

(** The state after a call that returns a new handle. *)
Lemma push_lsim : forall cp s hs v cs k n f keep s' hs' v1 e, lsim cp s hs v cs ->
  pushed s s' hs hs' k n f keep ->
  vt_next v1 = k + vt_next v -> vt_tr v1 = vt_tr v -> vt_mat v1 = vt_mat v -> vt_virt v1 = vt_virt v -> vt_sc v1 = vt_sc v -> vt_zc v1 = vt_zc v ->
  vt_proof v1 = vt_proof v ->
  exists v', track_virtual v1 e = (k + vt_next v, v') /\ lsim cp s' hs' v' (cs ++ [k + vt_next v]) /\
    vt_virt v' = mput (vt_virt v) (k + vt_next v) e /\ vt_mat v' = vt_mat v.
Proof.
  intros cp s hs v cs k n f keep s' hs' v1 e L [P1 [P2 [P3 [P4 [P5 [[P6 P7] _]]]]]] E1 E2 E3 E4 E5 E6 E7.
  unfold track_virtual, v_gen_id, put_virt. rewrite E1. eexists. split; [reflexivity|]. split; [|simpl; rewrite E4, E3; auto]. destruct L. constructor; simpl.
  - subst hs' cs. rewrite map_app. simpl. rewrite l_next0. reflexivity.
  - rewrite P2. congruence.
  - congruence.
  - congruence.
  - congruence.
  - congruence.
  - congruence.
  - rewrite E4, mdel_none; [rewrite app_length; simpl; lia|].
    destruct (mget (vt_virt v) (k + vt_next v)) eqn:Em; [|reflexivity]. apply l_keys0 in Em. lia.
  - intros id e0 He. rewrite mget_mput in He. destruct (Nat.eqb_spec (k + vt_next v) id) as [Hx|Hne]; [lia|].
    rewrite E4 in He. apply l_keys0 in He. lia.
Qed.

Lemma draw_same : forall (o : oracle p (gcar (PG1 E))) l v s c t, vt_tr v = pt_tr s -> drawT o l (pt_tr s) = Ok (c, t) ->
  vt_challenge o l v = Ok (c, set_vtr v t).
Proof. intros o l v s c t H D. unfold vt_challenge. rewrite H, D. reflexivity. Qed.

(** Evaluation. *)
Definition esim v (cs : list nat) (ds : list (den (p:=p))) : Prop :=
  forall q i id d x, nth_error cs i = Some id -> nth_error ds i = Some d -> length x = fst d -> query_holds v q cs ds x ->
    forall fuel, i < fuel -> eval_loop fuel (vt_virt v) q id x = Ok (snd d x).

Lemma eval_loop_ext : forall (q : list ((nat * list (F p)) * F p)) fuel virt virt' id x y, (forall j e, mget virt j = Some e -> mget virt' j = Some e) ->
  eval_loop fuel virt q id x = Ok y -> eval_loop fuel virt' q id x = Ok y.
Proof.
  intros q fuel virt virt' id x y Hs. revert id x y. induction fuel as [|fuel IH]; intros id x y H; [discriminate|].
  cbn [eval_loop] in *. apply bind_ok_inv in H. destruct H as [e [He H]].
  destruct (mget virt id) as [e0|] eqn:Em; [|discriminate]. inversion He; subst e0. rewrite (Hs _ _ Em). cbn [ounwrap bind].
  destruct e as [j|f|a b|a b|a b|a c|a c|a k|a k]; cbn [run_vexp] in *; try exact H;
    repeat (apply bind_ok_inv in H; let z := fresh "z" in let Hz := fresh "Hz" in destruct H as [z [Hz H]]; try rewrite (IH _ _ _ Hz); try rewrite Hz; cbn [bind]);
    try exact H; apply IH; exact H.
Qed.

Lemma query_holds_old : forall v v' q cs ds id d x, query_holds v' q (cs ++ [id]) (ds ++ [d]) x ->
  (forall j, get_mat_comm v j <> None -> get_mat_comm v' j <> None) -> query_holds v q cs ds x.
Proof.
  intros v v' q cs ds id d x H Hm j i0 d0 y Hj Hd Hc Hz Hy. apply (H j i0 d0 y); auto.
  - rewrite nth_error_app1; [exact Hj|]. apply nth_error_Some. congruence.
  - rewrite nth_error_app1; [exact Hd|]. apply nth_error_Some. congruence.
Qed.

Lemma query_holds_infix : forall v q cs ds z y w, query_holds v q cs ds (z ++ y ++ w) -> query_holds v q cs ds y.
Proof.
  intros v q cs ds z y w H j i0 d0 y' Hj Hd Hc [z' [w' Hw]] Hy. apply (H j i0 d0 y'); auto. exists (z ++ z'), (w' ++ w).
  rewrite Hw, <- !app_assoc. reflexivity.
Qed.
Lemma query_holds_skipn : forall v q cs ds k x, query_holds v q cs ds x -> query_holds v q cs ds (skipn k x).
Proof. intros v q cs ds k x H. apply (query_holds_infix v q cs ds (firstn k x) _ []). rewrite app_nil_r, firstn_skipn. exact H. Qed.
Lemma query_holds_firstn : forall v q cs ds k x, query_holds v q cs ds x -> query_holds v q cs ds (firstn k x).
Proof. intros v q cs ds k x H. apply (query_holds_infix v q cs ds [] _ (skipn k x)). simpl. rewrite firstn_skipn. exact H. Qed.

(** A new handle whose closure is correct when its operands are. *)
Lemma esim_push : forall v v' cs ds id e d, esim v cs ds -> length cs = length ds ->
  vt_virt v' = mput (vt_virt v) id e -> mget (vt_virt v) id = None ->
  (forall j, get_mat_comm v j <> None -> get_mat_comm v' j <> None) ->
  (forall q x fuel, length x = fst d -> query_holds v q cs ds x -> query_holds v' q (cs ++ [id]) (ds ++ [d]) x -> length cs <= fuel ->
     run_vexp q (eval_loop fuel (vt_virt v') q) e x = Ok (snd d x)) ->
  esim v' (cs ++ [id]) (ds ++ [d]).
Proof.
  intros v v' cs ds id e d Hs Hl Hv Hfr Hm He q i id0 d0 x Hi Hd Hx Hq fuel Hf.
  pose proof (query_holds_old v v' q cs ds id d x Hq Hm) as Hq0.
  destruct (Nat.lt_ge_cases i (length cs)) as [Hlt|Hge].
  - rewrite nth_error_app1 in Hi by exact Hlt. rewrite nth_error_app1 in Hd by lia.
    apply (eval_loop_ext q fuel (vt_virt v)); [|apply (Hs q i id0 d0 x Hi Hd Hx Hq0 fuel Hf)].
    intros j e0 Hj. rewrite Hv, mget_mput. destruct (Nat.eqb_spec id j) as [<-|Hne]; [congruence|exact Hj].
  - assert (i = length cs).
    { assert (i < length (cs ++ [id])) by (apply nth_error_Some; congruence). rewrite app_length in H. simpl in H. lia. }
    subst i. rewrite nth_error_app2 in Hi by lia. rewrite Nat.sub_diag in Hi. inversion Hi; subst id0.
    rewrite Hl, nth_error_app2 in Hd by lia. rewrite Nat.sub_diag in Hd. inversion Hd; subst d0.
    destruct fuel as [|fuel]; [lia|]. cbn [eval_loop]. rewrite Hv at 1. rewrite mget_mput_same. cbn [ounwrap bind].
    apply He; [exact Hx|exact Hq0|exact Hq|lia].
Qed.
Lemma esim_keep : forall v v' cs ds, esim v cs ds -> vt_virt v' = vt_virt v -> vt_mat v' = vt_mat v -> esim v' cs ds.
Proof.
  intros v v' cs ds H E1 E2 q i id d x Hi Hd Hx Hq fuel Hf. rewrite E1. apply (H q i id d x Hi Hd Hx); [|exact Hf].
  intros j i0 d0 y A B C D Ey. apply (Hq j i0 d0 y A B); auto. unfold get_mat_comm in *. rewrite E2. exact C.
Qed.
Lemma Forall2_length : forall A B (R : A -> B -> Prop) l m, Forall2 R l m -> length l = length m.
Proof. intros A B R l m H. induction H; simpl; congruence. Qed.
Arguments Forall2_length {A B R l m} _.
Definition same_nv (h : tpoly) (d : den (p:=p)) : Prop := fst d = tp_nv h.

Lemma operand : forall v q cs ds hs fuel i h x virt', cs = map tp_id hs -> Forall2 same_nv hs ds -> esim v cs ds -> nth_error hs i = Some h -> length x = tp_nv h ->
  query_holds v q cs ds x -> length cs <= fuel -> (forall j e, mget (vt_virt v) j = Some e -> mget virt' j = Some e) ->
  fst (nth i ds (0, fun _ => F0)) = tp_nv h /\ eval_loop fuel virt' q (tp_id h) x = Ok (snd (nth i ds (0, fun _ => F0)) x).
Proof.
  intros v q cs ds hs fuel i h x virt' -> Hn Hs Hi Hx Hq Hf Hv.
  pose proof (Forall2_nth _ _ _ _ _ i h (0, fun _ => F0) Hn Hi) as [Hd0 Hd]. split; [exact Hd|].
  assert (Hlt : i < length hs) by (apply nth_error_Some; congruence).
  apply (eval_loop_ext q fuel (vt_virt v)); [exact Hv|]. rewrite map_length in Hf. apply (Hs q i); auto.
  - rewrite nth_error_map, Hi. reflexivity.
  - rewrite Hx; symmetry; exact Hd.
  - lia.
Qed.

Lemma esim_new : forall cp s hs v cs id e d v1 ds, lsim cp s hs v cs -> esim v cs ds -> Forall2 same_nv hs ds ->
  vt_next v <= id -> vt_virt v1 = mput (vt_virt v) id e -> (vt_mat v1 = vt_mat v \/ exists c, vt_mat v1 = mput (vt_mat v) id c) ->
  (forall q x fuel, length x = fst d -> query_holds v q cs ds x -> query_holds v1 q (cs ++ [id]) (ds ++ [d]) x -> length cs <= fuel ->
     (forall j e, mget (vt_virt v) j = Some e -> mget (vt_virt v1) j = Some e) ->
     run_vexp q (eval_loop fuel (vt_virt v1) q) e x = Ok (snd d x)) ->
  esim v1 (cs ++ [id]) (ds ++ [d]).
Proof.
  intros cp s hs v cs id e d v1 ds L Hs Hn Hid Hv Hm He. pose proof (v_fresh_ge _ _ _ _ _ id L Hid) as Hfr.
  assert (Hk : forall j e0, mget (vt_virt v) j = Some e0 -> mget (vt_virt v1) j = Some e0).
  { intros j e0 Hj. rewrite Hv, mget_mput. destruct (Nat.eqb_spec id j) as [<-|Hne]; [congruence|exact Hj]. }
  apply (esim_push v v1 cs ds id e d Hs); auto.
  - rewrite (l_ids _ _ _ _ _ L), map_length. apply (Forall2_length Hn).
  - intros j. unfold get_mat_comm. destruct Hm as [-> | [c ->]]; [auto|]. rewrite mget_mput.
    destruct (Nat.eqb_spec id j) as [<-|Hne]; [discriminate|auto].
Qed.

Lemma lock_step : forall (o : oracle p (gcar (PG1 E))) debug exact cp pp op ops vops s hs v cs s1 hs1 sf,
  mirror exact pp (op :: ops) vops -> pt_pp s = pp -> winv (s, hs) -> lsim cp s hs v cs ->
  pstep o (s, hs) op = Ok (s1, hs1) -> proof_covers cp sf ->
  (forall id c, mget (pt_comm s1) id = Some c -> mget (pt_comm sf) id = Some c) -> (forall cl, In cl (pt_sc s1) -> In cl (pt_sc sf)) ->
  exists pre rest v1, vops = pre ++ rest /\ mirror exact pp ops rest /\ foldM (vstep o debug) (v, cs) pre = Ok (v1, map tp_id hs1) /\
    lsim cp s1 hs1 v1 (map tp_id hs1) /\
    (exact = true -> forall ds, back_call ds op -> Forall2 same_nv hs ds -> esim v cs ds -> esim v1 (map tp_id hs1) (den_step ds op)).
Proof.
  intros o debug exact cp pp op ops vops s hs v cs s1 hs1 sf Hm. remember (op :: ops) as ops0 eqn:Eops. revert v op ops Eops.
  induction Hm as [|n l f a b Hf Hm _|n l a b Hm _|n l c a b Hc Hm _|i j a b Hm _|i j a b Hm _|i j a b Hm _|i c a b Hm _|i c a b Hm _|i k a b Hm _|i k a b Hm _|i a b Hm _|l a b Hm _|l bs a b Hm _|i c c' a b Hm _|i c a b Hm _|i a b Hm _|a b Hm IH];
    intros v op ops Eops Hpp Hw L Hst Hcov Hcm Hcl; try discriminate; try (inversion Eops; subst op ops; clear Eops);
    try pose proof (pstep_shape o s hs _ s1 hs1 Hw Hst) as P; try simpl in P.
  - (* track *)
    destruct P as [_ P]. destruct (push_lsim cp s hs v cs 0 _ _ _ s1 hs1 v (VFun f) L P) as [v' [T [L' [Ev Em]]]]; try reflexivity.
    exists [VOFun f], b, v'. split; [reflexivity|]. split; [exact Hm|]. pose proof (l_ids _ _ _ _ _ L') as <-. split; [|split; [exact L'|]].
    { cbn [foldM vstep]. unfold track_virtual_comm. rewrite T. reflexivity. }
    intros Hex ds _ Hn Hs. cbn [den_step]. eapply (esim_new cp s hs v cs); [exact L|exact Hs|exact Hn| |exact Ev|left; exact Em|]; [lia|].
    intros q z fuel Hz _ _ _ _. cbn [fst snd run_vexp mle_den] in *. apply (Hf Hex z Hz).
  - (* transfer *)
    destruct P as [_ [P1 [P2 [P3 [[P4 P5] [[c [Hc [Ht Hcm']]] _]]]]]].
    assert (Hget : mget (cp_comms (vt_proof v)) (vt_next v) = Some c).
    { rewrite (l_proof _ _ _ _ _ L), (l_next _ _ _ _ _ L). apply (proj1 Hcov). apply Hcm. rewrite Hcm'. apply mget_mput_same. }
    pose proof (v_fresh _ _ _ _ _ L) as Hfr.
    assert (L' : lsim cp s1 hs1 (snd (track_mat_comm v c)) (cs ++ [vt_next v])).
    { destruct L. constructor; simpl.
      - subst hs1 cs. rewrite map_app. simpl. congruence.
      - congruence.
      - congruence.
      - congruence.
      - congruence.
      - congruence.
      - congruence.
      - rewrite mdel_none by exact Hfr. rewrite app_length. simpl. lia.
      - intros id e He. rewrite mget_mput in He. destruct (Nat.eqb_spec (vt_next v) id) as [Hx|Hne]; [lia|]. apply l_keys0 in He. lia. }
    exists [VONext], b, (snd (track_mat_comm v c)). split; [reflexivity|]. split; [exact Hm|].
    pose proof (l_ids _ _ _ _ _ L') as <-. split; [|split; [exact L'|]].
    { cbn [foldM vstep]. unfold transfer_prover_comm, v_get_next_id. rewrite Hget. cbn [ounwrap bind]. unfold track_mat_comm, v_gen_id. cbn.
    rewrite Nat.eqb_refl, orb_true_r. reflexivity. }
    intros _ ds _ Hn Hs. cbn [den_step]. eapply (esim_new cp s hs v cs _ _ _ _ _ L Hs Hn (le_n _)); [reflexivity|right; exists c; reflexivity|].
    intros q z fuel Hz _ Hq _ _. cbn [fst snd run_vexp mle_den] in *.
    rewrite (Hq (length cs) (vt_next v) (mle_den n l) z); [reflexivity| | | | |exact Hz].
    + rewrite nth_error_app2, Nat.sub_diag by lia. reflexivity.
    + rewrite (l_ids _ _ _ _ _ L), map_length, (Forall2_length Hn), nth_error_app2, Nat.sub_diag by lia. reflexivity.
    + unfold get_mat_comm. cbn [track_mat_comm v_gen_id snd vt_mat set_vtr put_virt]. rewrite mget_mput_same. discriminate.
    + exists [], []. rewrite app_nil_r. reflexivity.
  - (* given commitment *)
    destruct P as [_ [P1 [P2 [P3 [[P4 P5] [[c' [Hc' [Ht Hcm']]] _]]]]]].
    assert (c' = c) by congruence. subst c'.
    pose proof (v_fresh _ _ _ _ _ L) as Hfr.
    assert (L' : lsim cp s1 hs1 (snd (track_mat_comm v c)) (cs ++ [vt_next v])).
    { destruct L. constructor; simpl.
      - subst hs1 cs. rewrite map_app. simpl. congruence.
      - congruence.
      - congruence.
      - congruence.
      - congruence.
      - congruence.
      - congruence.
      - rewrite mdel_none by exact Hfr. rewrite app_length. simpl. lia.
      - intros id e He. rewrite mget_mput in He. destruct (Nat.eqb_spec (vt_next v) id) as [Hx|Hne]; [lia|]. apply l_keys0 in He. lia. }
    exists [VOComm c], b, (snd (track_mat_comm v c)). split; [reflexivity|]. split; [exact Hm|].
    pose proof (l_ids _ _ _ _ _ L') as <-. split; [|split; [exact L'|]].
    { reflexivity. }
    intros _ ds _ Hn Hs. cbn [den_step]. eapply (esim_new cp s hs v cs _ _ _ _ _ L Hs Hn (le_n _)); [reflexivity|right; exists c; reflexivity|].
    intros q z fuel Hz _ Hq _ _. cbn [fst snd run_vexp mle_den] in *.
    rewrite (Hq (length cs) (vt_next v) (mle_den n l) z); [reflexivity| | | | |exact Hz].
    + rewrite nth_error_app2, Nat.sub_diag by lia. reflexivity.
    + rewrite (l_ids _ _ _ _ _ L), map_length, (Forall2_length Hn), nth_error_app2, Nat.sub_diag by lia. reflexivity.
    + unfold get_mat_comm. cbn [track_mat_comm v_gen_id snd vt_mat set_vtr put_virt]. rewrite mget_mput_same. discriminate.
    + exists [], []. rewrite app_nil_r. reflexivity.
  - destruct P as [x [y [Hx [Hy [Hxy P]]]]]. destruct (push_lsim cp s hs v cs 0 _ _ _ s1 hs1 v (VAdd (tp_id x) (tp_id y)) L P) as [v' [T [L' [Ev Em]]]]; try reflexivity.
    exists [VOAdd i j], b, v'. split; [reflexivity|]. split; [exact Hm|]. pose proof (l_ids _ _ _ _ _ L') as <-. split; [|split; [exact L'|]].
    { cbn [foldM vstep]. rewrite (l_ids _ _ _ _ _ L).
    rewrite (rnth_of_error _ (map tp_id hs) i (tp_id x)) by (rewrite nth_error_map, Hx; reflexivity). cbn [bind].
    rewrite (rnth_of_error _ (map tp_id hs) j (tp_id y)) by (rewrite nth_error_map, Hy; reflexivity). cbn [bind].
    unfold add_comms. rewrite T. cbn. rewrite <- (l_ids _ _ _ _ _ L). reflexivity. }
    intros _ ds _ Hn Hs. cbn [den_step]. eapply (esim_new cp s hs v cs); [exact L|exact Hs|exact Hn| |exact Ev|left; exact Em|]; [lia|].
    intros q z fuel Hz Hq _ Hf Hk. cbn [fst snd run_vexp] in *.
    pose proof (proj2 (Forall2_nth _ _ _ _ _ i x (0, fun _ => F0) Hn Hx)) as Hd. unfold same_nv in Hd.
    destruct (operand v q cs ds hs fuel i x z _ (l_ids _ _ _ _ _ L) Hn Hs Hx ltac:(unfold den in *; lia) Hq Hf Hk) as [_ ->].
    destruct (operand v q cs ds hs fuel j y z _ (l_ids _ _ _ _ _ L) Hn Hs Hy ltac:(unfold den in *; lia) Hq Hf Hk) as [_ ->]. reflexivity.
  - destruct P as [x [y [Hx [Hy [Hxy P]]]]]. destruct (push_lsim cp s hs v cs 0 _ _ _ s1 hs1 v (VSub (tp_id x) (tp_id y)) L P) as [v' [T [L' [Ev Em]]]]; try reflexivity.
    exists [VOSub i j], b, v'. split; [reflexivity|]. split; [exact Hm|]. pose proof (l_ids _ _ _ _ _ L') as <-. split; [|split; [exact L'|]].
    { cbn [foldM vstep]. rewrite (l_ids _ _ _ _ _ L).
    rewrite (rnth_of_error _ (map tp_id hs) i (tp_id x)) by (rewrite nth_error_map, Hx; reflexivity). cbn [bind].
    rewrite (rnth_of_error _ (map tp_id hs) j (tp_id y)) by (rewrite nth_error_map, Hy; reflexivity). cbn [bind].
    unfold sub_comms. rewrite T. cbn. rewrite <- (l_ids _ _ _ _ _ L). reflexivity. }
    intros _ ds _ Hn Hs. cbn [den_step]. eapply (esim_new cp s hs v cs); [exact L|exact Hs|exact Hn| |exact Ev|left; exact Em|]; [lia|].
    intros q z fuel Hz Hq _ Hf Hk. cbn [fst snd run_vexp] in *.
    pose proof (proj2 (Forall2_nth _ _ _ _ _ i x (0, fun _ => F0) Hn Hx)) as Hd. unfold same_nv in Hd.
    destruct (operand v q cs ds hs fuel i x z _ (l_ids _ _ _ _ _ L) Hn Hs Hx ltac:(unfold den in *; lia) Hq Hf Hk) as [_ ->].
    destruct (operand v q cs ds hs fuel j y z _ (l_ids _ _ _ _ _ L) Hn Hs Hy ltac:(unfold den in *; lia) Hq Hf Hk) as [_ ->]. reflexivity.
  - destruct P as [x [y [Hx [Hy [Hxy P]]]]]. destruct (push_lsim cp s hs v cs 0 _ _ _ s1 hs1 v (VMul (tp_id x) (tp_id y)) L P) as [v' [T [L' [Ev Em]]]]; try reflexivity.
    exists [VOMul i j], b, v'. split; [reflexivity|]. split; [exact Hm|]. pose proof (l_ids _ _ _ _ _ L') as <-. split; [|split; [exact L'|]].
    { cbn [foldM vstep]. rewrite (l_ids _ _ _ _ _ L).
    rewrite (rnth_of_error _ (map tp_id hs) i (tp_id x)) by (rewrite nth_error_map, Hx; reflexivity). cbn [bind].
    rewrite (rnth_of_error _ (map tp_id hs) j (tp_id y)) by (rewrite nth_error_map, Hy; reflexivity). cbn [bind].
    unfold mul_comms. rewrite T. cbn. rewrite <- (l_ids _ _ _ _ _ L). reflexivity. }
    intros _ ds _ Hn Hs. cbn [den_step]. eapply (esim_new cp s hs v cs); [exact L|exact Hs|exact Hn| |exact Ev|left; exact Em|]; [lia|].
    intros q z fuel Hz Hq _ Hf Hk. cbn [fst snd run_vexp] in *.
    pose proof (proj2 (Forall2_nth _ _ _ _ _ i x (0, fun _ => F0) Hn Hx)) as Hd. unfold same_nv in Hd.
    destruct (operand v q cs ds hs fuel i x z _ (l_ids _ _ _ _ _ L) Hn Hs Hx ltac:(unfold den in *; lia) Hq Hf Hk) as [_ ->].
    destruct (operand v q cs ds hs fuel j y z _ (l_ids _ _ _ _ _ L) Hn Hs Hy ltac:(unfold den in *; lia) Hq Hf Hk) as [_ ->]. reflexivity.
  - destruct P as [x [Hx P]]. destruct (push_lsim cp s hs v cs 1 _ _ _ s1 hs1 (snd (v_gen_id v)) (VAddS (tp_id x) c) L P) as [v' [T [L' [Ev Em]]]]; try reflexivity.
    exists [VOAddS i c], b, v'. split; [reflexivity|]. split; [exact Hm|]. pose proof (l_ids _ _ _ _ _ L') as <-. split; [|split; [exact L'|]].
    { cbn [foldM vstep]. rewrite (l_ids _ _ _ _ _ L).
    rewrite (rnth_of_error _ (map tp_id hs) i (tp_id x)) by (rewrite nth_error_map, Hx; reflexivity). cbn [bind].
    unfold v_add_scalar, v_gen_id. unfold v_gen_id in T. cbn [snd] in T. rewrite T. cbn. rewrite <- (l_ids _ _ _ _ _ L). reflexivity. }
    intros _ ds _ Hn Hs. cbn [den_step]. eapply (esim_new cp s hs v cs); [exact L|exact Hs|exact Hn| |exact Ev|left; exact Em|]; [lia|].
    intros q z fuel Hz Hq _ Hf Hk. cbn [fst snd run_vexp] in *.
    pose proof (proj2 (Forall2_nth _ _ _ _ _ i x (0, fun _ => F0) Hn Hx)) as Hd. unfold same_nv in Hd.
    destruct (operand v q cs ds hs fuel i x z _ (l_ids _ _ _ _ _ L) Hn Hs Hx ltac:(unfold den in *; lia) Hq Hf Hk) as [_ ->]. reflexivity.
  - destruct P as [x [Hx P]]. destruct (push_lsim cp s hs v cs 0 _ _ _ s1 hs1 v (VMulS (tp_id x) c) L P) as [v' [T [L' [Ev Em]]]]; try reflexivity.
    exists [VOMulS i c], b, v'. split; [reflexivity|]. split; [exact Hm|]. pose proof (l_ids _ _ _ _ _ L') as <-. split; [|split; [exact L'|]].
    { cbn [foldM vstep]. rewrite (l_ids _ _ _ _ _ L).
    rewrite (rnth_of_error _ (map tp_id hs) i (tp_id x)) by (rewrite nth_error_map, Hx; reflexivity). cbn [bind].
    unfold v_mul_scalar. rewrite T. cbn. rewrite <- (l_ids _ _ _ _ _ L). reflexivity. }
    intros _ ds _ Hn Hs. cbn [den_step]. eapply (esim_new cp s hs v cs); [exact L|exact Hs|exact Hn| |exact Ev|left; exact Em|]; [lia|].
    intros q z fuel Hz Hq _ Hf Hk. cbn [fst snd run_vexp] in *.
    pose proof (proj2 (Forall2_nth _ _ _ _ _ i x (0, fun _ => F0) Hn Hx)) as Hd. unfold same_nv in Hd.
    destruct (operand v q cs ds hs fuel i x z _ (l_ids _ _ _ _ _ L) Hn Hs Hx ltac:(unfold den in *; lia) Hq Hf Hk) as [_ ->]. cbn [bind]. f_equal. ring.
  - destruct P as [x [Hx [P _]]]. destruct (push_lsim cp s hs v cs 0 _ _ _ s1 hs1 v (VFront (tp_id x) k) L P) as [v' [T [L' [Ev Em]]]]; try reflexivity.
    exists [VOFront i k], b, v'. split; [reflexivity|]. split; [exact Hm|]. pose proof (l_ids _ _ _ _ _ L') as <-. split; [|split; [exact L'|]].
    { cbn [foldM vstep]. rewrite (l_ids _ _ _ _ _ L).
    rewrite (rnth_of_error _ (map tp_id hs) i (tp_id x)) by (rewrite nth_error_map, Hx; reflexivity). cbn [bind].
    unfold v_increase_nv_front. rewrite T. cbn. rewrite <- (l_ids _ _ _ _ _ L). reflexivity. }
    intros _ ds _ Hn Hs. cbn [den_step]. eapply (esim_new cp s hs v cs); [exact L|exact Hs|exact Hn| |exact Ev|left; exact Em|]; [lia|].
    intros q z fuel Hz Hq _ Hf Hk. cbn [fst snd run_vexp] in *.
    pose proof (proj2 (Forall2_nth _ _ _ _ _ i x (0, fun _ => F0) Hn Hx)) as Hd. unfold same_nv in Hd.
    rewrite slice_from_ok by lia. cbn [bind].
    destruct (operand v q cs ds hs fuel i x (skipn k z) _ (l_ids _ _ _ _ _ L) Hn Hs Hx ltac:(rewrite skipn_length; unfold den in *; lia) ltac:(apply query_holds_skipn; exact Hq) Hf Hk) as [_ ->]. reflexivity.
  - destruct P as [x [Hx [P _]]]. destruct (push_lsim cp s hs v cs 0 _ _ _ s1 hs1 v (VBack (tp_id x) k) L P) as [v' [T [L' [Ev Em]]]]; try reflexivity.
    exists [VOBack i k], b, v'. split; [reflexivity|]. split; [exact Hm|]. pose proof (l_ids _ _ _ _ _ L') as <-. split; [|split; [exact L'|]].
    { cbn [foldM vstep]. rewrite (l_ids _ _ _ _ _ L).
    rewrite (rnth_of_error _ (map tp_id hs) i (tp_id x)) by (rewrite nth_error_map, Hx; reflexivity). cbn [bind].
    unfold v_increase_nv_back. rewrite T. cbn. rewrite <- (l_ids _ _ _ _ _ L). reflexivity. }
    intros _ ds Hb Hn Hs. cbn [back_call] in Hb. cbn [den_step]. eapply (esim_new cp s hs v cs); [exact L|exact Hs|exact Hn| |exact Ev|left; exact Em|]; [lia|].
    intros q z fuel Hz Hq _ Hf Hk. cbn [fst snd run_vexp] in *.
    pose proof (proj2 (Forall2_nth _ _ _ _ _ i x (0, fun _ => F0) Hn Hx)) as Hd. unfold same_nv in Hd.
    rewrite slice_to_ok by lia. cbn [bind].
    assert (Hb' : tp_nv x = k) by (pose proof (proj1 (Forall2_nth _ _ _ _ _ i x (0, fun _ => F0) Hn Hx)) as Hd0; specialize (Hb _ Hd0); congruence).
    destruct (operand v q cs ds hs fuel i x (firstn k z) _ (l_ids _ _ _ _ _ L) Hn Hs Hx ltac:(rewrite firstn_length; unfold den in *; lia) ltac:(apply query_holds_firstn; exact Hq) Hf Hk) as [_ ->].
    unfold den in *. rewrite Hd, Hb'. reflexivity.
  - destruct P as [x [Hx [-> [[Q1 [Q2 [Q3 [Q4 [Q5 Q6]]]]] _]]]]. exists [], b, v. split; [reflexivity|]. split; [exact Hm|].
    cbn [foldM]. rewrite <- (l_ids _ _ _ _ _ L). split; [reflexivity|]. split; [destruct L; constructor; try assumption; congruence|].
    intros _ ds _ _ Hs. exact Hs.
  - destruct P as [c [t [D [-> ->]]]]. exists [VOChal l], b, (set_vtr v t). split; [reflexivity|]. split; [exact Hm|].
    rewrite <- (l_ids _ _ _ _ _ L). split.
    + cbn [foldM vstep]. rewrite (draw_same o l v s c t (l_tr _ _ _ _ _ L) D). reflexivity.
    + split; [destruct L; constructor; simpl; try assumption; reflexivity|].
      intros _ ds _ _ Hs. apply (esim_keep v); [exact Hs|reflexivity|reflexivity].
  - destruct P as [-> ->]. exists [VOAppend l bs], b, (set_vtr v (append l (PBytes bs) (vt_tr v))). split; [reflexivity|]. split; [exact Hm|].
    rewrite <- (l_ids _ _ _ _ _ L). split; [reflexivity|]. split; [destruct L; constructor; simpl; try assumption; congruence|].
    intros _ ds _ _ Hs. apply (esim_keep v); [exact Hs|reflexivity|reflexivity].
  - destruct P as [x [Hx [-> ->]]]. exists [VOSum i c'], b, (v_add_sumcheck_claim v (tp_id x) c'). split; [reflexivity|]. split; [exact Hm|].
    rewrite <- (l_ids _ _ _ _ _ L). split.
    + cbn [foldM vstep]. rewrite (l_ids _ _ _ _ _ L).
      rewrite (rnth_of_error _ (map tp_id hs) i (tp_id x)) by (rewrite nth_error_map, Hx; reflexivity). reflexivity.
    + split; [destruct L; constructor; simpl; try assumption; rewrite !map_app; simpl; congruence|].
      intros _ ds _ _ Hs. apply (esim_keep v); [exact Hs|reflexivity|reflexivity].
  - destruct P as [x [Hx [-> ->]]].
    assert (Hsum : exists c0, mget (cp_sums (vt_proof v)) (tp_id x) = Some c0).
    { rewrite (l_proof _ _ _ _ _ L). destruct (mget (cp_sums cp) (tp_id x)) as [c0|] eqn:Ec; [exists c0; reflexivity|].
      exfalso. apply (proj2 Hcov (tp_id x) c); [|exact Ec]. apply Hcl. simpl. apply in_or_app. right. left. reflexivity. }
    destruct Hsum as [c0 Hsum].
    exists [VOClaimed i], b, (v_add_sumcheck_claim v (tp_id x) c0). split; [reflexivity|]. split; [exact Hm|].
    rewrite <- (l_ids _ _ _ _ _ L). split.
    + cbn [foldM vstep]. rewrite (l_ids _ _ _ _ _ L).
      rewrite (rnth_of_error _ (map tp_id hs) i (tp_id x)) by (rewrite nth_error_map, Hx; reflexivity).
      cbn [bind]. unfold get_prover_claimed_sum. rewrite Hsum. reflexivity.
    + split; [destruct L; constructor; simpl; try assumption; rewrite !map_app; simpl; congruence|].
      intros _ ds _ _ Hs. apply (esim_keep v); [exact Hs|reflexivity|reflexivity].
  - destruct P as [x [Hx [-> ->]]]. exists [VOZero i], b, (v_add_zerocheck_claim v (tp_id x)). split; [reflexivity|]. split; [exact Hm|].
    rewrite <- (l_ids _ _ _ _ _ L). split.
    + cbn [foldM vstep]. rewrite (l_ids _ _ _ _ _ L).
      rewrite (rnth_of_error _ (map tp_id hs) i (tp_id x)) by (rewrite nth_error_map, Hx; reflexivity). reflexivity.
    + split; [destruct L; constructor; simpl; try assumption; congruence|].
      intros _ ds _ _ Hs. apply (esim_keep v); [exact Hs|reflexivity|reflexivity].
  - assert (L1 : lsim cp s hs (transfer_proof_poly_evals v) cs) by (destruct L; constructor; simpl; assumption).
    destruct (IH (transfer_proof_poly_evals v) op ops Eops Hpp Hw L1 Hst Hcov Hcm Hcl) as [pre [rest [v1 [A1 [A2 [A3 [A4 A5]]]]]]].
    exists (VOTransferEvals :: pre), rest, v1. split; [rewrite A1; reflexivity|]. split; [exact A2|]. split; [|split; [exact A4|]].
    { cbn [foldM vstep]. cbn [bind]. exact A3. }
    intros Hex ds Hb Hn Hs. apply (A5 Hex ds Hb Hn). apply (esim_keep v); [exact Hs|reflexivity|reflexivity].
Qed.

Lemma lock_nil : forall (o : oracle p (gcar (PG1 E))) debug exact cp pp vops s hs v cs, mirror exact pp [] vops -> lsim cp s hs v cs ->
  exists v', foldM (vstep o debug) (v, cs) vops = Ok (v', cs) /\ lsim cp s hs v' cs /\ vt_virt v' = vt_virt v /\ vt_mat v' = vt_mat v.
Proof.
  intros o debug exact cp pp vops s hs v cs Hm. remember [] as ops0 eqn:Eo. revert v. induction Hm; intros v L; try discriminate.
  - exists v. auto.
  - assert (L1 : lsim cp s hs (transfer_proof_poly_evals v) cs) by (destruct L; constructor; simpl; assumption).
    destruct (IHHm Eo _ L1) as [v' [A1 [A2 [A3 A4]]]]. exists v'. auto.
Qed.

Lemma agrees_nv : forall s pts hs ds, Forall2 (agrees s pts) hs ds -> Forall2 same_nv hs ds.
Proof. intros s pts hs ds H. induction H as [|h d hs ds Hd H IH]; [constructor|]. constructor; [unfold same_nv; destruct Hd; congruence|exact IH]. Qed.

Lemma lock_steps : forall (o : oracle p (gcar (PG1 E))) debug exact cp ops vops s hs v cs sf hsf,
  mirror exact (pt_pp s) ops vops -> winv (s, hs) -> lsim cp s hs v cs -> foldM (pstep o) (s, hs) ops = Ok (sf, hsf) -> proof_covers cp sf ->
  exists vf, foldM (vstep o debug) (v, cs) vops = Ok (vf, map tp_id hsf) /\ lsim cp sf hsf vf (map tp_id hsf) /\
    (exact = true -> forall ds, back_calls ds ops -> Forall2 (agrees s (points false)) hs ds -> esim v cs ds -> esim vf (map tp_id hsf) (fold_left den_step ops ds)).
Proof.
  intros o debug exact cp ops. induction ops as [|op ops IH]; intros vops s hs v cs sf hsf Hm Hw L H Hcov.
  - inversion H; subst. destruct (lock_nil o debug exact cp _ vops sf hsf v cs Hm L) as [v' [A [B [C D]]]]. exists v'.
    rewrite <- (l_ids _ _ _ _ _ B). split; [exact A|]. split; [exact B|]. intros _ ds _ _ Hs. apply (esim_keep v); assumption.
  - cbn [foldM] in H. apply bind_ok_inv in H. destruct H as [[s1 hs1] [H1 H2]].
    destruct (pstep_inv o s hs op _ Hw H1) as [Hw1 [He1 _]]. simpl in He1.
    destruct (steps_inv o ops _ _ Hw1 H2) as [_ [He2 _]]. simpl in He2.
    destruct (lock_step o debug exact cp (pt_pp s) op ops vops s hs v cs s1 hs1 sf Hm eq_refl Hw L H1 Hcov) as [pre [rest [v1 [A1 [A2 [A3 [A4 A5]]]]]]].
    { apply He2. }
    { intros cl. eapply claims_grow_steps; eassumption. }
    rewrite <- (proj1 He1) in A2.
    destruct (IH rest s1 hs1 v1 (map tp_id hs1) sf hsf A2 Hw1 A4 H2 Hcov) as [vf [B1 [B2 B3]]].
    exists vf. split; [rewrite A1, foldM_app, A3; exact B1|]. split; [exact B2|].
    intros Hex ds [Hb Hbs] Hag Hs. cbn [fold_left]. apply (B3 Hex); [exact Hbs| |].
    + apply (den_step_ok o s hs op s1 hs1 ds false Hw H1); [discriminate|exact Hag].
    + apply (A5 Hex ds Hb (agrees_nv _ _ _ _ Hag) Hs).
Qed.

Lemma lsim_new : forall (pp : pparam E) vk cp, lsim cp (pt_new pp) [] (set_compiled_proof (vt_new vk) cp) [].
Proof. intros. constructor; simpl; try reflexivity. intros id e H. discriminate. Qed.

Lemma lockstep : forall (o : oracle p (gcar (PG1 E))) debug exact pp vk cp ops vops s hs,
  mirror exact pp ops vops -> prun o pp ops = Ok (s, hs) -> proof_covers cp s ->
  exists v, vrun o debug vk cp vops = Ok (v, map tp_id hs) /\ lsim cp s hs v (map tp_id hs) /\
    (exact = true -> back_calls [] ops -> esim v (map tp_id hs) (denote ops)).
Proof.
  intros o debug exact pp vk cp ops vops s hs Hm H Hcov.
  destruct (lock_steps o debug exact cp ops vops (pt_new pp) [] _ _ s hs Hm (winv_new pp) (lsim_new pp vk cp) H Hcov) as [v [A [B C]]].
  exists v. split; [exact A|]. split; [exact B|]. intros Hex Hb. apply (C Hex [] Hb); [constructor|].
  intros q i id d x Hi. destruct i; discriminate.
Qed.

Lemma qlen : forall a b, a < S a * S b. Proof. intros; nia. Qed.

(** Evaluating a virtual commitment. *)
Lemma eval_comm : forall (o : oracle p (gcar (PG1 E))) debug pp vk cp ops vops s hs v cs i d x,
  mirror true pp ops vops -> prun o pp ops = Ok (s, hs) -> proof_covers cp s -> back_calls [] ops ->
  vrun o debug vk cp vops = Ok (v, cs) -> nth_error (denote ops) i = Some d -> length x = fst d ->
  query_holds v (vt_query v) cs (denote ops) x ->
  exists id, nth_error cs i = Some id /\ eval_virtual_comm v id x = Ok (snd d x).
Proof.
  intros o debug pp vk cp ops vops s hs v cs i d x Hm H Hcov Hb Hv Hd Hx Hq.
  destruct (lockstep o debug true pp vk cp ops vops s hs Hm H Hcov) as [v' [A [B C]]]. rewrite Hv in A. inversion A; subst v' cs. clear A.
  pose proof (prun_den o pp ops s hs false H ltac:(discriminate)) as Hag.
  assert (Hi : i < length (map tp_id hs)).
  { rewrite map_length, (Forall2_length Hag). apply nth_error_Some. congruence. }
  destruct (nth_error (map tp_id hs) i) as [id|] eqn:Ei; [|apply nth_error_None in Ei; lia].
  exists id. split; [reflexivity|]. unfold eval_virtual_comm.
  apply (C eq_refl Hb (vt_query v) i id d x Ei Hd Hx Hq). pose proof (l_len _ _ _ _ _ B). pose proof (qlen (length (vt_virt v)) (length x)). lia.
Qed.
End S.
