(** The verifier's mirror of a history: its commitments stand for the prover's polynomials. *)
From Coq Require Import String List Arith Lia Bool ZArith.
Import ListNotations.
From Verif Require Import Res ResLemmas Fp FSum SpecMle SpecKzg SpecTracker SpecIop ModelMle MleLemmas MleProofs MleExtra ModelVp ModelTranscript ModelSumcheck Pairing ModelKzg ModelBatch
  ModelProver ModelVerifier ModelIop ProverHist VerifierHist CompileHist IopHist TmapLemmas ProverProofs ProverExtra ProverStep DegreeProofs HistExtra LockProofs CompileMain IopWorld.
Local Open Scope string_scope.
Local Open Scope list_scope.
Local Open Scope nat_scope.

Section I.
Context {p : positive} {E : pairing p}.
Add Ring Fr : (@F_ring p).
Implicit Types (s : ptrk E) (v : vtrk E).
Local Arguments mput : simpl never.
Local Arguments Nat.add : simpl never.
Variable A : reading (p:=p).

(** The id of the handle stands for its polynomial. *)
Definition rd (virt : tmap (vexp p)) (h : tpoly) (d : den (p:=p)) : Prop :=
  fst d = tp_nv h /\ forall M i, tp_nv h <= M -> means A virt (tp_id h) M i (snd d (bpoint (fst d) (i mod 2 ^ fst d))).
Record rsim s hs v ds : Prop := {
  r_next : vt_next v = pt_next s;
  r_keys : forall id e, mget (vt_virt v) id = Some e -> id < vt_next v;
  r_read : Forall2 (rd (vt_virt v)) hs ds }.

Lemma rd_ext : forall virt virt' h d, (forall i e, mget virt i = Some e -> mget virt' i = Some e) -> rd virt h d -> rd virt' h d.
Proof. intros virt virt' h d X [H1 H2]. split; [exact H1|]. intros M i Hm. eapply means_ext; [exact X|apply H2; exact Hm]. Qed.
Lemma rsim_push : forall s hs v ds s' h d k v' e, rsim s hs v ds -> h = mkTp (k + pt_next s) (fst d) -> pt_next s' = S (k + pt_next s) ->
  vt_next v' = S (k + vt_next v) -> vt_virt v' = mput (vt_virt v) (k + vt_next v) e ->
  (forall virt, (forall i e, mget (vt_virt v) i = Some e -> mget virt i = Some e) -> mget virt (k + vt_next v) = Some e ->
     forall M i, fst d <= M -> means A virt (k + vt_next v) M i (snd d (bpoint (fst d) (i mod 2 ^ fst d)))) ->
  rsim s' (hs ++ [h]) v' (ds ++ [d]).
Proof.
  intros s hs v ds s' h d k v' e [R1 R2 R3] Hh Hn Hv Hvi Hm.
  assert (X : forall i x, mget (vt_virt v) i = Some x -> mget (vt_virt v') i = Some x).
  { intros i x Hx. rewrite Hvi. apply mput_fresh; [|exact Hx]. destruct (mget (vt_virt v) (k + vt_next v)) eqn:Q; [|reflexivity]. apply R2 in Q. lia. }
  constructor.
  - congruence.
  - intros id x Hx. rewrite Hvi, mget_mput in Hx. destruct (Nat.eqb_spec (k + vt_next v) id) as [Hi|Hi]; [lia|]. apply R2 in Hx. lia.
  - apply Forall2_snoc.
    + revert R3. clear - X. intros R3. induction R3 as [|a b la lb Hab R3 IH]; constructor; [eapply rd_ext; [exact X|exact Hab]|exact IH].
    + subst h. split; [reflexivity|]. cbn [tp_nv tp_id]. rewrite <- R1. apply Hm; [exact X|]. rewrite Hvi. apply mget_mput_same.
Qed.
Lemma rsim_keep : forall s hs v ds s' v', rsim s hs v ds -> pt_next s' = pt_next s -> vt_next v' = vt_next v -> vt_virt v' = vt_virt v -> rsim s' hs v' ds.
Proof. intros s hs v ds s' v' [R1 R2 R3] H1 H2 H3. constructor; [congruence|rewrite H2, H3; exact R2|rewrite H3; exact R3]. Qed.

Lemma rd_at : forall s hs v ds i h, rsim s hs v ds -> nth_error hs i = Some h ->
  nth_error ds i = Some (nth i ds (0, fun _ => F0)) /\ rd (vt_virt v) h (nth i ds (0, fun _ => F0)) /\ rnth (map tp_id hs) i = Ok (tp_id h).
Proof.
  intros s hs v ds i h R Hh. destruct (Forall2_nth _ _ _ hs ds i h (0, fun _ => F0) (r_read _ _ _ _ R) Hh) as [X Y]. split; [exact X|]. split; [exact Y|].
  apply rnth_of_error. rewrite nth_error_map, Hh. reflexivity.
Qed.

Lemma front_index : forall n k i, (i mod 2 ^ (n + k)) / 2 ^ k = (i / 2 ^ k) mod 2 ^ n.
Proof.
  intros n k i. pose proof (Nat.pow_nonzero 2 k ltac:(lia)). pose proof (Nat.pow_nonzero 2 n ltac:(lia)).
  rewrite Nat.pow_add_r, (Nat.mul_comm (2 ^ n)), Nat.mod_mul_r by assumption. rewrite (Nat.mul_comm (2 ^ k)), Nat.div_add by assumption.
  rewrite Nat.div_small by (apply Nat.mod_upper_bound; assumption). lia.
Qed.
Lemma back_index : forall n k i, (i mod 2 ^ (n + k)) mod 2 ^ n = i mod 2 ^ n.
Proof.
  intros n k i. pose proof (Nat.pow_nonzero 2 k ltac:(lia)). pose proof (Nat.pow_nonzero 2 n ltac:(lia)).
  rewrite Nat.pow_add_r, Nat.mod_mul_r by assumption. rewrite (Nat.mul_comm (2 ^ n)), Nat.mod_add by assumption. apply Nat.mod_mod. assumption.
Qed.

Lemma tabled_ext : forall s s', ext s s' -> tabled A s' -> tabled A s.
Proof. intros s s' [_ [_ [_ [_ X]]]] T id a Ha. apply T, X, Ha. Qed.

Lemma init_steps : forall (o : oracle p (gcar (PG1 E))) debug pp ops vops, mirror true pp ops vops -> forall s hs v ds sf hsf vf cs,
  winv (s, hs) -> foldM (pstep o) (s, hs) ops = Ok (sf, hsf) -> tabled A sf -> back_calls ds ops -> rsim s hs v ds ->
  foldM (vstep o debug) (v, map tp_id hs) vops = Ok (vf, cs) -> rsim sf hsf vf (fold_left den_step ops ds).
Proof.
  intros o debug pp ops vops Hm.
  induction Hm as [|n l f a b Hf Hm IH|n l a b Hm IH|n l c a b Hc Hm IH|i j a b Hm IH|i j a b Hm IH|i j a b Hm IH|i c a b Hm IH|i c a b Hm IH|i k a b Hm IH|i k a b Hm IH|i a b Hm IH|l a b Hm IH|l bs a b Hm IH|i c c' a b Hm IH|i c a b Hm IH|i a b Hm IH|a b Hm IH];
    intros s hs v ds sf hsf vf cs Hw Hp HT Hb R Hv;
    [inversion Hp; inversion Hv; subst; exact R| .. |cbn [foldM vstep bind] in Hv; eapply IH; [exact Hw|exact Hp|exact HT|exact Hb| |exact Hv]; eapply rsim_keep; [exact R|reflexivity|reflexivity|reflexivity]].
  all: cbn [foldM] in Hp; apply bind_ok_inv in Hp; destruct Hp as [[s1 hs1] [Hp1 Hp2]];
    pose proof (pstep_shape o s hs _ s1 hs1 Hw Hp1) as P; destruct (pstep_inv o s hs _ _ Hw Hp1) as [Hw1 [He1 _]]; cbn [fst] in He1;
    destruct (steps_inv o _ _ _ Hw1 Hp2) as [_ [He2 _]]; cbn [fst] in He2; pose proof (tabled_ext _ _ He2 HT) as HT1;
    cbn [back_calls] in Hb; destruct Hb as [Hb1 Hb2]; cbn [fold_left]; try (cbn [foldM] in Hv; apply bind_ok_inv in Hv; destruct Hv as [[v1 cs1] [Hv1 Hv2]]); simpl in P.
  - destruct P as [Hl [P1 [P2 _]]]. cbn [vstep] in Hv1. unfold track_virtual_comm, track_virtual, v_gen_id in Hv1. cbn in Hv1. inversion Hv1; subst; clear Hv1.
    assert (exists a, mget (pt_mat s1) (pt_next s) = Some (a, mkMle n l)) as [a0 Ha].
    { cbn [pstep] in Hp1. apply bind_ok_inv in Hp1. destruct Hp1 as [m [Hm1 Hp1]]. apply from_evaluations_wf in Hm1. destruct Hm1 as [_ [X1 X2]]. destruct m as [n' l']. cbn in X1, X2. subst n' l'.
      unfold tp_track in Hp1. cbn in Hp1. inversion Hp1; subst. eexists. apply mget_mput_same. }
    destruct (HT1 _ _ Ha) as [T1 T2]. cbn [snd nv evs] in T1, T2.
    eapply IH; [exact Hw1|exact Hp2|exact HT|exact Hb2| |rewrite map_app; cbn [map tp_id]; rewrite Nat.add_0_l, <- (r_next _ _ _ _ R); exact Hv2].
    cbn [den_step]. eapply (rsim_push _ _ _ _ _ _ _ 0); [exact R|reflexivity|exact P2|reflexivity|reflexivity|]. cbn [fst snd mle_den]. intros virt X Y M i Hi.
    rewrite (r_next _ _ _ _ R) in *. rewrite Nat.add_0_l in *. pose proof (Nat.mod_upper_bound i (2 ^ n) ltac:(apply Nat.pow_nonzero; lia)) as Hlt.
    rewrite mle_ext_bpoint by exact Hlt. replace (tab l (i mod 2 ^ n)) with (snd (A (pt_next s)) (i mod 2 ^ fst (A (pt_next s)))) by (rewrite T1, T2; reflexivity).
    apply (me_fun A virt _ f); [exact Y|rewrite T1; exact Hi|]. rewrite T1, T2. rewrite Hf by (try reflexivity; apply bpoint_length). rewrite mle_ext_bpoint by exact Hlt. reflexivity.
  - destruct P as [Hl [P1 [P2 [_ [_ [_ [[a0 Ha] _]]]]]]]. cbn [vstep] in Hv1. unfold transfer_prover_comm in Hv1. apply bind_ok_inv in Hv1. destruct Hv1 as [[h1 v1'] [Hv1 Hv1']].
    apply bind_ok_inv in Hv1. destruct Hv1 as [c [_ Hv1]]. cbn in Hv1. apply bind_ok_inv in Hv1. destruct Hv1 as [_ [_ Hv1]]. inversion Hv1; subst; clear Hv1. inversion Hv1'; subst; clear Hv1'.
    destruct (HT1 _ _ Ha) as [T1 T2]. cbn [snd nv evs] in T1, T2.
    eapply IH; [exact Hw1|exact Hp2|exact HT|exact Hb2| |rewrite map_app; cbn [map tp_id]; rewrite <- (r_next _ _ _ _ R); exact Hv2].
    cbn [den_step]. eapply (rsim_push _ _ _ _ _ _ _ 0); [exact R|reflexivity|exact P2|reflexivity|reflexivity|]. cbn [fst snd mle_den]. intros virt X Y M i Hi.
    rewrite (r_next _ _ _ _ R) in *. rewrite Nat.add_0_l in *. pose proof (Nat.mod_upper_bound i (2 ^ n) ltac:(apply Nat.pow_nonzero; lia)) as Hlt.
    rewrite mle_ext_bpoint by exact Hlt. replace (tab l (i mod 2 ^ n)) with (snd (A (pt_next s)) (i mod 2 ^ fst (A (pt_next s)))) by (rewrite T1, T2; reflexivity).
    apply (me_query A virt _ (pt_next s)); [exact Y|rewrite T1; exact Hi].
  - destruct P as [Hl [P1 [P2 [_ [_ [_ [[a0 Ha] _]]]]]]]. cbn [vstep] in Hv1. cbn in Hv1. inversion Hv1; subst; clear Hv1.
    destruct (HT1 _ _ Ha) as [T1 T2]. cbn [snd nv evs] in T1, T2.
    eapply IH; [exact Hw1|exact Hp2|exact HT|exact Hb2| |rewrite map_app; cbn [map tp_id]; rewrite <- (r_next _ _ _ _ R); exact Hv2].
    cbn [den_step]. eapply (rsim_push _ _ _ _ _ _ _ 0); [exact R|reflexivity|exact P2|reflexivity|reflexivity|]. cbn [fst snd mle_den]. intros virt X Y M i Hi.
    rewrite (r_next _ _ _ _ R) in *. rewrite Nat.add_0_l in *. pose proof (Nat.mod_upper_bound i (2 ^ n) ltac:(apply Nat.pow_nonzero; lia)) as Hlt.
    rewrite mle_ext_bpoint by exact Hlt. replace (tab l (i mod 2 ^ n)) with (snd (A (pt_next s)) (i mod 2 ^ fst (A (pt_next s)))) by (rewrite T1, T2; reflexivity).
    apply (me_query A virt _ (pt_next s)); [exact Y|rewrite T1; exact Hi].
  - destruct P as [x [y [Hx [Hy [Hxy [P1 [P2 _]]]]]]]. destruct (rd_at _ _ _ _ _ _ R Hx) as [_ [[Dx Rx] Ex]]. destruct (rd_at _ _ _ _ _ _ R Hy) as [_ [[Dy Ry] Ey]].
    cbn [vstep] in Hv1. rewrite Ex, Ey in Hv1. cbn in Hv1. inversion Hv1; subst; clear Hv1.
    eapply IH; [exact Hw1|exact Hp2|exact HT|exact Hb2| |rewrite map_app; cbn [map tp_id]; rewrite Nat.add_0_l, <- (r_next _ _ _ _ R); exact Hv2].
    cbn [den_step]. eapply (rsim_push _ _ _ _ _ _ _ 0); [exact R|cbn [fst]; congruence|exact P2|reflexivity|reflexivity|]. cbn [fst snd]. intros virt X Y M q Hi. rewrite Dx in Hi.
    eapply me_add; [exact Y|eapply means_ext; [exact X|apply Rx; exact Hi]|]. eapply means_ext; [exact X|]. rewrite Dx, Hxy, <- Dy. apply Ry. lia.
  - destruct P as [x [y [Hx [Hy [Hxy [P1 [P2 _]]]]]]]. destruct (rd_at _ _ _ _ _ _ R Hx) as [_ [[Dx Rx] Ex]]. destruct (rd_at _ _ _ _ _ _ R Hy) as [_ [[Dy Ry] Ey]].
    cbn [vstep] in Hv1. rewrite Ex, Ey in Hv1. cbn in Hv1. inversion Hv1; subst; clear Hv1.
    eapply IH; [exact Hw1|exact Hp2|exact HT|exact Hb2| |rewrite map_app; cbn [map tp_id]; rewrite Nat.add_0_l, <- (r_next _ _ _ _ R); exact Hv2].
    cbn [den_step]. eapply (rsim_push _ _ _ _ _ _ _ 0); [exact R|cbn [fst]; congruence|exact P2|reflexivity|reflexivity|]. cbn [fst snd]. intros virt X Y M q Hi. rewrite Dx in Hi.
    eapply me_sub; [exact Y|eapply means_ext; [exact X|apply Rx; exact Hi]|]. eapply means_ext; [exact X|]. rewrite Dx, Hxy, <- Dy. apply Ry. lia.
  - destruct P as [x [y [Hx [Hy [Hxy [P1 [P2 _]]]]]]]. destruct (rd_at _ _ _ _ _ _ R Hx) as [_ [[Dx Rx] Ex]]. destruct (rd_at _ _ _ _ _ _ R Hy) as [_ [[Dy Ry] Ey]].
    cbn [vstep] in Hv1. rewrite Ex, Ey in Hv1. cbn in Hv1. inversion Hv1; subst; clear Hv1.
    eapply IH; [exact Hw1|exact Hp2|exact HT|exact Hb2| |rewrite map_app; cbn [map tp_id]; rewrite Nat.add_0_l, <- (r_next _ _ _ _ R); exact Hv2].
    cbn [den_step]. eapply (rsim_push _ _ _ _ _ _ _ 0); [exact R|cbn [fst]; congruence|exact P2|reflexivity|reflexivity|]. cbn [fst snd]. intros virt X Y M q Hi. rewrite Dx in Hi.
    eapply me_mul; [exact Y|eapply means_ext; [exact X|apply Rx; exact Hi]|]. eapply means_ext; [exact X|]. rewrite Dx, Hxy, <- Dy. apply Ry. lia.
  - destruct P as [x [Hx [P1 [P2 _]]]]. destruct (rd_at _ _ _ _ _ _ R Hx) as [_ [[Dx Rx] Ex]].
    cbn [vstep] in Hv1. rewrite Ex in Hv1. cbn in Hv1. inversion Hv1; subst; clear Hv1.
    eapply IH; [exact Hw1|exact Hp2|exact HT|exact Hb2| |rewrite map_app; cbn [map tp_id]; rewrite <- (r_next _ _ _ _ R); exact Hv2].
    cbn [den_step]. eapply (rsim_push _ _ _ _ _ _ _ 1); [exact R|cbn [fst]; congruence|exact P2|reflexivity|reflexivity|]. cbn [fst snd]. intros virt X Y M q Hi. rewrite Dx in Hi.
    eapply me_adds; [exact Y|eapply means_ext; [exact X|apply Rx; exact Hi]].
  - destruct P as [x [Hx [P1 [P2 _]]]]. destruct (rd_at _ _ _ _ _ _ R Hx) as [_ [[Dx Rx] Ex]].
    cbn [vstep] in Hv1. rewrite Ex in Hv1. cbn in Hv1. inversion Hv1; subst; clear Hv1.
    eapply IH; [exact Hw1|exact Hp2|exact HT|exact Hb2| |rewrite map_app; cbn [map tp_id]; rewrite Nat.add_0_l, <- (r_next _ _ _ _ R); exact Hv2].
    cbn [den_step]. eapply (rsim_push _ _ _ _ _ _ _ 0); [exact R|cbn [fst]; congruence|exact P2|reflexivity|reflexivity|]. cbn [fst snd]. intros virt X Y M q Hi. rewrite Dx in Hi.
    match goal with |- means _ _ _ _ _ (?u * c)%F => replace (u * c)%F with (c * u)%F by ring end.
    eapply me_muls; [exact Y|eapply means_ext; [exact X|apply Rx; exact Hi]].
  - destruct P as [x [Hx [[P1 [P2 _]] _]]]. destruct (rd_at _ _ _ _ _ _ R Hx) as [_ [[Dx Rx] Ex]].
    cbn [vstep] in Hv1. rewrite Ex in Hv1. cbn in Hv1. inversion Hv1; subst; clear Hv1.
    eapply IH; [exact Hw1|exact Hp2|exact HT|exact Hb2| |rewrite map_app; cbn [map tp_id]; rewrite Nat.add_0_l, <- (r_next _ _ _ _ R); exact Hv2].
    cbn [den_step]. eapply (rsim_push _ _ _ _ _ _ _ 0); [exact R|cbn [fst]; congruence|exact P2|reflexivity|reflexivity|]. cbn [fst snd]. intros virt X Y M q Hi.
    rewrite bpoint_skipn, front_index. eapply me_front; [exact Y|lia|]. eapply means_ext; [exact X|]. apply Rx. lia.
  - destruct P as [x [Hx [[P1 [P2 _]] _]]]. destruct (rd_at _ _ _ _ _ _ R Hx) as [Nx [[Dx Rx] Ex]]. cbn [back_call] in Hb1. pose proof (Hb1 _ Nx) as Hk.
    cbn [vstep] in Hv1. rewrite Ex in Hv1. cbn in Hv1. inversion Hv1; subst; clear Hv1.
    eapply IH; [exact Hw1|exact Hp2|exact HT|exact Hb2| |rewrite map_app; cbn [map tp_id]; rewrite Nat.add_0_l, <- (r_next _ _ _ _ R); exact Hv2].
    cbn [den_step]. eapply (rsim_push _ _ _ _ _ _ _ 0); [exact R|cbn [fst]; congruence|exact P2|reflexivity|reflexivity|]. cbn [fst snd]. intros virt X Y M q Hi.
    rewrite bpoint_firstn, back_index. eapply me_back; [exact Y|lia|]. eapply means_ext; [exact X|].
    pose proof (Rx (fst (nth i ds (0, fun _ => F0))) (q mod 2 ^ fst (nth i ds (0, fun _ => F0))) ltac:(unfold den in *; lia)) as G. rewrite Nat.mod_mod in G by (apply Nat.pow_nonzero; lia). exact G.
  - destruct P as [x [Hx [-> [[Q1 [Q2 [Q3 _]]] _]]]]. cbn [den_step] in *. eapply IH; [exact Hw1|exact Hp2|exact HT|exact Hb2| |exact Hv].
    eapply rsim_keep; [exact R| |reflexivity|reflexivity]. congruence.
  - destruct P as [c [t [_ [-> ->]]]]. cbn [vstep] in Hv1. apply bind_ok_inv in Hv1. destruct Hv1 as [[c1 v2] [Hd Hv1]]. unfold vt_challenge in Hd. apply bind_ok_inv in Hd. destruct Hd as [[c2 t2] [_ Hd]].
    inversion Hd; subst; clear Hd. inversion Hv1; subst; clear Hv1. eapply IH; [exact Hw1|exact Hp2|exact HT|exact Hb2| |exact Hv2]. eapply rsim_keep; [exact R|reflexivity|reflexivity|reflexivity].
  - destruct P as [-> ->]. cbn [vstep] in Hv1. inversion Hv1; subst; clear Hv1. eapply IH; [exact Hw1|exact Hp2|exact HT|exact Hb2| |exact Hv2]. eapply rsim_keep; [exact R|reflexivity|reflexivity|reflexivity].
  - destruct P as [x [Hx [-> ->]]]. destruct (rd_at _ _ _ _ _ _ R Hx) as [_ [_ Ex]]. cbn [vstep] in Hv1. rewrite Ex in Hv1. cbn in Hv1. inversion Hv1; subst; clear Hv1.
    eapply IH; [exact Hw1|exact Hp2|exact HT|exact Hb2| |exact Hv2]. eapply rsim_keep; [exact R|reflexivity|reflexivity|reflexivity].
  - destruct P as [x [Hx [-> ->]]]. destruct (rd_at _ _ _ _ _ _ R Hx) as [_ [_ Ex]]. cbn [vstep] in Hv1. rewrite Ex in Hv1. cbn [bind] in Hv1. apply bind_ok_inv in Hv1. destruct Hv1 as [c1 [_ Hv1]]. inversion Hv1; subst; clear Hv1.
    eapply IH; [exact Hw1|exact Hp2|exact HT|exact Hb2| |exact Hv2]. eapply rsim_keep; [exact R|reflexivity|reflexivity|reflexivity].
  - destruct P as [x [Hx [-> ->]]]. destruct (rd_at _ _ _ _ _ _ R Hx) as [_ [_ Ex]]. cbn [vstep] in Hv1. rewrite Ex in Hv1. cbn in Hv1. inversion Hv1; subst; clear Hv1.
    eapply IH; [exact Hw1|exact Hp2|exact HT|exact Hb2| |exact Hv2]. eapply rsim_keep; [exact R|reflexivity|reflexivity|reflexivity].
Qed.

Lemma init_read : forall (o : oracle p (gcar (PG1 E))) debug pp vk cp ops vops s hs v cs, mirror true pp ops vops -> back_calls [] ops -> prun o pp ops = Ok (s, hs) -> tabled A s ->
  vrun o debug vk cp vops = Ok (v, cs) -> forall i h, nth_error hs i = Some h -> rd (vt_virt v) h (poly_at ops i).
Proof.
  intros o debug pp vk cp ops vops s hs v cs Hm Hb Hr HT Hv i h Hh.
  assert (R : rsim s hs v (denote ops)).
  { eapply (init_steps o debug pp ops vops Hm (pt_new pp) [] _ [] s hs v cs (winv_new pp) Hr HT Hb); [|exact Hv]. constructor; [reflexivity|intros id e H; discriminate|constructor]. }
  destruct (rd_at _ _ _ _ _ _ R Hh) as [_ [X _]]. exact X.
Qed.
End I.
