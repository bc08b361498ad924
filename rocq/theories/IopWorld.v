(** Single tracker calls on both sides: what they do to a prover history and how the verifier keeps up. *)
From Coq Require Import String List Arith Lia Bool ZArith.
Import ListNotations.
From Verif Require Import Res ResLemmas Fp FSum SpecMle SpecKzg SpecTracker SpecIop ModelMle MleLemmas MleProofs MleExtra ModelVp ModelTranscript ModelSumcheck Pairing ModelKzg ModelBatch
  ModelProver ModelVerifier ModelIop ProverHist VerifierHist CompileHist IopHist TmapLemmas ProverProofs ProverExtra ProverStep DegreeProofs HistExtra LockProofs CompileMain.
Local Open Scope string_scope.
Local Open Scope list_scope.
Local Open Scope nat_scope.

Section W.
Context {p : positive} {E : pairing p}.
Add Ring Fr : (@F_ring p).
Notation comm := (gcar (PG1 E)).

Record wd : Type := mkW { wo : list (pop p); ws : ptrk E; wh : list tpoly; wf : list (tpoly * list (F p)) }.
Implicit Types (w : wd) (v : vtrk E).

Definition hasd w (h : tpoly) (l : list (F p)) (d : nat) : Prop :=
  exists i, nth_error (wh w) i = Some h /\ corners (poly_at (wo w) i) = l /\ nth i (degrees (wo w)) 1 <= d.

(** What the verifier is compared with: the proof, the tables behind the committed ids, the size of the cube. *)
Definition rdg : Type := (cproof E * reading (p:=p) * nat)%type.
Notation prf c := (fst (fst c)).
Notation tbl c := (snd (fst c)).
Definition says (c : rdg) v (id n : nat) (l : list (F p)) : Prop :=
  length l = 2 ^ n /\ n <= snd c /\ forall j, means (tbl c) (vt_virt v) id (snd c) j (nth (j mod 2 ^ n) l F0).
(** The id stands for the table over cubes of every size. *)
Definition full (A : reading (p:=p)) v (h : tpoly) (l : list (F p)) : Prop :=
  length l = 2 ^ tp_nv h /\ forall M, tp_nv h <= M -> forall j, means A (vt_virt v) (tp_id h) M j (nth (j mod 2 ^ tp_nv h) l F0).
Definition vext v v' : Prop := forall id e, mget (vt_virt v) id = Some e -> mget (vt_virt v') id = Some e.

(** The verifier is at the same point; every sum it claims is the one in the proof; its ids stand for the tables of the prover's handles. *)
Record lk (cp : rdg) (vk : vparam E) w v : Prop := {
  k_next : vt_next v = pt_next (ws w);
  k_tr : vt_tr v = pt_tr (ws w);
  k_mat : vt_mat v = pt_comm (ws w);
  k_zc : vt_zc v = pt_zc (ws w);
  k_sc : map fst (vt_sc v) = map fst (pt_sc (ws w));
  k_proof : vt_proof v = prf cp;
  k_vk : vt_vk v = vk;
  k_sums : forall id c, In (id, c) (vt_sc v) -> mget (cp_sums (prf cp)) id = Some c;
  k_keys : forall id e, mget (vt_virt v) id = Some e -> id < vt_next v;
  k_read : forall i h, nth_error (wh w) i = Some h -> says cp v (tp_id h) (tp_nv h) (corners (poly_at (wo w) i));
  k_full : forall h l, In (h, l) (wf w) -> full (tbl cp) v h l }.

(** The proof holds the commitments and the sums of the world. *)
Definition tabled (A : reading (p:=p)) (s : ptrk E) : Prop :=
  forall id a, mget (pt_mat s) id = Some a -> fst (A id) = nv (snd a) /\ forall j, snd (A id) j = nth j (evs (snd a)) F0.
Definition cov (cp : rdg) (N : nat) w : Prop :=
  (forall id c, mget (pt_comm (ws w)) id = Some c -> mget (cp_comms (prf cp)) id = Some c) /\
  (forall i h, In i (sum_calls (wo w)) -> nth_error (wh w) i = Some h -> mget (cp_sums (prf cp)) (tp_id h) = Some (sum_at (wo w) N i)) /\
  (forall h, In h (wh w) -> tp_nv h <= N) /\ N = snd cp /\ tabled (tbl cp) (ws w).

Variable o : oracle p comm.
Variable pp : pparam E.
Variable K : nat.
Hypothesis Hpp : forall n l, n <= K -> length l = 2 ^ n -> exists c, kzg_commit pp (mkMle n l) = Ok c.
Variable D : nat.

Record good w : Prop := {
  g_run : prun o pp (wo w) = Ok (ws w, wh w);
  g_deg : forall d, In d (degrees (wo w)) -> d <= D;
  g_nv : forall h, In h (wh w) -> tp_nv h <= K;
  g_com : 1 <= commit_calls (wo w) }.

Definition le w w' : Prop := exists more hs', wo w' = wo w ++ more /\ wh w' = wh w ++ hs' /\
  (exists t, hist (pt_tr (ws w')) = hist (pt_tr (ws w)) ++ t) /\
  (forall id c, mget (pt_comm (ws w)) id = Some c -> mget (pt_comm (ws w')) id = Some c) /\
  (forall id a, mget (pt_mat (ws w)) id = Some a -> mget (pt_mat (ws w')) id = Some a) /\ incl (wf w) (wf w').

(** The zero claims made since [w] are true. *)
Definition zeros w w' : Prop := forall i, In i (zero_calls (skipn (length (wo w)) (wo w'))) -> Forall (fun y => y = F0) (corners (poly_at (wo w') i)).

Lemma le_refl : forall w, le w w.
Proof. intros w. exists [], []. rewrite !app_nil_r. split; [reflexivity|]. split; [reflexivity|]. split; [exists []; rewrite app_nil_r; reflexivity|]. split; [auto|]. split; [auto|apply incl_refl]. Qed.
Lemma le_trans : forall a b c, le a b -> le b c -> le a c.
Proof.
  intros a b c [m [k [A1 [A2 [[t A3] [A4 [A5 A6]]]]]]] [m' [k' [B1 [B2 [[t' B3] [B4 [B5 B6]]]]]]]. exists (m ++ m'), (k ++ k').
  rewrite B1, A1, B2, A2, !app_assoc. split; [reflexivity|]. split; [reflexivity|].
  split; [exists (t ++ t'); rewrite B3, A3, app_assoc; reflexivity|]. split; [auto|]. split; [auto|eapply incl_tran; eassumption].
Qed.

Lemma le_full : forall w w', le w w' -> incl (wf w) (wf w').
Proof. intros w w' [m [k [_ [_ [_ [_ [_ H]]]]]]]. exact H. Qed.

Lemma den_len_step : forall op (ds : list den), exists more, den_step (p:=p) ds op = ds ++ more.
Proof. intros op ds. destruct op; simpl; try (eexists; reflexivity); exists []; rewrite app_nil_r; reflexivity. Qed.
Lemma denote_prefix : forall more ops, exists r, denote (p:=p) (ops ++ more) = denote ops ++ r.
Proof.
  intros more ops. unfold denote. rewrite fold_left_app. generalize (fold_left den_step ops []). induction more as [|op more IH]; intros ds; simpl.
  - exists []. rewrite app_nil_r. reflexivity.
  - destruct (den_len_step op ds) as [m Hm]. rewrite Hm. destruct (IH (ds ++ m)) as [r Hr]. rewrite Hr. exists (m ++ r). rewrite app_assoc. reflexivity.
Qed.
Lemma deg_len_step : forall op ds, exists more, deg_step (p:=p) ds op = ds ++ more.
Proof. intros op ds. destruct op; simpl; try (eexists; reflexivity); exists []; rewrite app_nil_r; reflexivity. Qed.
Lemma degrees_prefix : forall more ops, exists r, degrees (p:=p) (ops ++ more) = degrees ops ++ r.
Proof.
  intros more ops. unfold degrees. rewrite fold_left_app. generalize (fold_left (@deg_step p) ops []). induction more as [|op more IH]; intros ds; simpl.
  - exists []. rewrite app_nil_r. reflexivity.
  - destruct (deg_len_step op ds) as [m Hm]. rewrite Hm. destruct (IH (ds ++ m)) as [r Hr]. rewrite Hr. exists (m ++ r). rewrite app_assoc. reflexivity.
Qed.
Lemma Forall2_len : forall A B (R : A -> B -> Prop) l m, Forall2 R l m -> length l = length m.
Proof. intros A B R l m H. induction H; simpl; congruence. Qed.
Lemma denote_length : forall w, good w -> length (denote (wo w)) = length (wh w).
Proof. intros w G. symmetry. eapply Forall2_len. exact (prun_den o pp _ _ _ false (g_run w G) ltac:(discriminate)). Qed.
Lemma degrees_length : forall w, good w -> length (degrees (wo w)) = length (wh w).
Proof. intros w G. symmetry. eapply Forall2_len. exact (prun_degrees o pp _ _ _ (g_run w G)). Qed.

Lemma poly_prefix : forall w more i, good w -> i < length (wh w) -> poly_at (wo w ++ more) i = poly_at (wo w) i.
Proof.
  intros w more i G H. unfold poly_at. destruct (denote_prefix more (wo w)) as [r Hr]. rewrite Hr. apply app_nth1. rewrite denote_length by exact G. exact H.
Qed.
Lemma deg_prefix : forall w more i, good w -> i < length (wh w) -> nth i (degrees (wo w ++ more)) 1 = nth i (degrees (wo w)) 1.
Proof.
  intros w more i G H. destruct (degrees_prefix more (wo w)) as [r Hr]. rewrite Hr. apply app_nth1. rewrite degrees_length by exact G. exact H.
Qed.

Lemma hasd_le : forall w w' h l d, good w -> le w w' -> hasd w h l d -> hasd w' h l d.
Proof.
  intros w w' h l d G [more [hs' [L1 [L2 _]]]] [i [H1 [H2 H3]]]. assert (Hi : i < length (wh w)) by (apply nth_error_Some; congruence).
  exists i. rewrite L1, L2. rewrite nth_error_app1 by exact Hi. rewrite poly_prefix, deg_prefix by assumption. auto.
Qed.
Lemma hasd_weak : forall w h l d d', hasd w h l d -> d <= d' -> hasd w h l d'.
Proof. intros w h l d d' [i [H1 [H2 H3]]] Hd. exists i. split; [exact H1|]. split; [exact H2|lia]. Qed.

Lemma hasd_at : forall w h l d, good w -> hasd w h l d ->
  In h (wh w) /\ length l = 2 ^ tp_nv h /\ tp_nv h <= K /\ hknown (ws w) h /\ ptab (ws w) (tp_id h) (tp_nv h) = l.
Proof.
  intros w h l d G [i [H1 [H2 H3]]]. assert (Hi : i < length (wh w)) by (apply nth_error_Some; congruence).
  destruct (hist_at o pp _ _ _ i (g_run w G) Hi) as [A1 [A2 [A3 [A4 _]]]]. rewrite (nth_error_nth _ _ dh H1) in *.
  split; [exact A1|]. split; [rewrite <- H2; unfold corners; rewrite map_length, seq_length, A2; reflexivity|].
  split; [apply (g_nv w G); exact A1|]. unfold hknown. rewrite A2. split; [exact A3|]. rewrite A4. exact H2.
Qed.
Lemma hasd_len : forall w h l d, good w -> hasd w h l d -> length l = 2 ^ tp_nv h.
Proof. intros w h l d G H. apply (hasd_at w h l d G H). Qed.
Lemma hasd_nv : forall w h i, good w -> nth_error (wh w) i = Some h -> fst (poly_at (wo w) i) = tp_nv h /\ i < length (wh w).
Proof.
  intros w h i G H1. assert (Hi : i < length (wh w)) by (apply nth_error_Some; congruence).
  destruct (hist_at o pp _ _ _ i (g_run w G) Hi) as [_ [A2 _]]. rewrite (nth_error_nth _ _ dh H1) in A2. auto.
Qed.
Lemma hasd_unique : forall w h l l' d d', good w -> hasd w h l d -> hasd w h l' d' -> l = l'.
Proof. intros w h l l' d d' G H1 H2. destruct (hasd_at _ _ _ _ G H1) as [_ [_ [_ [_ A]]]]. destruct (hasd_at _ _ _ _ G H2) as [_ [_ [_ [_ B]]]]. congruence. Qed.

(** Appending one call. *)
Lemma prun_snoc : forall ops op s hs, prun o pp ops = Ok (s, hs) -> prun o pp (ops ++ [op]) = pstep o (s, hs) op.
Proof.
  intros ops op s hs H. unfold prun in *. rewrite foldM_app, H. cbn [bind foldM]. destruct (pstep o (s, hs) op) as [[s' hs']| |]; reflexivity.
Qed.
Lemma denote_snoc : forall ops (op : pop p), denote (ops ++ [op]) = den_step (denote ops) op.
Proof. intros. unfold denote. rewrite fold_left_app. reflexivity. Qed.
Lemma degrees_snoc : forall ops (op : pop p), degrees (ops ++ [op]) = deg_step (degrees ops) op.
Proof. intros. unfold degrees. rewrite fold_left_app. reflexivity. Qed.
Lemma zero_calls_snoc : forall ops (op : pop p), zero_calls (ops ++ [op]) = zero_calls ops ++ zero_calls [op].
Proof. intros. unfold zero_calls. apply flat_map_app. Qed.
Lemma sum_calls_app : forall ops (op : list (pop p)), sum_calls (ops ++ op) = sum_calls ops ++ sum_calls op.
Proof. intros. unfold sum_calls. apply flat_map_app. Qed.
Lemma zero_calls_app : forall ops (op : list (pop p)), zero_calls (ops ++ op) = zero_calls ops ++ zero_calls op.
Proof. intros. unfold zero_calls. apply flat_map_app. Qed.
Lemma commit_calls_app : forall ops (op : list (pop p)), commit_calls (ops ++ op) = commit_calls ops + commit_calls op.
Proof. intros. unfold commit_calls. rewrite flat_map_app, app_length. reflexivity. Qed.

Lemma cov_le : forall cp N w w', good w -> le w w' -> cov cp N w' -> cov cp N w.
Proof.
  intros cp N w w' G [more [hs' [L1 [L2 [_ [L3 [L4 _]]]]]]] [C1 [C2 [C3 [C4 C5]]]]. split; [intros; apply C1; apply L3; assumption|]. split; [|split; [intros h Hh; apply C3; rewrite L2; apply in_or_app; auto|split; [exact C4|intros id a Ha; apply C5, L4, Ha]]].
  intros i h Hi Hh. assert (Hl : i < length (wh w)) by (apply nth_error_Some; congruence).
  assert (In i (sum_calls (wo w'))) as Hs by (rewrite L1, sum_calls_app; apply in_or_app; auto).
  assert (nth_error (wh w') i = Some h) as Hn by (rewrite L2, nth_error_app1 by exact Hl; exact Hh).
  rewrite (C2 i h Hs Hn). unfold sum_at. rewrite L1, poly_prefix by assumption. reflexivity.
Qed.

Lemma skipn_len : forall A (a b : list A), skipn (length a) (a ++ b) = b.
Proof. intros A a b. induction a; simpl; auto. Qed.
Lemma zeros_refl : forall w, zeros w w. Proof. intros w i H. rewrite skipn_all in H. destruct H. Qed.
Lemma zeros_trans : forall a b c, good b -> le a b -> le b c -> (zeros a c <-> zeros a b /\ zeros b c).
Proof.
  intros a b c G [m [k [A1 _]]] [m' [k' [B1 _]]]. unfold zeros. rewrite B1, skipn_len, A1, <- app_assoc, !skipn_len, app_assoc. rewrite <- A1.
  assert (Hb : forall i, In i (zero_calls m) -> poly_at (wo b ++ m') i = poly_at (wo b) i).
  { intros i Hi. apply poly_prefix; [exact G|]. apply (hist_calls o pp _ _ _ (g_run b G)). left. rewrite A1, zero_calls_app. apply in_or_app. auto. }
  split.
  - intros H. split; intros i Hi; [rewrite <- Hb by exact Hi|]; apply H; rewrite zero_calls_app; apply in_or_app; auto.
  - intros [H1 H2] i Hi. rewrite zero_calls_app in Hi. apply in_app_or in Hi. destruct Hi as [Hi|Hi]; [rewrite Hb by exact Hi|]; auto.
Qed.
(** Calls that add no zero claim. *)
Definition nozc w w' : Prop := zero_calls (wo w') = zero_calls (wo w).
Lemma nozc_zeros : forall w w', le w w' -> nozc w w' -> zeros w w'.
Proof.
  intros w w' [m [k [A1 _]]] H i Hi. unfold nozc in H. rewrite A1, skipn_len in Hi. rewrite A1, zero_calls_app in H. apply (f_equal (@length _)) in H. rewrite app_length in H.
  destruct (zero_calls m); [destruct Hi|cbn in H; lia].
Qed.

(** The transcript between two worlds. *)
Definition drawnw w w' : list (F p) := drawn (pt_tr (ws w)) (pt_tr (ws w')).
Lemma drawn_app : forall (a b c : tr p comm), (exists t, hist b = hist a ++ t) -> (exists t, hist c = hist b ++ t) -> drawn a c = drawn a b ++ drawn b c.
Proof.
  intros a b c [t Ht] [u Hu]. unfold drawn. rewrite !Hu, skipn_len, Ht, skipn_len, <- app_assoc, skipn_len.
  unfold challenges. apply flat_map_app.
Qed.
Lemma drawnw_trans : forall a b c, le a b -> le b c -> drawnw a c = drawnw a b ++ drawnw b c.
Proof. intros a b c [m [k [_ [_ [H _]]]]] [m' [k' [_ [_ [H' _]]]]]. apply drawn_app; assumption. Qed.
Lemma drawn_same : forall (t : tr p comm), drawn t t = [].
Proof. intros t. unfold drawn. rewrite skipn_all. reflexivity. Qed.

Lemma lk_sc_len : forall cp vk w v, lk cp vk w v -> length (vt_sc v) = length (pt_sc (ws w)).
Proof. intros cp vk w v L. rewrite <- (map_length fst (vt_sc v)), (k_sc _ _ _ _ L), map_length. reflexivity. Qed.

(** A call that returns a new handle and leaves transcript, commitments and claims alone. *)
Definition callp w w' : Prop := good w' /\ le w w' /\ nozc w w' /\ drawnw w w' = [] /\ sum_calls (wo w') = sum_calls (wo w).

Definition vsame v v' : Prop := vt_tr v' = vt_tr v /\ vt_mat v' = vt_mat v /\ vt_zc v' = vt_zc v /\ vt_sc v' = vt_sc v /\ vt_proof v' = vt_proof v /\ vt_vk v' = vt_vk v.
Lemma pushed_le : forall w op s' h k n f keep,
  good w -> pstep o (ws w, wh w) op = Ok (s', wh w ++ [h]) -> pushed (ws w) s' (wh w) (wh w ++ [h]) k n f keep ->
  (forall d, In d (deg_step (degrees (wo w)) op) -> d <= D) -> n <= K ->
  flat_map (fun op => match op with OZero i => [i] | _ => [] end) [op] = [] -> flat_map (fun op => match op with OSum i _ => [i] | _ => [] end) [op] = [] ->
  callp w (mkW (wo w ++ [op]) s' (wh w ++ [h]) (wf w)) /\ h = mkTp (k + pt_next (ws w)) n.
Proof.
  intros w op s' h k n f keep G H P Hd Hn Hz Hs. unfold pushed in P.
  pose proof (pstep_inv o _ _ _ _ (prun_inv _ _ _ _ (g_run w G)) H) as [_ [[_ [_ [_ [_ Mx]]]] _]]. cbn [fst] in Mx.
  destruct P as [P1 [P2 [P3 [P4 [P5 [[P6 P7] _]]]]]]. apply app_inv_head in P1. inversion P1; subst h. clear P1.
  split.
  - split.
    + constructor; cbn [wo ws wh].
      * rewrite (prun_snoc _ _ _ _ (g_run w G)). exact H.
      * rewrite degrees_snoc. exact Hd.
      * intros h Hin. apply in_app_or in Hin. destruct Hin as [Hin|[<-|[]]]; [apply (g_nv w G h Hin)|exact Hn].
      * rewrite commit_calls_app. pose proof (g_com w G). lia.
    + split; [|split; [|split]].
      * exists [op], [mkTp (k + pt_next (ws w)) n]. cbn [wo ws wh]. split; [reflexivity|]. split; [reflexivity|].
        rewrite P4, P5. split; [exists []; rewrite app_nil_r; reflexivity|]. split; [auto|]. split; [exact Mx|apply incl_refl].
      * unfold nozc. cbn [wo]. rewrite zero_calls_snoc. unfold zero_calls at 2. rewrite Hz, app_nil_r. reflexivity.
      * unfold drawnw. cbn [ws]. rewrite P4. apply drawn_same.
      * cbn [wo]. rewrite sum_calls_app. unfold sum_calls at 2. rewrite Hs, app_nil_r. reflexivity.
  - reflexivity.
Qed.

Lemma mput_fresh : forall A (m : tmap A) k a i x, mget m k = None -> mget m i = Some x -> mget (mput m k a) i = Some x.
Proof. intros A m k a i x Hk Hi. rewrite mget_mput. destruct (Nat.eqb_spec k i) as [<-|_]; [congruence|exact Hi]. Qed.
Lemma key_free : forall cp vk w v id, lk cp vk w v -> vt_next v <= id -> mget (vt_virt v) id = None.
Proof. intros cp vk w v id L H. destruct (mget (vt_virt v) id) eqn:Q; [|reflexivity]. apply (k_keys _ _ _ _ L) in Q. lia. Qed.
Lemma means_ext : forall A m m' id M j y, (forall i e, mget m i = Some e -> mget m' i = Some e) -> means (p:=p) A m id M j y -> means A m' id M j y.
Proof.
  intros A m m' id M j y X H. induction H; [eapply me_query|eapply me_fun|eapply me_add|eapply me_sub|eapply me_mul|eapply me_adds|eapply me_muls|eapply me_front|eapply me_back]; eauto.
Qed.
Lemma says_ext : forall c v v' id n l, vext v v' -> says c v id n l -> says c v' id n l.
Proof. intros c v v' id n l X [H1 [H2 H3]]. split; [exact H1|]. split; [exact H2|]. intros j. eapply means_ext; [exact X|apply H3]. Qed.
Lemma full_ext : forall A v v' h l, vext v v' -> full A v h l -> full A v' h l.
Proof. intros A v v' h l X [H1 H2]. split; [exact H1|]. intros M HM j. eapply means_ext; [exact X|apply H2; exact HM]. Qed.
Lemma vext_refl : forall v, vext v v. Proof. intros v id e H. exact H. Qed.
Lemma vext_trans : forall a b c, vext a b -> vext b c -> vext a c. Proof. intros a b c H1 H2 id e H. auto. Qed.
Lemma vext_same : forall v v', vt_virt v' = vt_virt v -> vext v v'. Proof. intros v v' H id e He. rewrite H. exact He. Qed.
Lemma lk_says : forall cp vk w v h l d, lk cp vk w v -> hasd w h l d -> says cp v (tp_id h) (tp_nv h) l.
Proof. intros cp vk w v h l d L [i [H1 [<- _]]]. apply (k_read _ _ _ _ L i h H1). Qed.

(** The expression [e], put under [id], stands for the table [l]. *)
Definition fit (c : rdg) v (e : vexp p) (n : nat) (l : list (F p)) (id : nat) : Prop :=
  forall m, (forall i x, mget (vt_virt v) i = Some x -> mget m i = Some x) -> mget m id = Some e -> forall j, means (tbl c) m id (snd c) j (nth (j mod 2 ^ n) l F0).
Definition tick (k n : nat) (l : list (F p)) w w' : Prop := forall cp vk N v v' e, lk cp vk w v -> cov cp N w' -> fit cp v e n l (k + vt_next v) ->
  vt_next v' = S (k + vt_next v) -> vsame v v' -> vt_virt v' = mput (vt_virt v) (k + vt_next v) e -> lk cp vk w' v' /\ vext v v' /\ says cp v' (k + vt_next v) n l.
Definition called w (r : res (tpoly * ptrk E)) (k n : nat) (l : list (F p)) (d : nat) : Prop :=
  exists w' h, r = Ok (h, ws w') /\ callp w w' /\ hasd w' h l d /\ h = mkTp (k + pt_next (ws w)) n /\ tick k n l w w'.

Lemma corners_nth : forall (d : den (p:=p)) k, k < 2 ^ fst d -> nth k (corners d) F0 = snd d (bpoint (fst d) k).
Proof. intros d k H. unfold corners. apply (nth_map_seq (fun k => snd d (bpoint (fst d) k))). exact H. Qed.

Lemma new_called : forall w op (r : res (tpoly * ptrk E)) k n h s' dn dg l,
  good w -> r = Ok (h, s') -> pstep o (ws w, wh w) op = push (wh w) r ->
  (pstep o (ws w, wh w) op = Ok (s', wh w ++ [h]) -> exists f keep, pushed (ws w) s' (wh w) (wh w ++ [h]) k n f keep) ->
  den_step (denote (wo w)) op = denote (wo w) ++ [dn] -> deg_step (degrees (wo w)) op = degrees (wo w) ++ [dg] -> dg <= D -> n <= K ->
  zero_calls [op] = [] -> sum_calls [op] = [] -> corners dn = l ->
  called w r k n l dg.
Proof.
  intros w op r k n h s' dn dg l G Hr Hs Hp Hd Hg HD Hn Hz Hsc Hl.
  assert (Hst : pstep o (ws w, wh w) op = Ok (s', wh w ++ [h])) by (rewrite Hs, Hr; reflexivity).
  destruct (Hp Hst) as [f [keep Hp']]. destruct (pushed_le w op s' h k n f keep G Hst Hp') as [A B]; try assumption.
  { rewrite Hg. intros d Hin. apply in_app_or in Hin. destruct Hin as [Hin|[<-|[]]]; [apply (g_deg w G d Hin)|exact HD]. }
  set (w' := mkW (wo w ++ [op]) s' (wh w ++ [h]) (wf w)) in *.
  assert (Hpo : corners (poly_at (wo w') (length (wh w))) = l).
  { cbn [w' wo]. unfold poly_at. rewrite denote_snoc, Hd, app_nth2, denote_length, Nat.sub_diag by (rewrite ?denote_length by exact G; try exact G; lia). exact Hl. }
  assert (Hh : hasd w' h l dg).
  { exists (length (wh w)). cbn [w' wo wh]. split; [rewrite nth_error_app2, Nat.sub_diag by lia; reflexivity|]. split; [exact Hpo|].
    rewrite degrees_snoc, Hg, app_nth2, degrees_length, Nat.sub_diag by (rewrite ?degrees_length by exact G; try exact G; lia). cbn [nth]. lia. }
  exists w', h. split; [exact Hr|]. split; [exact A|]. split; [exact Hh|]. split; [exact B|].
  intros cp vk N v v' e L Cv Fi Hv Sm Hvi. assert (X : vext v v').
  { intros i x Hx. rewrite Hvi. apply mput_fresh; [apply (key_free _ _ _ _ _ L); lia|exact Hx]. }
  assert (Y : says cp v' (k + vt_next v) n l).
  { pose proof (hasd_len w' h l dg (proj1 A) Hh) as Hle. rewrite B in Hle. cbn [tp_nv] in Hle. split; [exact Hle|]. split.
    - destruct Cv as [_ [_ [C3 [<- _]]]]. assert (tp_nv h <= N) by (apply C3; cbn [w' wh]; apply in_or_app; right; left; reflexivity). rewrite B in H. exact H.
    - apply Fi; [exact X|]. rewrite Hvi. apply mget_mput_same. }
  split; [|split; [exact X|exact Y]]. destruct Sm as [S1 [S2 [S3 [S4 [S5 S6]]]]].
  assert (Hq : pt_next s' = S (k + pt_next (ws w)) /\ pt_tr s' = pt_tr (ws w) /\ pt_comm s' = pt_comm (ws w) /\ same_claims (ws w) s').
  { destruct Hp' as [_ [P2 [_ [P4 [P5 [P6 _]]]]]]. auto. }
  destruct Hq as [Q1 [Q2 [Q3 [Q4 Q5]]]]. pose proof (k_next _ _ _ _ L) as Kn.
  constructor; cbn [w' ws wo wh]; try (destruct L; congruence).
  - intros id c Hc. apply (k_sums _ _ _ _ L). rewrite <- S4. exact Hc.
  - intros id x Hx. rewrite Hvi, mget_mput in Hx. destruct (Nat.eqb_spec (k + vt_next v) id) as [Hi|Hi]; [lia|]. apply (k_keys _ _ _ _ L) in Hx. lia.
  - intros i h' Hi. destruct (Nat.lt_ge_cases i (length (wh w))) as [Hlt|Hge].
    + rewrite nth_error_app1 in Hi by exact Hlt. rewrite poly_prefix by assumption. eapply says_ext; [exact X|]. apply (k_read _ _ _ _ L). exact Hi.
    + assert (i = length (wh w)) by (assert (i < length (wh w ++ [h])) by (apply nth_error_Some; congruence); rewrite app_length in *; cbn in *; lia). subst i.
      rewrite nth_error_app2, Nat.sub_diag in Hi by lia. inversion Hi; subst h'. change (wo w ++ [op]) with (wo w'). rewrite Hpo, B. cbn [tp_id tp_nv]. rewrite <- Kn. exact Y.
  - intros h' l' Hi. eapply full_ext; [exact X|]. exact (k_full _ _ _ _ L h' l' Hi).
Qed.

Lemma get_some : forall w h i, nth_error (wh w) i = Some h -> rnth (wh w) i = Ok h.
Proof. intros w h i H. unfold rnth. rewrite H. reflexivity. Qed.

Lemma zipw_corners : forall (f : F p -> F p -> F p) (a b : den (p:=p)), fst a = fst b ->
  corners (fst a, fun x => f (snd a x) (snd b x)) = zipw f (corners a) (corners b).
Proof.
  intros f [n a] [m b] H. simpl in H. subst m. unfold corners, zipw. simpl. induction (seq 0 (2 ^ n)); simpl; [reflexivity|]. rewrite IHl. reflexivity.
Qed.
Lemma map_corners : forall (f : F p -> F p) (a : den (p:=p)), corners (fst a, fun x => f (snd a x)) = map f (corners a).
Proof. intros f a. unfold corners. rewrite map_map. reflexivity. Qed.

Ltac arith_call w G a b :=
  let i := fresh "i" in let j := fresh "j" in
  match goal with
  | Ha : hasd w a _ _, Hb : hasd w b _ _, Hn : tp_nv a = tp_nv b |- _ =>
      pose proof (hasd_at _ _ _ _ G Ha) as [_ [_ [Ka [Kn _]]]]; pose proof (hasd_at _ _ _ _ G Hb) as [_ [_ [_ [Kb _]]]];
      pose proof (w_inv _ (prun_inv _ _ _ _ (g_run w G))) as Hi; cbn [fst] in Hi;
      destruct Ha as [i [A1 [A2 A3]]]; destruct Hb as [j [B1 [B2 B3]]];
      pose proof (proj1 (hasd_nv w a i G A1)) as Na; pose proof (proj1 (hasd_nv w b j G B1)) as Nb
  end.

Lemma call_mul : forall w a b la lb da db, good w -> hasd w a la da -> hasd w b lb db -> tp_nv a = tp_nv b -> da + db <= D ->
  called w (tp_mul (ws w) a b) 0 (tp_nv a) (zipw Fmul la lb) (da + db).
Proof.
  intros w a b la lb da db G Ha Hb Hn Hd. arith_call w G a b.
  destruct (tp_mul_spec (ws w) a b Hi Kn Kb Hn) as [h [s' [E1 _]]].
  assert (C : called w (tp_mul (ws w) a b) 0 (tp_nv a) (zipw Fmul la lb) (nth i (degrees (wo w)) 1 + nth j (degrees (wo w)) 1)).
  { eapply new_called with (op := OMul i j); [exact G|exact E1| | |reflexivity|reflexivity|lia|exact Ka|reflexivity|reflexivity|].
    - cbn [pstep]. rewrite (get_some _ _ _ A1), (get_some _ _ _ B1). reflexivity.
    - intros Hst. destruct (pstep_shape _ _ _ _ _ _ (prun_inv _ _ _ _ (g_run w G)) Hst) as [a' [b' [X1 [X2 [X3 X4]]]]].
      cbn beta zeta in X1, X2. rewrite A1 in X1. inversion X1; subst a'. eexists _, _. exact X4.
    - etransitivity; [exact (zipw_corners Fmul (poly_at (wo w) i) (poly_at (wo w) j) ltac:(congruence))|]. rewrite A2, B2. reflexivity. }
  destruct C as [w' [h' [C1 [C2 [C3 C4]]]]]. exists w', h'. split; [exact C1|]. split; [exact C2|]. split; [eapply hasd_weak; [exact C3|lia]|exact C4].
Qed.
Lemma call_add : forall w a b la lb da db, good w -> hasd w a la da -> hasd w b lb db -> tp_nv a = tp_nv b -> Nat.max da db <= D ->
  called w (tp_add (ws w) a b) 0 (tp_nv a) (zipw Fadd la lb) (Nat.max da db).
Proof.
  intros w a b la lb da db G Ha Hb Hn Hd. arith_call w G a b.
  destruct (tp_add_spec (ws w) a b Hi Kn Kb Hn) as [h [s' [E1 _]]].
  assert (C : called w (tp_add (ws w) a b) 0 (tp_nv a) (zipw Fadd la lb) (Nat.max (nth i (degrees (wo w)) 1) (nth j (degrees (wo w)) 1))).
  { eapply new_called with (op := OAdd i j); [exact G|exact E1| | |reflexivity|reflexivity|lia|exact Ka|reflexivity|reflexivity|].
    - cbn [pstep]. rewrite (get_some _ _ _ A1), (get_some _ _ _ B1). reflexivity.
    - intros Hst. destruct (pstep_shape _ _ _ _ _ _ (prun_inv _ _ _ _ (g_run w G)) Hst) as [a' [b' [X1 [X2 [X3 X4]]]]].
      cbn beta zeta in X1, X2. rewrite A1 in X1. inversion X1; subst a'. eexists _, _. exact X4.
    - etransitivity; [exact (zipw_corners Fadd (poly_at (wo w) i) (poly_at (wo w) j) ltac:(congruence))|]. rewrite A2, B2. reflexivity. }
  destruct C as [w' [h' [C1 [C2 [C3 C4]]]]]. exists w', h'. split; [exact C1|]. split; [exact C2|]. split; [eapply hasd_weak; [exact C3|lia]|exact C4].
Qed.
Lemma call_sub : forall w a b la lb da db, good w -> hasd w a la da -> hasd w b lb db -> tp_nv a = tp_nv b -> Nat.max da db <= D ->
  called w (tp_sub (ws w) a b) 0 (tp_nv a) (zipw Fsub la lb) (Nat.max da db).
Proof.
  intros w a b la lb da db G Ha Hb Hn Hd. arith_call w G a b.
  destruct (tp_sub_spec (ws w) a b Hi Kn Kb Hn) as [h [s' [E1 _]]].
  assert (C : called w (tp_sub (ws w) a b) 0 (tp_nv a) (zipw Fsub la lb) (Nat.max (nth i (degrees (wo w)) 1) (nth j (degrees (wo w)) 1))).
  { eapply new_called with (op := OSub i j); [exact G|exact E1| | |reflexivity|reflexivity|lia|exact Ka|reflexivity|reflexivity|].
    - cbn [pstep]. rewrite (get_some _ _ _ A1), (get_some _ _ _ B1). reflexivity.
    - intros Hst. destruct (pstep_shape _ _ _ _ _ _ (prun_inv _ _ _ _ (g_run w G)) Hst) as [a' [b' [X1 [X2 [X3 X4]]]]].
      cbn beta zeta in X1, X2. rewrite A1 in X1. inversion X1; subst a'. eexists _, _. exact X4.
    - etransitivity; [exact (zipw_corners Fsub (poly_at (wo w) i) (poly_at (wo w) j) ltac:(congruence))|]. rewrite A2, B2. reflexivity. }
  destruct C as [w' [h' [C1 [C2 [C3 C4]]]]]. exists w', h'. split; [exact C1|]. split; [exact C2|]. split; [eapply hasd_weak; [exact C3|lia]|exact C4].
Qed.

Ltac one_call w G a :=
  let i := fresh "i" in
  match goal with
  | Ha : hasd w a _ _ |- _ =>
      pose proof (hasd_at _ _ _ _ G Ha) as [_ [_ [Ka [Kn _]]]];
      pose proof (w_inv _ (prun_inv _ _ _ _ (g_run w G))) as Hi; cbn [fst] in Hi;
      destruct Ha as [i [A1 [A2 A3]]];
      pose proof (proj1 (hasd_nv w a i G A1)) as Na
  end.
Lemma call_adds : forall w a c la da, good w -> hasd w a la da -> da <= D ->
  called w (tp_add_scalar (ws w) a c) 1 (tp_nv a) (map (fun x => Fadd x c) la) da.
Proof.
  intros w a c la da G Ha Hd. one_call w G a.
  destruct (tp_add_scalar_spec (ws w) a c Hi Kn) as [h [s' [E1 _]]].
  assert (C : called w (tp_add_scalar (ws w) a c) 1 (tp_nv a) (map (fun x => Fadd x c) la) (nth i (degrees (wo w)) 1)).
  { eapply new_called with (op := OAddS i c); [exact G|exact E1| | |reflexivity|reflexivity|lia|exact Ka|reflexivity|reflexivity|].
    - cbn [pstep]. rewrite (get_some _ _ _ A1). reflexivity.
    - intros Hst. destruct (pstep_shape _ _ _ _ _ _ (prun_inv _ _ _ _ (g_run w G)) Hst) as [a' [X1 X4]].
      rewrite A1 in X1. inversion X1; subst a'. eexists _, _. exact X4.
    - etransitivity; [exact (map_corners (fun x => Fadd x c) (poly_at (wo w) i))|]. rewrite A2. reflexivity. }
  destruct C as [w' [h' [C1 [C2 [C3 C4]]]]]. exists w', h'. split; [exact C1|]. split; [exact C2|]. split; [eapply hasd_weak; [exact C3|lia]|exact C4].
Qed.
Lemma call_muls : forall w a c la da, good w -> hasd w a la da -> da <= D ->
  called w (tp_mul_scalar (ws w) a c) 0 (tp_nv a) (map (fun x => Fmul x c) la) da.
Proof.
  intros w a c la da G Ha Hd. one_call w G a.
  destruct (tp_mul_scalar_spec (ws w) a c Hi Kn) as [h [s' [E1 _]]].
  assert (C : called w (tp_mul_scalar (ws w) a c) 0 (tp_nv a) (map (fun x => Fmul x c) la) (nth i (degrees (wo w)) 1)).
  { eapply new_called with (op := OMulS i c); [exact G|exact E1| | |reflexivity|reflexivity|lia|exact Ka|reflexivity|reflexivity|].
    - cbn [pstep]. rewrite (get_some _ _ _ A1). reflexivity.
    - intros Hst. destruct (pstep_shape _ _ _ _ _ _ (prun_inv _ _ _ _ (g_run w G)) Hst) as [a' [X1 X4]].
      rewrite A1 in X1. inversion X1; subst a'. eexists _, _. exact X4.
    - etransitivity; [exact (map_corners (fun x => Fmul x c) (poly_at (wo w) i))|]. rewrite A2. reflexivity. }
  destruct C as [w' [h' [C1 [C2 [C3 C4]]]]]. exists w', h'. split; [exact C1|]. split; [exact C2|]. split; [eapply hasd_weak; [exact C3|lia]|exact C4].
Qed.
Definition front_table (n k : nat) (l : list (F p)) : list (F p) := map (fun j => nth (j / 2 ^ k) l F0) (seq 0 (2 ^ (n + k))).
Definition back_table (n k : nat) (l : list (F p)) : list (F p) := map (fun j => nth (j mod 2 ^ n) l F0) (seq 0 (2 ^ (n + k))).
Lemma call_front : forall w a k la da, good w -> hasd w a la da -> tp_nv a + k <= K -> 1 <= D ->
  called w (tp_front (ws w) a k) 0 (tp_nv a + k) (front_table (tp_nv a) k la) 1.
Proof.
  intros w a k la da G Ha Hk HD. one_call w G a.
  destruct (tp_inc_spec true (ws w) a k Hi Kn) as [h [s' [E1 _]]].
  eapply new_called with (op := OFront i k); [exact G|exact E1| | |reflexivity|reflexivity|exact HD|exact Hk|reflexivity|reflexivity|].
  - cbn [pstep]. rewrite (get_some _ _ _ A1). reflexivity.
  - intros Hst. destruct (pstep_shape _ _ _ _ _ _ (prun_inv _ _ _ _ (g_run w G)) Hst) as [a' [X1 [X4 _]]].
    rewrite A1 in X1. inversion X1; subst a'. eexists _, _. exact X4.
  - change (corners (fst (poly_at (wo w) i) + k, fun x => snd (poly_at (wo w) i) (skipn k x)) = front_table (tp_nv a) k la). unfold corners, front_table. cbn [fst snd]. rewrite Na. apply map_ext_in. intros j Hj. apply in_seq in Hj.
    rewrite bpoint_skipn, <- A2, corners_nth; [rewrite Na; reflexivity|]. rewrite Na. apply Nat.div_lt_upper_bound; [apply Nat.pow_nonzero; lia|].
    rewrite <- Nat.pow_add_r, Nat.add_comm. lia.
Qed.
Lemma call_back : forall w a k la da, good w -> hasd w a la da -> tp_nv a + k <= K -> 1 <= D ->
  called w (tp_back (ws w) a k) 0 (tp_nv a + k) (back_table (tp_nv a) k la) 1.
Proof.
  intros w a k la da G Ha Hk HD. one_call w G a.
  destruct (tp_inc_spec false (ws w) a k Hi Kn) as [h [s' [E1 _]]].
  eapply new_called with (op := OBack i k); [exact G|exact E1| | |reflexivity|reflexivity|exact HD|exact Hk|reflexivity|reflexivity|].
  - cbn [pstep]. rewrite (get_some _ _ _ A1). reflexivity.
  - intros Hst. destruct (pstep_shape _ _ _ _ _ _ (prun_inv _ _ _ _ (g_run w G)) Hst) as [a' [X1 [X4 _]]].
    rewrite A1 in X1. inversion X1; subst a'. eexists _, _. exact X4.
  - change (corners (fst (poly_at (wo w) i) + k, fun x => snd (poly_at (wo w) i) (firstn (fst (poly_at (wo w) i)) x)) = back_table (tp_nv a) k la). unfold corners, back_table. cbn [fst snd]. rewrite Na. apply map_ext_in. intros j Hj. apply in_seq in Hj.
    rewrite bpoint_firstn, <- A2, corners_nth; [rewrite Na; reflexivity|]. rewrite Na. apply Nat.mod_upper_bound. apply Nat.pow_nonzero. lia.
Qed.

Lemma mle_den_corners : forall n (l : list (F p)), length l = 2 ^ n -> corners (mle_den n l) = l.
Proof.
  intros n l H. apply (nth_ext _ _ F0 F0); [unfold corners; rewrite map_length, seq_length; simpl; congruence|].
  intros k Hk. unfold corners in Hk. rewrite map_length, seq_length in Hk. cbn [mle_den fst] in Hk. rewrite corners_nth by exact Hk.
  cbn [mle_den fst snd]. rewrite mle_ext_bpoint by exact Hk. reflexivity.
Qed.

Lemma call_track : forall w n l, good w -> length l = 2 ^ n -> n <= K -> 1 <= D ->
  called w (Ok (tp_track (ws w) (mkMle n l))) 0 n l 1.
Proof.
  intros w n l G Hl Hn HD. pose proof (w_inv _ (prun_inv _ _ _ _ (g_run w G))) as Hi. cbn [fst] in Hi.
  destruct (tp_track (ws w) (mkMle n l)) as [h s'] eqn:Ht.
  assert (Hf : from_evaluations n l = Ok (mkMle n l)) by (unfold from_evaluations; rewrite Hl, Nat.eqb_refl; reflexivity).
  eapply new_called with (op := OTrack n l); [exact G|reflexivity| | |reflexivity|reflexivity|exact HD|exact Hn|reflexivity|reflexivity|apply mle_den_corners; exact Hl].
  - cbn [pstep]. rewrite Hf. cbn [bind]. rewrite Ht. reflexivity.
  - intros Hst. destruct (pstep_shape _ _ _ _ _ _ (prun_inv _ _ _ _ (g_run w G)) Hst) as [_ X4]. eexists _, _. exact X4.
Qed.

(** Committing. *)
Lemma call_commit_full : forall w n l, good w -> length l = 2 ^ n -> n <= K -> 1 <= D ->
  exists w' h, In (h, l) (wf w') /\ tp_commit (ws w) (mkMle n l) = Ok (h, ws w') /\ callp w w' /\ hasd w' h l 1 /\ h = mkTp (pt_next (ws w)) n /\
    forall cp vk N v debug, lk cp vk w v -> cov cp N w' -> exists v', v_transfer debug v = Ok (tp_id h, v') /\ lk cp vk w' v' /\ vext v v' /\ says cp v' (tp_id h) n l.
Proof.
  intros w n l G Hl Hn HD. pose proof (prun_inv _ _ _ _ (g_run w G)) as Hw. pose proof (w_inv _ Hw) as Hi. cbn [fst] in Hi.
  destruct (Hpp n l Hn Hl) as [c Hc]. pose proof (hist_pp _ _ _ _ _ (g_run w G)) as Hpe.
  destruct (track_commit_spec (ws w) (mkMle n l) c Hi Hl) as [s' [L1 _]]; [rewrite Hpe; exact Hc|].
  assert (Hf : from_evaluations n l = Ok (mkMle n l)) by (unfold from_evaluations; rewrite Hl, Nat.eqb_refl; reflexivity).
  assert (H1 : tp_commit (ws w) (mkMle n l) = Ok (mkTp (pt_next (ws w)) n, s')) by (unfold tp_commit; rewrite L1; reflexivity).
  assert (Hst : pstep o (ws w, wh w) (OCommit n l) = Ok (s', wh w ++ [mkTp (pt_next (ws w)) n])).
  { cbn [pstep]. rewrite Hf. cbn [bind]. rewrite H1. reflexivity. }
  destruct (pstep_shape _ _ _ _ _ _ Hw Hst) as [_ [_ [S2 [S3 [S4 [[c' [S5 [S6 S7]]] [[ad S8] _]]]]]]].
  pose proof (pstep_inv o _ _ _ _ Hw Hst) as [_ [[_ [_ [_ [_ Mx]]]] _]]. cbn [fst] in Mx.
  rewrite Hpe, Hc in S5. inversion S5; subst c'. clear S5.
  exists (mkW (wo w ++ [OCommit n l]) s' (wh w ++ [mkTp (pt_next (ws w)) n]) ((mkTp (pt_next (ws w)) n, l) :: wf w)), (mkTp (pt_next (ws w)) n). cbn [ws].
  split; [left; reflexivity|]. split; [exact H1|]. split; [split; [|split; [|split; [|split]]]|].
  - constructor; cbn [wo ws wh].
    + rewrite (prun_snoc _ _ _ _ (g_run w G)). exact Hst.
    + rewrite degrees_snoc. cbn [deg_step]. intros d Hin. apply in_app_or in Hin. destruct Hin as [Hin|[<-|[]]]; [apply (g_deg w G d Hin)|exact HD].
    + intros h Hin. apply in_app_or in Hin. destruct Hin as [Hin|[<-|[]]]; [apply (g_nv w G h Hin)|exact Hn].
    + rewrite commit_calls_app. pose proof (g_com w G). lia.
  - exists [OCommit n l], [mkTp (pt_next (ws w)) n]. cbn [wo ws wh]. split; [reflexivity|]. split; [reflexivity|]. split.
    + rewrite S6. eexists. reflexivity.
    + split; [|split; [exact Mx|cbn [wf]; apply incl_tl, incl_refl]]. rewrite S7. intros id c0 H0. rewrite mget_mput_other; [exact H0|]. intros He.
      destruct (i_comm _ Hi id c0 H0) as [a Ha]. destruct (fresh_none (ws w) id Hi ltac:(lia)) as [Fn _]. congruence.
  - unfold nozc. cbn [wo]. rewrite zero_calls_snoc. cbn. rewrite app_nil_r. reflexivity.
  - unfold drawnw, drawn. cbn [ws]. rewrite S6. unfold append. cbn [hist]. rewrite skipn_len. reflexivity.
  - cbn [wo]. rewrite sum_calls_app. cbn. rewrite app_nil_r. reflexivity.
  - split; [|split; [reflexivity|]].
    + exists (length (wh w)). cbn [wo wh]. split; [rewrite nth_error_app2, Nat.sub_diag by lia; reflexivity|].
      unfold poly_at. rewrite denote_snoc, degrees_snoc. cbn [den_step deg_step].
      rewrite !app_nth2 by (rewrite ?denote_length, ?degrees_length by exact G; lia).
      rewrite denote_length, degrees_length, Nat.sub_diag by exact G. cbn [nth]. split; [apply mle_den_corners; exact Hl|lia].
    + intros cp vk N v debug L [C1 [_ [C3 [C4 C5]]]]. cbn [ws wh] in C1, C3, C5. cbn [tp_id]. unfold v_transfer, transfer_prover_comm, v_get_next_id. pose proof (k_next _ _ _ _ L) as Kn.
      assert (Hm : mget (cp_comms (vt_proof v)) (vt_next v) = Some c).
      { rewrite (k_proof _ _ _ _ L), Kn. apply C1. rewrite S7. apply mget_mput_same. }
      rewrite Hm. cbn [ounwrap bind track_mat_comm v_gen_id]. cbn -[mput]. rewrite Nat.eqb_refl, orb_true_r. cbn [rassert bind].
      eexists. split; [f_equal; f_equal; exact Kn|]. set (v' := mkVtrk _ _ _ _ _ _ _ _ _).
      assert (X : vext v v') by (intros i x Hx; unfold v'; cbn [vt_virt]; apply mput_fresh; [apply (key_free _ _ _ _ _ L); lia|exact Hx]).
      assert (Y : says cp v' (pt_next (ws w)) n l).
      { assert (Hn' : n <= snd cp) by (rewrite <- C4; apply (C3 (mkTp (pt_next (ws w)) n)); apply in_or_app; right; left; reflexivity).
        split; [exact Hl|]. split; [exact Hn'|]. intros j. destruct (C5 _ _ S8) as [A1 A2]. cbn [snd nv evs] in A1, A2. rewrite <- A2, <- A1. apply me_query; [|rewrite A1; exact Hn'].
        unfold v'. cbn [vt_virt]. rewrite <- Kn. apply mget_mput_same. }
      split; [|split; [exact X|exact Y]]. destruct S4 as [S4 S4']. constructor; cbn [v' ws wo wh vt_next vt_tr vt_mat vt_zc vt_sc vt_proof vt_vk]; try (destruct L; congruence).
      * apply (k_sums _ _ _ _ L).
      * intros id x Hx. change (mget (mput (vt_virt v) (vt_next v) (VQuery (vt_next v))) id = Some x) in Hx. rewrite mget_mput in Hx. destruct (Nat.eqb_spec (vt_next v) id) as [Hi'|Hi']; [lia|]. apply (k_keys _ _ _ _ L) in Hx. lia.
      * intros i h' Hi'. destruct (Nat.lt_ge_cases i (length (wh w))) as [Hlt|Hge].
        -- rewrite nth_error_app1 in Hi' by exact Hlt. rewrite poly_prefix by assumption. eapply says_ext; [exact X|]. apply (k_read _ _ _ _ L). exact Hi'.
        -- assert (i = length (wh w)) by (assert (i < length (wh w ++ [mkTp (pt_next (ws w)) n])) by (apply nth_error_Some; congruence); rewrite app_length in *; cbn in *; lia). subst i.
           rewrite nth_error_app2, Nat.sub_diag in Hi' by lia. inversion Hi'; subst h'. unfold poly_at. rewrite denote_snoc. cbn [den_step]. rewrite app_nth2, denote_length, Nat.sub_diag by (rewrite ?denote_length by exact G; try exact G; lia).
           cbn [nth]. rewrite mle_den_corners by exact Hl. exact Y.
      * intros h' l' Hi'. destruct Hi' as [Hi'|Hi']; [|eapply full_ext; [exact X|]; exact (k_full _ _ _ _ L h' l' Hi')]. injection Hi' as <- <-. split; [exact Hl|]. cbn [tp_nv tp_id]. intros M HM j. destruct (C5 _ _ S8) as [A1 A2]. cbn [snd nv evs] in A1, A2. rewrite <- A2, <- A1.
        apply me_query; [|rewrite A1; exact HM]. unfold v'. cbn [vt_virt]. rewrite <- Kn. apply mget_mput_same.
Qed.

Lemma call_commit : forall w n l, good w -> length l = 2 ^ n -> n <= K -> 1 <= D ->
  exists w' h, tp_commit (ws w) (mkMle n l) = Ok (h, ws w') /\ callp w w' /\ hasd w' h l 1 /\ h = mkTp (pt_next (ws w)) n /\
    forall cp vk N v debug, lk cp vk w v -> cov cp N w' -> exists v', v_transfer debug v = Ok (tp_id h, v') /\ lk cp vk w' v' /\ vext v v' /\ says cp v' (tp_id h) n l.
Proof. intros w n l G Hl Hn HD. destruct (call_commit_full w n l G Hl Hn HD) as [w' [h [_ H]]]. exists w', h. exact H. Qed.

(** Reading evaluations. *)
Lemma call_evals : forall w a la da, good w -> hasd w a la da ->
  exists w', tp_evaluations (ws w) a = Ok (la, ws w') /\ callp w w' /\ (forall cp vk v, lk cp vk w v -> lk cp vk w' v).
Proof.
  intros w a la da G Ha. pose proof (hasd_at _ _ _ _ G Ha) as [_ [_ [_ [_ Kt]]]]. one_call w G a.
  destruct (evaluations_spec (ws w) _ _ Hi Kn) as [s' [L1 [L2 [L3 [L4 [L5 _]]]]]]. rewrite Kt in L1.
  assert (Hst : pstep o (ws w, wh w) (OEvals i) = Ok (s', wh w)).
  { cbn [pstep]. rewrite (get_some _ _ _ A1). cbn [bind]. unfold tp_evaluations. rewrite L1. reflexivity. }
  destruct L4 as [Q1 [Q2 [Q3 [Q4 [Q5 Q6]]]]].
  pose proof (pstep_inv o _ _ _ _ (prun_inv _ _ _ _ (g_run w G)) Hst) as [_ [[_ [_ [_ [_ Mx]]]] _]]. cbn [fst] in Mx.
  exists (mkW (wo w ++ [OEvals i]) s' (wh w) (wf w)). cbn [ws]. split; [exact L1|]. split; [split; [|split; [|split; [|split]]]|].
  - constructor; cbn [wo ws wh].
    + rewrite (prun_snoc _ _ _ _ (g_run w G)). exact Hst.
    + rewrite degrees_snoc. cbn [deg_step]. apply (g_deg w G).
    + apply (g_nv w G).
    + rewrite commit_calls_app. pose proof (g_com w G). lia.
  - exists [OEvals i], []. cbn [wo ws wh]. rewrite app_nil_r. split; [reflexivity|]. split; [reflexivity|].
    split; [exists []; rewrite app_nil_r; congruence|]. split; [intros id c Hc; congruence|]. split; [exact Mx|apply incl_refl].
  - unfold nozc. cbn [wo]. rewrite zero_calls_snoc. cbn. rewrite app_nil_r. reflexivity.
  - unfold drawnw. cbn [ws]. rewrite Q2. apply drawn_same.
  - cbn [wo]. rewrite sum_calls_app. cbn. rewrite app_nil_r. reflexivity.
  - intros cp vk v L. destruct L. constructor; cbn [ws wo wh]; try congruence; try assumption. intros j hj Hj. assert (j < length (wh w)) by (apply nth_error_Some; congruence). rewrite poly_prefix by assumption. exact (k_read0 _ _ Hj).
Qed.

(** Challenges and claims. *)
Lemma call_chal : forall w l, good w ->
  exists w' c, pt_challenge o l (ws w) = Ok (c, ws w') /\ good w' /\ le w w' /\ nozc w w' /\ drawnw w w' = [c] /\ sum_calls (wo w') = sum_calls (wo w) /\
    (forall cp vk v, lk cp vk w v -> exists v', vt_challenge o l v = Ok (c, v') /\ lk cp vk w' v' /\ vext v v').
Proof.
  intros w l G. pose proof (hist_nonempty _ _ _ _ _ (g_run w G) ltac:(pose proof (g_com w G); lia)) as He.
  set (c := o (hist (pt_tr (ws w))) l).
  set (t := append l (PF c) (mkTr (hist (pt_tr (ws w)) ++ [EChal l]) false)).
  assert (Hd : drawT o l (pt_tr (ws w)) = Ok (c, t)) by (unfold drawT, draw; rewrite He; reflexivity).
  assert (Hc : pt_challenge o l (ws w) = Ok (c, set_tr (ws w) t)) by (unfold pt_challenge; rewrite Hd; reflexivity).
  assert (Hst : pstep o (ws w, wh w) (OChal l) = Ok (set_tr (ws w) t, wh w)) by (cbn [pstep]; rewrite Hc; reflexivity).
  assert (Ht : hist t = hist (pt_tr (ws w)) ++ [EChal l; EMsg l (PF c)]) by (unfold t, append; cbn [hist]; rewrite <- app_assoc; reflexivity).
  exists (mkW (wo w ++ [OChal l]) (set_tr (ws w) t) (wh w) (wf w)), c. cbn [ws wo wh]. split; [exact Hc|]. split; [|split; [|split; [|split; [|split]]]].
  - constructor; cbn [wo ws wh].
    + rewrite (prun_snoc _ _ _ _ (g_run w G)). exact Hst.
    + rewrite degrees_snoc. cbn [deg_step]. apply (g_deg w G).
    + apply (g_nv w G).
    + rewrite commit_calls_app. pose proof (g_com w G). lia.
  - exists [OChal l], []. cbn [wo ws wh]. rewrite app_nil_r. split; [reflexivity|]. split; [reflexivity|]. split; [|split; [auto|split; [auto|apply incl_refl]]].
    cbn [set_tr pt_tr]. rewrite Ht. eexists. reflexivity.
  - unfold nozc. cbn [wo]. rewrite zero_calls_snoc. cbn. rewrite app_nil_r. reflexivity.
  - unfold drawnw, drawn. cbn [ws set_tr pt_tr]. rewrite Ht, skipn_len. reflexivity.
  - rewrite sum_calls_app. cbn. rewrite app_nil_r. reflexivity.
  - intros cp vk v L. exists (set_vtr v t). split; [unfold vt_challenge; rewrite (k_tr _ _ _ _ L), Hd; reflexivity|].
    split; [|apply vext_same; reflexivity]. destruct L. constructor; cbn -[poly_at says corners]; try congruence; try assumption. intros j hj Hj. assert (j < length (wh w)) by (apply nth_error_Some; congruence). rewrite poly_prefix by assumption. exact (k_read0 _ _ Hj).
Qed.

Lemma call_zero : forall w h l d, good w -> hasd w h l d ->
  exists w', ws w' = add_zerocheck_claim (ws w) (tp_id h) /\ good w' /\ le w w' /\ drawnw w w' = [] /\ sum_calls (wo w') = sum_calls (wo w) /\
    (zeros w w' <-> Forall (fun y => y = F0) l) /\
    (forall cp vk v, lk cp vk w v -> lk cp vk w' (v_add_zerocheck_claim v (tp_id h))).
Proof.
  intros w h l d G [i [H1 [H2 H3]]].
  assert (Hst : pstep o (ws w, wh w) (OZero i) = Ok (add_zerocheck_claim (ws w) (tp_id h), wh w)) by (cbn [pstep]; rewrite (get_some _ _ _ H1); reflexivity).
  assert (Hi : i < length (wh w)) by (apply nth_error_Some; congruence).
  exists (mkW (wo w ++ [OZero i]) (add_zerocheck_claim (ws w) (tp_id h)) (wh w) (wf w)). cbn [ws wo wh]. split; [reflexivity|]. split; [|split; [|split; [|split; [|split]]]].
  - constructor; cbn [wo ws wh].
    + rewrite (prun_snoc _ _ _ _ (g_run w G)). exact Hst.
    + rewrite degrees_snoc. cbn [deg_step]. apply (g_deg w G).
    + apply (g_nv w G).
    + rewrite commit_calls_app. pose proof (g_com w G). lia.
  - exists [OZero i], []. cbn [wo ws wh]. rewrite app_nil_r. split; [reflexivity|]. split; [reflexivity|]. split; [|split; [auto|split; [auto|apply incl_refl]]].
    exists []. rewrite app_nil_r. reflexivity.
  - unfold drawnw. cbn [ws]. apply drawn_same.
  - rewrite sum_calls_app. cbn. rewrite app_nil_r. reflexivity.
  - unfold zeros. cbn [wo]. rewrite skipn_len. cbn [zero_calls flat_map app]. rewrite <- H2. rewrite <- (poly_prefix w [OZero i] i G Hi). split; [intros Hz; apply Hz; left; reflexivity|]. intros Hz k [<-|[]]. exact Hz.
  - intros cp vk v L. destruct L. constructor; cbn -[poly_at says corners]; try congruence; try assumption. intros j hj Hj. assert (j < length (wh w)) by (apply nth_error_Some; congruence). rewrite poly_prefix by assumption. exact (k_read0 _ _ Hj).
Qed.

Lemma call_sum : forall w h l d c, good w -> hasd w h l d ->
  exists w', ws w' = add_sumcheck_claim (ws w) (tp_id h) c /\ good w' /\ le w w' /\ nozc w w' /\ drawnw w w' = [] /\
    (forall cp vk N v, lk cp vk w v -> cov cp N w' -> let y := (ofN (2 ^ (N - tp_nv h)) * Fsum l)%F in
       get_prover_claimed_sum v (tp_id h) = Ok y /\ lk cp vk w' (v_add_sumcheck_claim v (tp_id h) y)).
Proof.
  intros w h l d c G [i [H1 [H2 H3]]].
  assert (Hst : pstep o (ws w, wh w) (OSum i c) = Ok (add_sumcheck_claim (ws w) (tp_id h) c, wh w)) by (cbn [pstep]; rewrite (get_some _ _ _ H1); reflexivity).
  destruct (hasd_nv w h i G H1) as [Hnv Hi].
  exists (mkW (wo w ++ [OSum i c]) (add_sumcheck_claim (ws w) (tp_id h) c) (wh w) (wf w)). cbn [ws wo wh]. split; [reflexivity|]. split; [|split; [|split; [|split]]].
  - constructor; cbn [wo ws wh].
    + rewrite (prun_snoc _ _ _ _ (g_run w G)). exact Hst.
    + rewrite degrees_snoc. cbn [deg_step]. apply (g_deg w G).
    + apply (g_nv w G).
    + rewrite commit_calls_app. pose proof (g_com w G). lia.
  - exists [OSum i c], []. cbn [wo ws wh]. rewrite app_nil_r. split; [reflexivity|]. split; [reflexivity|]. split; [|split; [auto|split; [auto|apply incl_refl]]].
    exists []. rewrite app_nil_r. reflexivity.
  - unfold nozc. cbn [wo]. rewrite zero_calls_snoc. cbn. rewrite app_nil_r. reflexivity.
  - unfold drawnw. cbn [ws]. apply drawn_same.
  - intros cp vk N v L [C1 [C2 _]]. set (y := (ofN (2 ^ (N - tp_nv h)) * Fsum l)%F).
    assert (Hy : mget (cp_sums (prf cp)) (tp_id h) = Some y).
    { rewrite (C2 i h); cbn [wo wh]; [|rewrite sum_calls_app; apply in_or_app; right; left; reflexivity|exact H1].
      unfold sum_at. rewrite poly_prefix by assumption. rewrite Hnv, H2. reflexivity. }
    split; [unfold get_prover_claimed_sum; rewrite (k_proof _ _ _ _ L), Hy; reflexivity|].
    destruct L. constructor; cbn -[poly_at says corners]; try congruence; try assumption; [| |intros j hj Hj; assert (j < length (wh w)) by (apply nth_error_Some; congruence); rewrite poly_prefix by assumption; exact (k_read0 _ _ Hj)].
    + rewrite !map_app, k_sc0. reflexivity.
    + intros id c' Hin. apply in_app_or in Hin. destruct Hin as [Hin|[Hin|[]]]; [auto|]. inversion Hin; subst. exact Hy.
Qed.

(** The verifier's counterparts of the calls that return a new handle. *)
Lemma tick_virtual : forall cp vk N w w' v e n l, lk cp vk w v -> tick 0 n l w w' -> cov cp N w' -> fit cp v e n l (pt_next (ws w)) ->
  exists v', track_virtual v e = (pt_next (ws w), v') /\ lk cp vk w' v' /\ vext v v' /\ says cp v' (pt_next (ws w)) n l.
Proof.
  intros cp vk N w w' v e n l L T Cv Fi. rewrite <- (k_next _ _ _ _ L) in *. eexists. split; [unfold track_virtual, v_gen_id; reflexivity|].
  apply (T cp vk N v _ e); [exact L|exact Cv|exact Fi|reflexivity|repeat split|reflexivity].
Qed.
Lemma tick_adds : forall cp vk N w w' v a c n l, lk cp vk w v -> tick 1 n l w w' -> cov cp N w' -> fit cp v (VAddS a c) n l (S (pt_next (ws w))) ->
  exists v', v_add_scalar v a c = (S (pt_next (ws w)), v') /\ lk cp vk w' v' /\ vext v v' /\ says cp v' (S (pt_next (ws w))) n l.
Proof.
  intros cp vk N w w' v a c n l L T Cv Fi. rewrite <- (k_next _ _ _ _ L) in *. eexists. split; [unfold v_add_scalar, track_virtual, v_gen_id; cbn [vt_next]; reflexivity|].
  apply (T cp vk N v _ (VAddS a c)); [exact L|exact Cv|exact Fi|reflexivity|repeat split|reflexivity].
Qed.
(** Which expressions fit. *)
Lemma says_means : forall c v id n l m, says c v id n l -> (forall i x, mget (vt_virt v) i = Some x -> mget m i = Some x) -> forall j, means (tbl c) m id (snd c) j (nth (j mod 2 ^ n) l F0).
Proof. intros c v id n l m [_ [_ H]] X j. eapply means_ext; [exact X|apply H]. Qed.
Lemma says_lt : forall c v id n l j, says c v id n l -> j mod 2 ^ n < length l.
Proof. intros c v id n l j [-> _]. apply Nat.mod_upper_bound. apply Nat.pow_nonzero. lia. Qed.
Lemma zipw_nth_lt : forall (f : F p -> F p -> F p) l l' k, k < length l -> k < length l' -> nth k (zipw f l l') F0 = f (nth k l F0) (nth k l' F0).
Proof.
  intros f l. unfold zipw. induction l as [|a l IH]; intros [|b l'] [|k] H H'; cbn in *; try lia; [reflexivity|]. apply IH; lia.
Qed.
Lemma fit_mul : forall c v a b n na nb la lb id, says c v a na la -> says c v b nb lb -> na = n -> nb = n -> fit c v (VMul a b) n (zipw Fmul la lb) id.
Proof. intros c v a b n na nb la lb id A B -> -> m X G j. rewrite zipw_nth_lt by (eapply says_lt; eassumption). eapply me_mul; [exact G|eapply says_means; eassumption|eapply says_means; eassumption]. Qed.
Lemma fit_add : forall c v a b n na nb la lb id, says c v a na la -> says c v b nb lb -> na = n -> nb = n -> fit c v (VAdd a b) n (zipw Fadd la lb) id.
Proof. intros c v a b n na nb la lb id A B -> -> m X G j. rewrite zipw_nth_lt by (eapply says_lt; eassumption). eapply me_add; [exact G|eapply says_means; eassumption|eapply says_means; eassumption]. Qed.
Lemma fit_sub : forall c v a b n na nb la lb id, says c v a na la -> says c v b nb lb -> na = n -> nb = n -> fit c v (VSub a b) n (zipw Fsub la lb) id.
Proof. intros c v a b n na nb la lb id A B -> -> m X G j. rewrite zipw_nth_lt by (eapply says_lt; eassumption). eapply me_sub; [exact G|eapply says_means; eassumption|eapply says_means; eassumption]. Qed.
Lemma map_nth_lt : forall (f : F p -> F p) l k, k < length l -> nth k (map f l) F0 = f (nth k l F0).
Proof. intros f l k H. rewrite (nth_indep _ F0 (f F0)) by (rewrite map_length; exact H). apply map_nth. Qed.
Lemma fit_adds : forall c v a x n na la id, says c v a na la -> na = n -> fit c v (VAddS a x) n (map (fun y => Fadd y x) la) id.
Proof. intros c v a x n na la id A -> m X G j. rewrite map_nth_lt by (eapply says_lt; eassumption). eapply me_adds; [exact G|eapply says_means; eassumption]. Qed.
Lemma fit_muls : forall c v a x n na la id, says c v a na la -> na = n -> fit c v (VMulS a x) n (map (fun y => Fmul y x) la) id.
Proof.
  intros c v a x n na la id A -> m X G j. rewrite map_nth_lt by (eapply says_lt; eassumption). replace (nth (j mod 2 ^ n) la F0 * x)%F with (x * nth (j mod 2 ^ n) la F0)%F by ring.
  eapply me_muls; [exact G|eapply says_means; eassumption].
Qed.
(** A closure that computes the table. *)
Lemma fit_fun : forall c v f n l id N w' a, cov c N w' -> mget (pt_mat (ws w')) id = Some (a, mkMle n l) -> n <= N ->
  (forall k, k < 2 ^ n -> f (bpoint n k) = Ok (nth k l F0)) -> fit c v (VFun f) n l id.
Proof.
  intros c v f n l id N w' a [_ [_ [_ [-> C5]]]] Hm Hn Hf m X G j. destruct (C5 _ _ Hm) as [A1 A2]. cbn [snd nv evs] in A1, A2. rewrite <- A2, <- A1. apply (me_fun _ _ id f); [exact G|rewrite A1; exact Hn|].
  rewrite A1, A2. apply Hf. apply Nat.mod_upper_bound. apply Nat.pow_nonzero. lia.
Qed.

Lemma cov_nv' : forall cp N w h, cov cp N w -> In h (wh w) -> tp_nv h <= N.
Proof. intros cp N w h [_ [_ [C _]]] Hi. apply C. exact Hi. Qed.
(** Tracking a table: the verifier's closure must compute it. *)
Definition vtick (n : nat) (l : list (F p)) w w' : Prop := forall cp vk N v f, lk cp vk w v -> cov cp N w' ->
  (forall k, k < 2 ^ n -> f (bpoint n k) = Ok (nth k l F0)) ->
  exists v', track_virtual v (VFun f) = (pt_next (ws w), v') /\ lk cp vk w' v' /\ vext v v' /\ says cp v' (pt_next (ws w)) n l.
Lemma call_tab : forall w n l, good w -> length l = 2 ^ n -> n <= K -> 1 <= D ->
  exists w' h, Ok (tp_track (ws w) (mkMle n l)) = Ok (h, ws w') /\ callp w w' /\ hasd w' h l 1 /\ h = mkTp (pt_next (ws w)) n /\ vtick n l w w'.
Proof.
  intros w n l G Hl Hn HD. destruct (call_track w n l G Hl Hn HD) as [w' [h [E1 [C1 [H1 [N1 T1]]]]]]. exists w', h. split; [exact E1|]. split; [exact C1|]. split; [exact H1|]. split; [exact N1|].
  intros cp vk N v f L Cv Hf. assert (exists a, mget (pt_mat (ws w')) (pt_next (ws w)) = Some (a, mkMle n l)) as [a Ha].
  { eexists. inversion E1 as [[Q1 Q2]]. apply mget_mput_same. }
  apply (tick_virtual cp vk N w w' v (VFun f) n l L T1 Cv). apply (fit_fun cp v f n l _ N w' a Cv Ha); [|exact Hf].
  pose proof (cov_nv' cp N w' h Cv) as X. rewrite N1 in X. apply X. destruct H1 as [i [Hi _]]. eapply nth_error_In. rewrite <- N1. exact Hi.
Qed.

(** Several calls in a row: the challenges drawn, and the condition under which all new zero claims are true. *)
Definition step w w' (ds : list (F p)) (P : Prop) : Prop := good w' /\ le w w' /\ drawnw w w' = ds /\ (zeros w w' <-> P).
Lemma step_refl : forall w, good w -> step w w [] True.
Proof. intros w G. split; [exact G|]. split; [apply le_refl|]. split; [apply drawn_same|]. split; [auto|]. intros _. apply zeros_refl. Qed.
Lemma step_trans : forall a b c ds ds' P Q, step a b ds P -> step b c ds' Q -> step a c (ds ++ ds') (P /\ Q).
Proof.
  intros a b c ds ds' P Q [A1 [A2 [A3 A4]]] [B1 [B2 [B3 B4]]]. split; [exact B1|]. split; [eapply le_trans; eassumption|].
  split; [rewrite (drawnw_trans a b c A2 B2); congruence|]. rewrite (zeros_trans a b c A1 A2 B2), A4, B4. reflexivity.
Qed.
Lemma step_imp : forall a b ds (P Q : Prop), step a b ds P -> (P <-> Q) -> step a b ds Q.
Proof. intros a b ds P Q [A1 [A2 [A3 A4]]] H. split; [exact A1|]. split; [exact A2|]. split; [exact A3|]. rewrite A4. exact H. Qed.
Lemma step_good : forall a b ds P, step a b ds P -> good b. Proof. intros a b ds P H. apply H. Qed.
Lemma step_le : forall a b ds P, step a b ds P -> le a b. Proof. intros a b ds P H. apply H. Qed.
Lemma callp_step : forall w w', callp w w' -> step w w' [] True.
Proof. intros w w' [A [B [C [D' _]]]]. split; [exact A|]. split; [exact B|]. split; [exact D'|]. split; [auto|]. intros _. apply nozc_zeros; assumption. Qed.
Lemma cov_nv : forall cp N w h l d, cov cp N w -> hasd w h l d -> tp_nv h <= N.
Proof. intros cp N w h l d [_ [_ [C _]]] [i [Hi _]]. apply C. eapply nth_error_In. exact Hi. Qed.
(** A bag: a column and a selector of one shape. *)
Definition hasb w (b : bag) l sl d : Prop := hasd w (b_poly b) l d /\ hasd w (b_sel b) sl d /\ tp_nv (b_poly b) = tp_nv (b_sel b).
Lemma hasb_le : forall w w' b l sl d, good w -> le w w' -> hasb w b l sl d -> hasb w' b l sl d.
Proof. intros w w' b l sl d G L [A1 [A2 A3]]. split; [eapply hasd_le; eassumption|]. split; [eapply hasd_le; eassumption|exact A3]. Qed.
Lemma hasb_weak : forall w b l sl d d', hasb w b l sl d -> d <= d' -> hasb w b l sl d'.
Proof. intros w b l sl d d' [A1 [A2 A3]] H. split; [eapply hasd_weak; eassumption|]. split; [eapply hasd_weak; eassumption|exact A3]. Qed.
Lemma hasb_len : forall w b l sl d, good w -> hasb w b l sl d -> length l = 2 ^ b_nv b /\ length sl = 2 ^ b_nv b /\ b_nv b <= K.
Proof.
  intros w b l sl d G [A1 [A2 A3]]. split; [exact (hasd_len _ _ _ _ G A1)|]. split; [|destruct (hasd_at _ _ _ _ G A1) as [_ [_ [X _]]]; exact X].
  unfold b_nv. rewrite A3. exact (hasd_len _ _ _ _ G A2).
Qed.

(** What a verifier's bag stands for. *)
Definition bsays (c : rdg) v (b : bagc) l sl : Prop := says c v (bc_poly b) (bc_nv b) l /\ says c v (bc_sel b) (bc_nv b) sl.
Lemma hasb_says : forall w b l sl d, hasb w b l sl d -> forall cp vk v, lk cp vk w v -> bsays cp v (comm_of b) l sl.
Proof.
  intros w b l sl d [A1 [A2 A3]] cp vk v L. split; cbn [comm_of bc_poly bc_sel bc_nv]; [exact (lk_says _ _ _ _ _ _ _ L A1)|]. unfold b_nv. rewrite A3. exact (lk_says _ _ _ _ _ _ _ L A2).
Qed.
Lemma bsays_ext : forall c v v' b l sl, vext v v' -> bsays c v b l sl -> bsays c v' b l sl.
Proof. intros c v v' b l sl X [A B]. split; eapply says_ext; eassumption. Qed.
Lemma says_ones : forall c v id n m, says c v id n (repeat F1 (2 ^ n)) -> m <= snd c -> says c v id m (repeat F1 (2 ^ m)).
Proof.
  intros c v id n m [_ [_ H]] Hm. split; [apply repeat_length|]. split; [exact Hm|]. intros j. specialize (H j).
  assert (P : forall k, nth (j mod 2 ^ k) (repeat (@F1 p) (2 ^ k)) F0 = F1) by (intros k; rewrite (nth_indep _ F0 F1) by (rewrite repeat_length; apply Nat.mod_upper_bound; apply Nat.pow_nonzero; lia); apply nth_repeat).
  rewrite P in *. exact H.
Qed.
Lemma says_sums : forall c v v' id n l, vt_virt v' = vt_virt v -> says c v id n l -> says c v' id n l.
Proof. intros c v v' id n l H S. eapply says_ext; [apply vext_same; exact H|exact S]. Qed.
End W.
Arguments mkW {p E} _ _ _ _.

(** [S : step w wi ds P] is the path so far and [C] the next call; facts about handles are carried along. *)
Ltac carry G L := repeat match goal with H : hasd ?a ?h ?l ?d |- _ => match type of G with good _ _ _ _ a => apply (hasd_le _ _ _ _ _ _ _ _ _ G L) in H end end;
  repeat match goal with H : hasb ?a ?b ?l ?sl ?d |- _ => match type of G with good _ _ _ _ a => apply (hasb_le _ _ _ _ _ _ _ _ _ _ G L) in H end end.
Ltac join S S1 := let X := fresh in pose proof (step_trans _ _ _ _ _ _ _ _ _ _ _ S S1) as X; clear S; rename X into S; cbn [app] in S.
Ltac pass S S1 := let G := fresh "Gd" in let L := fresh "Le" in
  pose proof (step_good _ _ _ _ _ _ _ _ S) as G; pose proof (step_le _ _ _ _ _ _ _ _ S1) as L; carry G L; join S S1.
(** What a later proof covers, an earlier world needs no more of. *)
Ltac cvr := match goal with
  | Cv : cov _ _ ?w |- cov _ _ ?w => exact Cv
  | G : good _ _ _ _ ?w, L : le ?w ?w1 |- cov _ _ ?w => refine (cov_le _ _ _ _ _ _ _ _ G L _); cvr
  end.
Ltac gd S := exact (step_good _ _ _ _ _ _ _ _ S).
(** Take the next call: new world, handle, equation, table, shape and the verifier's part. *)
Tactic Notation "take" hyp(S) constr(C) "as" ident(w1) ident(h1) ident(E1) ident(H1) ident(N1) ident(T1) :=
  let P := fresh in let X := fresh in
  destruct C as [w1 [h1 [E1 [P [H1 [N1 T1]]]]]]; [..|pose proof (callp_step _ _ _ _ _ _ P) as X; pass S X; clear P X].
Tactic Notation "peek" hyp(S) constr(C) "as" ident(w1) ident(E1) ident(T1) :=
  let P := fresh in let X := fresh in
  destruct C as [w1 [E1 [P T1]]]; pose proof (callp_step _ _ _ _ _ _ P) as X; pass S X; clear P X.

(** The verifier's side: carry what ids stand for along a call. *)
Ltac onward X := repeat match goal with
  | H : says ?c ?v ?id ?n ?l |- _ => match type of X with vext v _ => apply (says_ext _ _ _ _ _ _ X) in H end
  | H : bsays ?c ?v ?b ?l ?sl |- _ => match type of X with vext v _ => apply (bsays_ext _ _ _ _ _ _ X) in H end end.
Ltac vjoin V X := let Y := fresh in pose proof (vext_trans _ _ _ V X) as Y; clear V; rename Y into V.
Ltac vmove V X := onward X; vjoin V X; clear X.
Ltac sh := cbn [tp_nv tp_id comm_of bc_nv bc_poly bc_sel b_poly b_sel fst snd] in *; unfold b_nv in *; cbn [b_poly b_sel] in *; solve [reflexivity | congruence | lia].
Ltac fits := first [eapply fit_mul; [eassumption|eassumption|sh|sh] | eapply fit_add; [eassumption|eassumption|sh|sh] | eapply fit_sub; [eassumption|eassumption|sh|sh] | eapply fit_adds; [eassumption|sh] | eapply fit_muls; [eassumption|sh]].
(** [V : vext v0 v] is the path so far, [L] the lockstep at [v], [T] the call. *)
Tactic Notation "vtake" hyp(V) hyp(L) hyp(T) "as" ident(v') ident(L') ident(Y) :=
  let X := fresh in
  match goal with
  | |- context [track_virtual ?v ?e] => destruct (tick_virtual _ _ _ _ _ v e _ _ L T ltac:(cvr) ltac:(fits)) as [v' [-> [L' [X Y]]]]
  | |- context [v_add_scalar ?v ?a ?c] => destruct (tick_adds _ _ _ _ _ v a c _ _ L T ltac:(cvr) ltac:(fits)) as [v' [-> [L' [X Y]]]]
  end; vmove V X.
