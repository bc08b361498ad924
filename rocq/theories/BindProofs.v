(** Proofs about what the transcript fixes (C63). *)
From Coq Require Import String List Arith Lia Bool ZArith Znumtheory Sorting.Sorted.
Import ListNotations.
From Verif Require Import Res ResLemmas Fp FSum SpecMle SpecPoly SpecSumcheck SpecTracker SpecIop ModelMle ModelTranscript ModelSumcheck SumcheckHist Pairing ModelKzg ModelBatch
  ModelProver ModelVerifier VerifierHist CheckHist SessHist BindHist IopVer ZerocheckProofs CompileProofs ZerocheckProofs SessProofs CheckProofs.
Local Open Scope string_scope.
Local Open Scope list_scope.
Local Open Scope nat_scope.

Section P.
Context {p : positive} {E : pairing p}.
Add Ring Fq : (@F_ring p).
Notation comm := (gcar (PG1 E)).
Implicit Types (v w : vtrk E).

(** ** Commitments *)
Lemma session_bound : prime (Zpos p) -> 2 < fsize p -> forall (o : oracle p comm) v, in_session o v -> comms_bound v.
Proof.
  intros Hp H2 o v [vk [cp H]]. destruct (vcalls_go o Hp H2 _ _ H) as [ds G]; [intros i _; reflexivity|]. apply (y_bound _ _ _ G).
  exists []. cbn. split; [constructor|]. split; [constructor|]. split; [constructor|]. intros id c Hc. discriminate Hc.
Qed.

(** ** Sums *)
Definition sets v l : vtrk E := mkVtrk (vt_vk v) (vt_tr v) (vt_next v) (vt_mat v) (vt_virt v) (vt_query v) l (vt_zc v) (vt_proof v).
Lemma chal_sets : forall (o : oracle p comm) s v c v', vt_challenge o s v = Ok (c, v') -> grows (vt_tr v) (vt_tr v') [c] /\ vt_sc v' = vt_sc v /\ forall l, vt_challenge o s (sets v l) = Ok (c, sets v' l).
Proof.
  intros o s v c v' H. unfold vt_challenge in H |- *. unfold drawT, draw in H |- *. cbn [sets vt_tr]. destruct (is_empty (vt_tr v)); cbn in H; [discriminate|]. injection H as H1 H2. subst v' c.
  split; [|split; [reflexivity|reflexivity]]. cbn. exact (grows_draw s _ (vt_tr v)).
Qed.
Lemma virt_sets : forall v e id v', track_virtual v e = (id, v') -> vt_tr v' = vt_tr v /\ vt_sc v' = vt_sc v /\ forall l, track_virtual (sets v l) e = (id, sets v' l).
Proof. intros v e id v' H. unfold track_virtual, v_gen_id, put_virt in H. injection H as H1 H2. subst. split; [reflexivity|]. split; [reflexivity|]. intros l. reflexivity. Qed.
Lemma unwrap_ok : forall A (x : res A) y, unwrap x = Ok y -> x = Ok y. Proof. intros A [a|e|] y H; cbn in H; try discriminate. exact H. Qed.

Lemma zloop_sets : forall (o : oracle p comm) ids v agg agg' v', foldM (fun (acc : nat * vtrk E) (cl : nat) =>
        ' (c, v') <- unwrap (vt_challenge o "zerocheck challenge" (snd acc)) ;;
        let '(id, v'') := v_mul_scalar v' cl c in
        Ok (add_comms v'' (fst acc) id)) (agg, v) ids = Ok (agg', v') ->
  (exists zs, length zs = length ids /\ grows (vt_tr v) (vt_tr v') zs) /\ vt_sc v' = vt_sc v /\
  forall l, foldM (fun (acc : nat * vtrk E) (cl : nat) =>
        ' (c, v') <- unwrap (vt_challenge o "zerocheck challenge" (snd acc)) ;;
        let '(id, v'') := v_mul_scalar v' cl c in
        Ok (add_comms v'' (fst acc) id)) (agg, sets v l) ids = Ok (agg', sets v' l).
Proof.
  intros o ids. induction ids as [|i ids IH]; intros v agg agg' v' H.
  - cbn in H. injection H as H1 H2. subst. split; [exists []; split; [reflexivity|apply grows_refl]|]. split; reflexivity.
  - cbn [foldM] in H |- *. cbn [snd fst] in H |- *. destruct (unwrap (vt_challenge o "zerocheck challenge" v)) as [[c v1]| |] eqn:C; cbn [bind] in H; try discriminate. apply unwrap_ok in C.
    destruct (chal_sets _ _ _ _ _ C) as [C1 [C2 C3]]. unfold v_mul_scalar, add_comms in H |- *.
    destruct (track_virtual v1 (VMulS i c)) as [i2 v2] eqn:T2. destruct (virt_sets _ _ _ _ T2) as [A1 [A2 A3]]. cbn [bind] in H.
    destruct (track_virtual v2 (VAdd agg i2)) as [i3 v3] eqn:T3. destruct (virt_sets _ _ _ _ T3) as [B1 [B2 B3]].
    destruct (IH _ _ _ _ H) as [[zs [I1 I2]] [I3 I4]]. rewrite B1, A1 in I2. split; [exists (c :: zs); split; [cbn; lia|exact (grows_trans _ _ _ _ _ C1 I2)]|]. split; [congruence|].
    intros l. rewrite C3. cbn [unwrap bind]. rewrite A3. cbn [bind]. rewrite B3. apply I4.
Qed.
Lemma convert_sets : forall (o : oracle p comm) n v v', v_convert_zerocheck_claims o n v = Ok v' ->
  exists id zs, vt_sc v' = vt_sc v ++ [(id, F0)] /\ length zs = length (vt_zc v) + n /\ grows (vt_tr v) (vt_tr v') zs /\
    forall l, v_convert_zerocheck_claims o n (sets v l) = Ok (sets v' (l ++ [(id, F0)])).
Proof.
  intros o n v v' H. unfold v_convert_zerocheck_claims, track_virtual_comm in H |- *.
  destruct (track_virtual v (VFun (fun _ => Ok F0))) as [i0 v0] eqn:T0. destruct (virt_sets _ _ _ _ T0) as [A1 [A2 A3]]. assert (Z0 : vt_zc v0 = vt_zc v) by (unfold track_virtual, v_gen_id, put_virt in T0; injection T0 as _ T0; subst v0; reflexivity).
  match type of H with bind ?X _ = _ => destruct X as [[agg v1]| |] eqn:L; cbn [bind] in H; try discriminate end.
  destruct (zloop_sets _ _ _ _ _ _ L) as [[zs [L1 L2]] [L3 L4]].
  destruct (unwrap (draw_vecT o "0check r" n (vt_tr v1))) as [[r t]| |] eqn:D; cbn [bind] in H; try discriminate. apply unwrap_ok in D.
  destruct (track_virtual (set_vtr v1 t) (VFun (fun pt => eq_eval pt r))) as [i3 v3] eqn:T3. destruct (virt_sets _ _ _ _ T3) as [B1 [B2 B3]]. unfold mul_comms in H |- *.
  destruct (track_virtual v3 (VMul agg i3)) as [i4 v4] eqn:T4. destruct (virt_sets _ _ _ _ T4) as [C1 [C2 C3]]. injection H as H. subst v'.
  assert (Hd : length r = n /\ grows (vt_tr v1) t r).
  { destruct (is_empty (vt_tr v1)) eqn:He.
    - unfold draw_vecT, draw_vec in D. rewrite He in D. discriminate D.
    - rewrite draw_vecT_ok in D by exact He. injection D as D. pose proof (run_draws_length o "0check r" n (vt_tr v1)) as X. pose proof (grows_draws o "0check r" n (vt_tr v1)) as Y. rewrite D in X, Y. split; [exact X|exact Y]. }
  destruct Hd as [D1 D2]. exists i4, (zs ++ r). unfold v_add_sumcheck_claim. cbn [vt_sc vt_tr]. split; [rewrite C2, B2; cbn [set_vtr vt_sc]; rewrite L3, A2; reflexivity|].
  split; [rewrite app_length; congruence|]. split; [rewrite C1, B1; cbn [set_vtr vt_tr]; rewrite A1 in L2; exact (grows_trans _ _ _ _ _ L2 D2)|].
  intros l. rewrite A3. cbn [sets vt_zc]. rewrite L4. cbn [bind sets vt_tr]. rewrite D. cbn [unwrap bind]. specialize (B3 l). specialize (C3 l).
  change (set_vtr (sets v1 l) t) with (sets (set_vtr v1 t) l). rewrite B3, C3. reflexivity.
Qed.
Lemma sloop_sets : forall (o : oracle p comm) cls v agg sum agg' sum' v',
  foldM (fun (acc : nat * F p * vtrk E) (cl : nat * F p) =>
        let '(agg, sum, v) := acc in
        ' (c, v') <- unwrap (vt_challenge o "sumcheck challenge" v) ;;
        let '(id, v'') := v_mul_scalar v' (fst cl) c in
        let '(agg', v3') := add_comms v'' agg id in
        Ok (agg', (sum + snd cl * c)%F, v3')) (agg, sum, v) cls = Ok (agg', sum', v') ->
  exists cs, length cs = length cls /\ grows (vt_tr v) (vt_tr v') cs /\ sum' = (sum + weighted cs (map snd cls))%F /\ vt_sc v' = vt_sc v /\
  forall l s0 cls', map fst cls' = map fst cls -> foldM (fun (acc : nat * F p * vtrk E) (cl : nat * F p) =>
        let '(agg, sum, v) := acc in
        ' (c, v') <- unwrap (vt_challenge o "sumcheck challenge" v) ;;
        let '(id, v'') := v_mul_scalar v' (fst cl) c in
        let '(agg', v3') := add_comms v'' agg id in
        Ok (agg', (sum + snd cl * c)%F, v3')) (agg, s0, sets v l) cls' = Ok (agg', (s0 + weighted cs (map snd cls'))%F, sets v' l).
Proof.
  intros o cls. induction cls as [|cl cls IH]; intros v agg sum agg' sum' v' H.
  - cbn in H. injection H as H1 H2 H3. subst. exists []. split; [reflexivity|]. split; [apply grows_refl|]. unfold weighted. cbn [combine map]. rewrite Fsum_nil. split; [ring|]. split; [reflexivity|].
    intros l s0 cls' Hc. destruct cls'; [|discriminate Hc]. cbn [foldM]. do 3 f_equal. ring.
  - cbn [foldM] in H. destruct (unwrap (vt_challenge o "sumcheck challenge" v)) as [[c v1]| |] eqn:C; cbn [bind] in H; try discriminate. apply unwrap_ok in C.
    destruct (chal_sets _ _ _ _ _ C) as [C1 [C2 C3]]. unfold v_mul_scalar at 1, add_comms at 1 in H.
    destruct (track_virtual v1 (VMulS (fst cl) c)) as [i2 v2] eqn:T2. destruct (virt_sets _ _ _ _ T2) as [A1 [A2 A3]]. cbn [bind] in H.
    destruct (track_virtual v2 (VAdd agg i2)) as [i3 v3] eqn:T3. destruct (virt_sets _ _ _ _ T3) as [B1 [B2 B3]]. cbn [bind] in H.
    destruct (IH _ _ _ _ _ _ H) as [cs [I1 [I2 [I3 [I4 I5]]]]]. rewrite B1, A1 in I2. exists (c :: cs). split; [cbn; lia|]. split; [exact (grows_trans _ _ _ _ _ C1 I2)|].
    split; [cbn [map]; rewrite weighted_cons, I3; ring|]. split; [congruence|].
    intros l s0 cls' Hc. destruct cls' as [|cl' cls']; [discriminate Hc|]. injection Hc as Hc1 Hc2. cbn [foldM]. rewrite C3. cbn [unwrap bind]. rewrite Hc1. unfold v_mul_scalar at 1, add_comms at 1. rewrite A3. cbn [bind]. rewrite B3. cbn [bind].
    rewrite (I5 l _ cls' Hc2). cbn [map]. rewrite weighted_cons. do 3 f_equal. ring.
Qed.
Lemma aggregate_sets : forall (o : oracle p comm) v agg sum v', v_aggregate_sumcheck_claims o v = Ok (agg, sum, v') ->
  exists cs, length cs = length (vt_sc v) /\ grows (vt_tr v) (vt_tr v') cs /\ sum = weighted cs (map snd (vt_sc v)) /\ vt_sc v' = vt_sc v /\
    forall l, map fst l = map fst (vt_sc v) -> v_aggregate_sumcheck_claims o (sets v l) = Ok (agg, weighted cs (map snd l), sets v' l).
Proof.
  intros o v agg sum v' H. unfold v_aggregate_sumcheck_claims, track_virtual_comm in H |- *.
  destruct (track_virtual v (VFun (fun _ => Ok F0))) as [i0 v0] eqn:T0. destruct (virt_sets _ _ _ _ T0) as [A1 [A2 A3]].
  destruct (sloop_sets _ _ _ _ _ _ _ _ H) as [cs [B1 [B2 [B3 [B4 B5]]]]]. rewrite A1 in B2. rewrite A2 in B1, B3, B4. exists cs. split; [exact B1|]. split; [exact B2|]. split; [rewrite B3; ring|]. split; [exact B4|].
  intros l Hl. rewrite A3. cbn [sets vt_sc]. specialize (B5 l F0 l). rewrite A2 in B5. rewrite B5 by exact Hl. do 3 f_equal. ring.
Qed.
Lemma weighted_snoc0 : forall cs (c : F p) l, length cs = length l -> weighted (cs ++ [c]) (l ++ [F0]) = weighted cs l.
Proof.
  intros cs. induction cs as [|a cs IH]; intros c l H; destruct l as [|b l]; try discriminate H; cbn [app].
  - unfold weighted. cbn [combine map]. rewrite Fsum_cons, !Fsum_nil. cbn [fst snd]. ring.
  - rewrite !weighted_cons, IH by (injection H as H; exact H). reflexivity.
Qed.
Lemma claiming_sets : forall v sums, claiming v sums = sets v (combine (map fst (vt_sc v)) sums). Proof. reflexivity. Qed.

(** Both verifiers see the sums only through their combination with the challenges. *)
Lemma claims_sets : forall (o : oracle p comm) v v', verify_claims o v = Ok v' ->
  exists a cs b, drawn (vt_tr v) (vt_tr v') = a ++ cs ++ b /\ length a = length (vt_zc v) + cp_nv (vt_proof v) /\ length cs = length (vt_sc v) /\
    forall sums, length sums = length (vt_sc v) -> weighted cs sums = weighted cs (map snd (vt_sc v)) ->
      (exists v'', verify_claims o (claiming v sums) = Ok v'' /\ vt_tr v'' = vt_tr v') /\ last_check o (claiming v sums) = last_check o v.
Proof.
  intros o v v' H. unfold verify_claims in H. unfold verify_claims, last_check. cbn zeta in H |- *.
  destruct (v_convert_zerocheck_claims o (cp_nv (vt_proof v)) v) as [v1| |] eqn:C; cbn [bind] in H; try discriminate. destruct (convert_sets _ _ _ _ C) as [id [zs [C1 [C2 [C3 C4]]]]].
  destruct (v_aggregate_sumcheck_claims o v1) as [[[agg sum] v2]| |] eqn:A; cbn [bind] in H; try discriminate. destruct (aggregate_sets _ _ _ _ _ A) as [cs [A1 [A2 [A3 [A4 A5]]]]].
  destruct (sc_verify o sum (cp_sc (vt_proof v)) (cp_deg (vt_proof v)) (cp_nv (vt_proof v)) (vt_tr v2)) as [[sub t]| |] eqn:S; cbn [map_err bind] in H; try discriminate.
  destruct (mapM _ _) as [comms| |] eqn:M; cbn [bind] in H; try discriminate. destruct (rnth (cp_pcs (vt_proof v)) 0) as [bp| |] eqn:B; cbn [bind] in H; try discriminate.
  destruct (batch_verify _ _ _ _ _ _) as [[bb t']| |] eqn:V; cbn [bind] in H; try discriminate. injection H as H. subst v'.
  rewrite C1, app_length in A1. cbn [length] in A1.
  assert (Hcs : exists cs0 c, cs = cs0 ++ [c] /\ length cs0 = length (vt_sc v)).
  { destruct (exists_last (l:=cs)) as [cs0 [c Hc]]; [intros Hc; rewrite Hc in A1; cbn in A1; lia|]. exists cs0, c. split; [exact Hc|]. rewrite Hc, app_length in A1. cbn in A1. lia. }
  destruct Hcs as [cs0 [c [Hc Hl0]]]. subst cs.
  destruct (grows_verify _ _ _ _ _ _ _ _ S) as [s1 G1]. destruct (grows_batch _ _ _ _ _ _ _ _ V) as [s2 G2]. cbn [set_vtr vt_tr] in G2.
  exists zs, cs0, ([c] ++ s1 ++ s2). cbn [set_vtr vt_tr]. split.
  { rewrite (grows_drawn _ _ _ (grows_trans _ _ _ _ _ C3 (grows_trans _ _ _ _ _ A2 (grows_trans _ _ _ _ _ G1 G2)))). rewrite <- !app_assoc. reflexivity. }
  split; [exact C2|]. split; [exact Hl0|]. intros sums Hs Hw. rewrite claiming_sets. cbn [sets vt_proof].
  set (l := combine (map fst (vt_sc v)) sums). assert (Hf : map fst l = map fst (vt_sc v)).
  { unfold l. clear - Hs. revert sums Hs. induction (vt_sc v) as [|x r IH]; intros [|y s] H; try discriminate H; cbn; [reflexivity|]. f_equal. apply IH. cbn in H. lia. }
  assert (Hd : map snd l = sums).
  { unfold l. clear - Hs. revert sums Hs. induction (vt_sc v) as [|x r IH]; intros [|y s] H; try discriminate H; cbn; [reflexivity|]. f_equal. apply IH. cbn in H. lia. }
  assert (Hsum : weighted (cs0 ++ [c]) (map snd (l ++ [(id, F0)])) = sum).
  { rewrite A3, C1, !map_app. cbn [map snd]. rewrite Hd, !weighted_snoc0 by (rewrite ?map_length; congruence). exact Hw. }
  assert (A6 := A5 (l ++ [(id, F0)])). rewrite Hsum in A6. rewrite C1, !map_app, Hf in A6. specialize (A6 eq_refl).
  rewrite C4. cbn [bind]. fold (sets v1 (l ++ [(id, F0)])). rewrite A6. cbn [bind sets vt_tr vt_vk].
  rewrite S. cbn [map_err bind]. split.
  - change (mapM (fun id0 : nat => ounwrap (get_mat_comm (set_vtr (sets v2 (l ++ [(id, F0)])) t) id0)) (sort_ids (map fst (cp_comms (vt_proof v)))))
      with (mapM (fun id0 : nat => ounwrap (get_mat_comm (set_vtr v2 t) id0)) (sort_ids (map fst (cp_comms (vt_proof v))))).
    rewrite M. cbn [bind]. rewrite B. cbn [bind set_vtr sets vt_vk vt_tr] in V |- *. rewrite V. cbn [bind]. eexists. split; [reflexivity|reflexivity].
  - rewrite A. cbn [bind]. rewrite S. reflexivity.
Qed.
Lemma weighted_choice : prime (Zpos p) -> forall i cs sums (t : F p), nth i cs F0 <> F0 -> length sums = length cs -> exists y, weighted cs (firstn i sums ++ y :: skipn (S i) sums) = t.
Proof.
  intros Hp i. induction i as [|i IH]; intros cs sums t H Hl; destruct cs as [|c cs]; try (cbn in H; congruence); destruct sums as [|s sums]; try discriminate Hl; cbn [nth] in H.
  - exists ((t - weighted cs sums) / c)%F. cbn [firstn app skipn]. rewrite weighted_cons. pose proof (Finv_l Hp c H) as X. unfold Fdiv. transitivity ((t - weighted cs sums) * (Finv c * c) + weighted cs sums)%F; [ring|]. rewrite X. ring.
  - cbn [length] in Hl. destruct (IH cs sums (t - c * s)%F H ltac:(lia)) as [y Hy]. exists y. cbn [firstn app skipn]. rewrite weighted_cons. cbn [skipn] in Hy. rewrite Hy. ring.
Qed.
Lemma sums_free : prime (Zpos p) -> forall (o : oracle p comm) v v', verify_claims o v = Ok v' ->
  exists a cs b, drawn (vt_tr v) (vt_tr v') = a ++ cs ++ b /\ length a = length (vt_zc v) + cp_nv (vt_proof v) /\ length cs = length (vt_sc v) /\
    forall i sums, nth i cs F0 <> F0 -> length sums = length (vt_sc v) ->
      exists y v'', verify_claims o (claiming v (firstn i sums ++ y :: skipn (S i) sums)) = Ok v'' /\ vt_tr v'' = vt_tr v' /\
        last_check o (claiming v (firstn i sums ++ y :: skipn (S i) sums)) = last_check o v.
Proof.
  intros Hp o v v' H. destruct (claims_sets o v v' H) as [a [cs [b [H1 [H2 [H3 H4]]]]]]. exists a, cs, b. split; [exact H1|]. split; [exact H2|]. split; [exact H3|].
  intros i sums Hi Hs. destruct (weighted_choice Hp i cs sums (weighted cs (map snd (vt_sc v))) Hi ltac:(congruence)) as [y Hy].
  assert (Hlt : i < length cs) by (destruct (Nat.lt_ge_cases i (length cs)) as [X|X]; [exact X|rewrite nth_overflow in Hi by exact X; congruence]).
  destruct (H4 (firstn i sums ++ y :: skipn (S i) sums)) as [[v'' [A1 A2]] A3]; [rewrite app_length, firstn_length; cbn [length]; rewrite skipn_length; lia|exact Hy|].
  exists y, v''. auto.
Qed.

(** ** The transcript does not depend on the sums of the proof *)
Definition alike (s : tmap (F p)) v w : Prop :=
  vt_vk w = vt_vk v /\ vt_tr w = vt_tr v /\ vt_next w = vt_next v /\ vt_mat w = vt_mat v /\ vt_virt w = vt_virt v /\ vt_query w = vt_query v /\ map fst (vt_sc w) = map fst (vt_sc v) /\ vt_zc w = vt_zc v /\
  vt_proof w = with_sums (vt_proof v) s.
Definition covers (s : tmap (F p)) v : Prop := forall id, mget (cp_sums (vt_proof v)) id <> None -> mget s id <> None.
Lemma step_alike : forall (o : oracle p comm) debug s v w hs op v' hs', alike s v w -> covers s v -> vstep o debug (v, hs) op = Ok (v', hs') -> exists w', vstep o debug (w, hs) op = Ok (w', hs') /\ alike s v' w' /\ covers s v'.
Proof.
  intros o debug s [k t n m vi q sc z cp] [k' t' n' m' vi' q' sc' z' cp'] hs op v' hs' A C H. unfold alike in A. cbn in A. destruct A as [-> [-> [-> [-> [-> [-> [A [-> ->]]]]]]]]. unfold covers in *. cbn in C.
  unfold vstep in H |- *. destruct op; repeat match type of H with (bind (rnth hs ?i) _) = _ => destruct (rnth hs i); cbn [bind] in H |- *; try discriminate end.
  all: try (cbn in H |- *; injection H as H1 H2; subst v' hs'; eexists; split; [reflexivity|]; split; [unfold alike; cbn; rewrite ?map_app, ?A; repeat split|exact C]; fail).
  - unfold transfer_prover_comm, v_get_next_id in H |- *. cbn [vt_proof vt_next with_sums cp_comms] in H |- *. destruct (mget (cp_comms cp) n) as [c|]; cbn [ounwrap bind] in H |- *; [|discriminate].
    cbn in H |- *. destruct (rassert _) as [[]| |]; cbn in H |- *; try discriminate. injection H as H1 H2. subst v' hs'. eexists. split; [reflexivity|]. split; [unfold alike; cbn; repeat split; exact A|exact C].
  - unfold vt_challenge in H |- *. cbn [vt_tr] in H |- *. destruct (drawT o l t) as [[c u]| |]; cbn in H |- *; try discriminate. injection H as H1 H2. subst v' hs'. eexists. split; [reflexivity|]. split; [unfold alike; cbn; repeat split; exact A|exact C].
  - unfold get_prover_claimed_sum in H |- *. cbn [vt_proof with_sums cp_sums] in H |- *. match type of H with context [mget (cp_sums cp) ?id] => pose proof (C id) as Ci; destruct (mget (cp_sums cp) id) as [c|]; [|discriminate]; destruct (mget s id) as [c'|]; [|exfalso; apply Ci; [discriminate|reflexivity]] end.
    cbn in H |- *. injection H as H1 H2. subst v' hs'. eexists. split; [reflexivity|]. split; [unfold alike; cbn; rewrite !map_app, A; repeat split|exact C].
Qed.
Lemma run_alike : forall (o : oracle p comm) debug vk cp s ops v hs, (forall id, mget (cp_sums cp) id <> None -> mget s id <> None) -> vrun o debug vk cp ops = Ok (v, hs) ->
  exists w, vrun o debug vk (with_sums cp s) ops = Ok (w, hs) /\ vt_tr w = vt_tr v /\ map fst (vt_sc w) = map fst (vt_sc v).
Proof.
  intros o debug vk cp s ops v hs C H. unfold vrun in H |- *.
  assert (G : forall ops u hs0 w, alike s u w -> covers s u -> foldM (vstep o debug) (u, hs0) ops = Ok (v, hs) -> exists w', foldM (vstep o debug) (w, hs0) ops = Ok (w', hs) /\ alike s v w').
  { clear. intros ops. induction ops as [|op ops IH]; intros u hs0 w A C H; [cbn in H |- *; injection H as H1 H2; subst; exists w; auto|].
    cbn [foldM] in H |- *. destruct (vstep o debug (u, hs0) op) as [[u' hs1]| |] eqn:S; cbn [bind] in H; try discriminate. destruct (step_alike _ _ _ _ _ _ _ _ _ A C S) as [w1 [S1 [A1 C1]]]. rewrite S1. cbn [bind]. exact (IH _ _ _ A1 C1 H). }
  destruct (G ops (set_compiled_proof (vt_new vk) cp) [] (set_compiled_proof (vt_new vk) (with_sums cp s))) with (3:=H) as [w [G1 G2]]; [repeat split|exact C|]. exists w. split; [exact G1|]. destruct G2 as [_ [G2 [_ [_ [_ [_ [G3 _]]]]]]]. auto.
Qed.
End P.
