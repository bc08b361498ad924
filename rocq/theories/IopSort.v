(** Prescribed permutations and strictly sorted bags: both sides of a run. *)
From Coq Require Import String List Arith Lia Bool ZArith Znumtheory.
Import ListNotations.
From Verif Require Import Res ResLemmas Fp FSum SpecMle SpecPoly PolyLemmas SpecKzg SpecTracker SpecIop ModelMle MleLemmas MleProofs MleExtra ModelVp ModelTranscript ModelSumcheck Pairing ModelKzg ModelBatch
  ModelProver ModelVerifier ModelAdvice ModelIop ProverHist VerifierHist CompileHist IopHist TmapLemmas ProverProofs ProverExtra ProverStep HistExtra IopWorld IopBasic LogDeriv BagLemmas AdviceProofs IopMulti IopRuns.
Local Open Scope string_scope.
Local Open Scope list_scope.
Local Open Scope nat_scope.

Section T.
Context {p : positive}.
Add Ring Fr : (@F_ring p).
Implicit Types l m : list (F p).
Definition hats (g : F p) l m : list (F p) := zipw (fun x y => (x + g * y)%F) l m.
Lemma mapM_map : forall A B (f : A -> res B) (g : A -> B) (l : list A), (forall a, In a l -> f a = Ok (g a)) -> mapM f l = Ok (map g l).
Proof. intros A B f g l0. induction l0 as [|a l0 IH]; intros H; [reflexivity|]. cbn [mapM map]. rewrite (H a (or_introl eq_refl)). cbn [bind]. rewrite IH by (intros; apply H; right; assumption). reflexivity. Qed.
Lemma zipw_map_seq : forall f l m n, length l = n -> length m = n -> map (fun i => f (nth i l (@F0 p)) (nth i m F0)) (seq 0 n) = zipw f l m.
Proof.
  intros f l m n H1 H2. apply (nth_ext _ _ F0 F0); [len|]. intros k Hk. rewrite map_length, seq_length in Hk. rewrite zipw_nth0 by lia.
  rewrite (nth_map_seq (fun i => f (nth i l F0) (nth i m F0))) by exact Hk. reflexivity.
Qed.
Lemma hat_evals_ok : forall n g l m, length l = 2 ^ n -> length m = 2 ^ n -> hat_evals n g l m = Ok (hats g l m).
Proof.
  intros n g l m H1 H2. unfold hat_evals, hats. rewrite (mapM_map _ _ _ (fun i => (nth i l F0 + g * nth i m F0)%F)).
  - f_equal. apply (zipw_map_seq (fun x y => (x + g * y)%F)); assumption.
  - intros i Hi. apply in_seq in Hi. rewrite !(rnth_ok _ _ i F0) by lia. reflexivity.
Qed.
Lemma hats_len : forall g l m, length l = length m -> length (hats g l m) = length l.
Proof. intros. unfold hats. len. Qed.
(** The two zero claims of the prescribed permutation hold of the vectors the prover commits to. *)
Lemma hats_claim : forall g l m, length l = length m -> lz (zipw Fsub (zipw Fadd l (map (fun x => (x * g)%F) m)) (hats g l m)).
Proof.
  intros g l m H. apply lz_nth. intros k. unfold hats. len. rewrite H, !Nat.min_id. intros Hk. rewrite zipw_nth0 by len. rewrite zipw_nth0 by len. rewrite zipw_nth0 by len. rewrite map_nth0 by len. ring.
Qed.
Lemma ordered_len : forall n, length (ordered_evals (p:=p) n) = 2 ^ n. Proof. intros. unfold ordered_evals. len. Qed.

Lemma ordered_fold : forall n k a acc, fold_left (fun acc ix => Fadd acc (Fmul (snd ix) (ofN (2 ^ fst ix)))) (combine (seq a n) (map (@b2f p) (bits n k))) acc = (acc + ofN (2 ^ a) * ofN (k mod 2 ^ n))%F.
Proof.
  induction n as [|n IH]; intros k a acc.
  - cbn [seq combine fold_left]. rewrite Nat.pow_0_r, Nat.mod_1_r, ofN_0. ring.
  - rewrite bits_S. cbn [seq map combine fold_left fst snd]. rewrite IH. cbn [Nat.pow]. assert (Hk : k = 2 * Nat.div2 k + Nat.b2n (Nat.odd k)) by apply Nat.div2_odd.
    set (h := Nat.div2 k) in *. assert (Hm : k mod (2 * 2 ^ n) = 2 * (h mod 2 ^ n) + Nat.b2n (Nat.odd k)).
    { assert (0 < 2 ^ n) by (pose proof (Nat.pow_nonzero 2 n); lia). pose proof (Nat.mod_upper_bound h (2 ^ n) ltac:(lia)). pose proof (Nat.div_mod h (2 ^ n) ltac:(lia)). symmetry. apply (Nat.mod_unique _ _ (h / 2 ^ n)); [destruct (Nat.odd k); cbn [Nat.b2n]; lia|]. rewrite Hk at 1. nia. }
    rewrite Hm, ofN_add, !ofN_mul. change (@ofN p 2) with (ofN (p:=p) (1 + 1)). rewrite ofN_add. assert (H1 : @ofN p 1 = F1) by (rewrite ofN_S, ofN_0; ring). rewrite H1. destruct (Nat.odd k); cbn [b2f Nat.b2n]; rewrite ?H1, ?ofN_0; ring.
Qed.
Lemma ordered_bpoint : forall n k, ordered_fun (bpoint (p:=p) n k) = Ok (ofN (k mod 2 ^ n)).
Proof. intros n k. unfold ordered_fun, bpoint. rewrite map_length, bits_length, ordered_fold. f_equal. change (2 ^ 0) with 1. assert (H1 : @ofN p 1 = F1) by (rewrite ofN_S, ofN_0; ring). rewrite H1. ring. Qed.
Lemma ordered_fun_ok : forall n k, k < 2 ^ n -> ordered_fun (p:=p) (bpoint n k) = Ok (nth k (ordered_evals n) F0).
Proof.
  intros n k H. rewrite ordered_bpoint, Nat.mod_small by exact H. f_equal. unfold ordered_evals. symmetry. apply (nth_map_seq (fun i => ofN (p:=p) i)). exact H.
Qed.
Lemma mle_fun_ok : forall n l k, length l = 2 ^ n -> k < 2 ^ n -> mle_fun (p:=p) (mkMle n l) (bpoint n k) = Ok (nth k l F0).
Proof.
  intros n l k Hl H. unfold mle_fun. rewrite ark_evaluate_spec by exact Hl. rewrite bpoint_length. cbn [nv evs]. rewrite Nat.eqb_refl. cbn [bind ounwrap]. rewrite mle_ext_bpoint by exact H. reflexivity.
Qed.

(** Rotation *)
Definition rot (l : list (F p)) : list (F p) := match l with [] => [] | x :: r => r ++ [x] end.
Lemma rotate1_ok : forall l, l <> [] -> rotate1 l = Ok (rot l).
Proof. intros [|x r] H; [contradiction|]. reflexivity. Qed.
Lemma rot_len : forall l, length (rot l) = length l. Proof. intros [|x r]; cbn [rot]; [reflexivity|]. rewrite app_length. cbn. lia. Qed.
Lemma pow_pos : forall n, 0 < 2 ^ n. Proof. intros n. induction n; cbn; lia. Qed.
Lemma shift_rot : forall n, shift_perm_evals (p:=p) (2 ^ n) = rot (ordered_evals n).
Proof.
  intros n. unfold shift_perm_evals, ordered_evals. pose proof (pow_pos n). destruct (2 ^ n) as [|k]; [lia|]. cbn [seq map rot]. rewrite Nat.sub_succ, Nat.sub_0_r. reflexivity.
Qed.
Lemma zipw_app : forall f l m l' m', length l = length m -> zipw (p:=p) f (l ++ l') (m ++ m') = zipw f l m ++ zipw f l' m'.
Proof. intros f l. induction l as [|a l IH]; intros [|b m] l' m' H; cbn in H; try discriminate; [reflexivity|]. cbn [app]. rewrite !zipw_cons, IH by lia. reflexivity. Qed.
Lemma zipw_rot : forall f l m, length l = length m -> zipw f (rot l) (rot m) = rot (zipw f l m).
Proof. intros f [|a l] [|b m] H; cbn in H; try discriminate; [reflexivity|]. cbn [rot]. rewrite zipw_app by lia. reflexivity. Qed.
Lemma wcol_snoc_weight : forall l sl m a s y x, length sl = length l -> length m = length l -> weight (wcol (l ++ [a]) (sl ++ [s]) (m ++ [y])) x = weight (wcol (a :: l) (s :: sl) (y :: m)) x.
Proof. intros. rewrite wcol_app by assumption. rewrite weight_app, !wcol_cons, !weight_cons. change (weight (wcol [] [] []) x) with (@F0 p). ring. Qed.
Lemma repeat_snoc : forall A (x : A) n, repeat x (S n) = repeat x n ++ [x]. Proof. intros A x n. induction n as [|n IH]; [reflexivity|]. cbn [repeat app] in *. rewrite <- IH. reflexivity. Qed.
Lemma rot_same_bag : forall l, same_bag (wcol l (ones (length l)) (ones (length l))) (wcol (rot l) (ones (length l)) (ones (length l))).
Proof.
  intros [|a l] x; [reflexivity|]. cbn [rot length]. unfold ones. rewrite (repeat_snoc _ _ (length l)). rewrite wcol_snoc_weight by (rewrite repeat_length; reflexivity).
  rewrite <- repeat_snoc. reflexivity.
Qed.

(** Differences of neighbours, one at the end. *)
Definition dsel (k : nat) : list (F p) := repeat F1 (k - 1) ++ [F0].
Lemma dsel_len : forall k, 0 < k -> length (dsel k) = k. Proof. intros. unfold dsel. rewrite app_length, repeat_length. cbn. lia. Qed.
Lemma upd_last : forall k, upd (repeat (@F1 p) (S k)) k F0 = repeat F1 k ++ [F0].
Proof. intros k. induction k as [|k IH]; [reflexivity|]. change (repeat (@F1 p) (S (S k))) with (@F1 p :: repeat F1 (S k)). change (F1 :: upd (repeat (@F1 p) (S k)) k F0 = F1 :: (repeat F1 k ++ [F0])). rewrite IH. reflexivity. Qed.
Lemma diff_sel_ok : forall k, 0 < k -> diff_sel_evals k = Ok (dsel k).
Proof.
  intros [|k] H; [lia|]. unfold diff_sel_evals, dsel, ones, rupd. rewrite Nat.sub_succ, Nat.sub_0_r, repeat_length. destruct (k <? S k) eqn:H1; [|apply Nat.ltb_ge in H1; lia]. rewrite upd_last. reflexivity.
Qed.
Definition diffs l : list (F p) := zipw Fsub (map (fun x => (x + F1)%F) (zipw Fmul (dsel (length l)) (zipw Fsub (rot l) l))) (dsel (length l)).
Lemma diffs_len : forall l, l <> [] -> length (diffs l) = length l.
Proof. intros l H. assert (0 < length l) by (destruct l; [contradiction|cbn; lia]). unfold diffs. len. rewrite dsel_len, rot_len by assumption. lia. Qed.
Lemma diff_evals_ok : forall l, l <> [] -> diff_evals (dsel (length l)) (rot l) l = Ok (diffs l).
Proof.
  intros l H. assert (Hl : 0 < length l) by (destruct l; [contradiction|cbn; lia]). pose proof (dsel_len (length l) Hl) as Hd. pose proof (rot_len l) as Hr. unfold diff_evals.
  rewrite (mapM_map _ _ _ (fun i => (nth i (dsel (length l)) F0 * (nth i (rot l) F0 - nth i l F0) + (F1 - nth i (dsel (length l)) F0))%F)).
  - f_equal. apply (nth_ext _ _ F0 F0); [rewrite diffs_len by exact H; len|]. intros k Hk. rewrite map_length, seq_length in Hk.
    rewrite (nth_map_seq (fun i => (nth i (dsel (length l)) F0 * (nth i (rot l) F0 - nth i l F0) + (F1 - nth i (dsel (length l)) F0))%F)) by exact Hk.
    unfold diffs. rewrite zipw_nth0 by len. rewrite map_nth0 by len. rewrite zipw_nth0 by len. rewrite zipw_nth0 by len. ring.
  - intros i Hi. apply in_seq in Hi. rewrite !(rnth_ok _ _ i F0) by lia. reflexivity.
Qed.
Lemma rot_nth : forall l k, S k < length l -> nth k (rot l) F0 = nth (S k) l F0.
Proof. intros [|x r] k H; cbn in H; [lia|]. cbn [rot nth]. apply app_nth1. lia. Qed.
Lemma dsel_nth : forall n k, k < n -> nth k (dsel n) F0 = if S k =? n then F0 else F1.
Proof.
  intros n k H. unfold dsel. destruct (S k =? n) eqn:Hk.
  - apply Nat.eqb_eq in Hk. rewrite app_nth2 by (rewrite repeat_length; lia). rewrite repeat_length. replace (k - (n - 1)) with 0 by lia. reflexivity.
  - apply Nat.eqb_neq in Hk. rewrite app_nth1 by (rewrite repeat_length; lia). apply InterpProofs.nth_repeat_lt. lia.
Qed.
Lemma diffs_nth : forall l k, k < length l -> nth k (diffs l) F0 = if S k =? length l then F1 else (nth (S k) l F0 - nth k l F0)%F.
Proof.
  intros l k H. pose proof (dsel_len (length l) ltac:(lia)) as Hd. pose proof (rot_len l) as Hr. unfold diffs.
  rewrite zipw_nth0 by len. rewrite map_nth0 by len. rewrite zipw_nth0 by len. rewrite zipw_nth0 by len. rewrite dsel_nth by exact H. destruct (S k =? length l) eqn:Hk; [ring|].
  apply Nat.eqb_neq in Hk. rewrite rot_nth by lia. ring.
Qed.
Lemma feql_refl : forall l, feql l l = true.
Proof. intros l. unfold feql. induction l as [|a l IH]; [reflexivity|]. cbn. rewrite ?Feqb_refl. exact IH. Qed.
End T.

Section P.
Context {p : positive} {E : pairing p}.
Add Ring Fq : (@F_ring p).
Notation comm := (gcar (PG1 E)).
Hypothesis Hp : prime (Zpos p).
Hypothesis H2 : 2 < fsize p.
Variable o : oracle p comm.
Variable pp : pparam E.
Variable K : nat.
Hypothesis Hpp : forall n l, n <= K -> length l = 2 ^ n -> exists c, kzg_commit pp (mkMle n l) = Ok c.
Variable D : nat.
Implicit Types (w : wd (E:=E)) (v : vtrk E).
Notation good := (good o pp K D).
Notation step := (step o pp K D).
Notation ran := (ran o pp K D).

Lemma bag_new_ok : forall debug a b, tp_nv a = tp_nv b -> bag_new debug a b = Ok (mkBag a b).
Proof. intros debug a b H. unfold bag_new. rewrite H, Nat.eqb_refl. destruct debug; reflexivity. Qed.

Lemma presc_perm_run : forall w fx gx perm l sl l' sl' pl d dbg, good w -> hasb w fx l sl d -> hasb w gx l' sl' d -> hasd w perm pl d -> b_nv fx = b_nv gx -> b_nv fx = tp_nv perm -> 1 <= d -> 2 * d + 1 <= D ->
  exists g g', let fh := hats g (ordered_evals (b_nv fx)) l in let gh := hats g pl l' in
    ran w (presc_perm_prove o dbg (ws w) fx gx perm) [g; g'] (clear g' fh /\ clear g' gh) (fun debug v => presc_perm_verify o debug v (comm_of fx) (comm_of gx) (tp_id perm))
      (Feqb (logd (wcol fh (ones (length l)) (ones (length l))) g') (logd (wcol gh (ones (length l)) (ones (length l))) g')).
Proof.
  intros w fx gx perm l sl l' sl' pl d dbg G Hf Hg Hm Hn Hnp Hd HD. pose proof (hasb_says _ _ _ _ _ Hf) as I1. pose proof (hasb_says _ _ _ _ _ Hg) as I2.
  pose proof (fun cp vk v (L : lk cp vk w v) => lk_says _ _ _ _ _ _ _ L Hm) as I3. pose proof (step_refl o pp K D w G) as S.
  pose proof (hasb_len o pp K D _ _ _ _ _ G Hf) as [Lf [Lfs Kf]]. pose proof (hasb_len o pp K D _ _ _ _ _ G Hg) as [Lg [Lgs Kg]].
  pose proof (hasd_len o pp K D _ _ _ _ G Hm) as Lp. rewrite <- Hnp in Lp. rewrite <- Hn in Lg, Lgs, Kg. set (n := b_nv fx) in *.
  destruct Hf as [F1' [F2' F3']], Hg as [G1' [G2' G3']].
  destruct (chal_step o pp K D w "gamma" G) as [w1 [g [E1 [S1 T1]]]]. pass S S1.
  peek S (call_evals o pp K D w1 (b_poly fx) l d ltac:(gd S) F1') as w2 E2 T2.
  peek S (call_evals o pp K D w2 (b_poly gx) l' d ltac:(gd S) G1') as w3 E3 T3.
  peek S (call_evals o pp K D w3 perm pl d ltac:(gd S) Hm) as w4 E4 T4.
  take S (call_tab o pp K D w4 n (ones (2 ^ n)) ltac:(gd S) (ones_len _) Kf ltac:(lia)) as w5 h5 E5 H5 N5 T5. apply Ok_pair in E5.
  take S (call_tab o pp K D w5 n (ordered_evals n) ltac:(gd S) (ordered_len _) Kf ltac:(lia)) as w6 h6 E6 H6 N6 T6. apply Ok_pair in E6.
  set (fh := hats g (ordered_evals n) l) in *. set (gh := hats g pl l') in *.
  assert (Lfh : length fh = 2 ^ n) by (unfold fh; rewrite hats_len by (rewrite ordered_len; lia); apply ordered_len).
  assert (Lgh : length gh = 2 ^ n) by (unfold gh; rewrite hats_len by lia; exact Lp).
  take S (call_commit o pp K Hpp D w6 n fh ltac:(gd S) Lfh Kf ltac:(lia)) as w7 h7 E7 H7 N7 T7.
  take S (call_commit o pp K Hpp D w7 n gh ltac:(gd S) Lgh Kf ltac:(lia)) as w8 h8 E8 H8 N8 T8.
  take S (call_muls o pp K D w8 (b_poly fx) g _ _ ltac:(gd S) F1') as w9 h9 E9 H9 N9 T9; [lia|].
  take S (call_add o pp K D w9 h6 h9 _ _ _ _ ltac:(gd S) H6 H9) as w10 h10 E10 H10 N10 T10; [rewrite N6, N9; reflexivity|lia|].
  take S (call_sub o pp K D w10 h10 h7 _ _ _ _ ltac:(gd S) H10 H7) as w11 h11 E11 H11 N11 T11; [rewrite N10, N7, N6; reflexivity|lia|].
  take S (call_muls o pp K D w11 (b_poly gx) g _ _ ltac:(gd S) G1') as w12 h12 E12 H12 N12 T12; [lia|].
  take S (call_add o pp K D w12 perm h12 _ _ _ _ ltac:(gd S) Hm H12) as w13 h13 E13 H13 N13 T13; [rewrite N12; cbn; unfold n, b_nv in *; congruence|lia|].
  take S (call_sub o pp K D w13 h13 h8 _ _ _ _ ltac:(gd S) H13 H8) as w14 h14 E14 H14 N14 T14; [rewrite N13, N8; cbn; symmetry; exact Hnp|lia|].
  assert (B1 : hasb w14 (mkBag h7 h5) fh (ones (2 ^ n)) d) by (split; [eapply hasd_weak; [exact H7|lia]|split; [eapply hasd_weak; [exact H5|lia]|cbn; rewrite N7, N5; reflexivity]]).
  assert (B2 : hasb w14 (mkBag h8 h5) gh (ones (2 ^ n)) d) by (split; [eapply hasd_weak; [exact H8|lia]|split; [eapply hasd_weak; [exact H5|lia]|cbn; rewrite N8, N5; reflexivity]]).
  destruct (bag_eq_run Hp H2 o pp K Hpp D w14 _ _ _ _ _ _ d ltac:(gd S) B1 B2) as [g' [w15 [E15 [S15 T15]]]]; [cbn; rewrite N7, N8; reflexivity|exact Hd|exact HD|].
  exists g, g'. cbv zeta.
  pass S S15.
  destruct (zero_step o pp K D w15 h11 _ _ ltac:(gd S) H11) as [w16 [E16 [S16 T16]]]. pass S S16.
  destruct (zero_step o pp K D w16 h14 _ _ ltac:(gd S) H14) as [w17 [E17 [S17 T17]]]. pass S S17.
  exists w17. split; [|split].
  - assert (Q1 : (b_nv fx =? b_nv gx) = true) by (apply Nat.eqb_eq; exact Hn). assert (Q2 : (b_nv fx =? tp_nv perm) = true) by (apply Nat.eqb_eq; exact Hnp).
    unfold presc_perm_prove. rewrite Q1, Q2. cbn [ensure bind]. rewrite <- Hn. fold n. rewrite E1. cbn [bind]. rewrite one_mle_ok. cbn [bind].
    rewrite (from_evals n (ordered_evals n)) by apply ordered_len. cbn [bind evs]. rewrite E2. cbn [bind]. rewrite E3. cbn [bind]. rewrite E4. cbn [bind].
    rewrite (hat_evals_ok n g _ l) by (rewrite ?ordered_len; auto). cbn [bind]. rewrite (hat_evals_ok n g _ l') by auto. cbn [bind]. fold fh gh.
    rewrite (from_evals n fh Lfh), (from_evals n gh Lgh). cbn [bind]. rewrite E5, E6, E7. cbn [bind]. rewrite E8. cbn [bind]. rewrite !bag_new_ok by (rewrite ?N7, ?N8, N5; reflexivity). cbn [bind b_poly].
    rewrite E9. cbn [bind]. rewrite E10. cbn [bind]. rewrite E11. cbn [bind]. rewrite E12. cbn [bind]. rewrite E13. cbn [bind]. rewrite E14. cbn [bind]. rewrite E15. cbn [bind]. rewrite E17, E16. reflexivity.
  - eapply step_imp; [exact S|]. pose proof (hats_claim g (ordered_evals n) l ltac:(rewrite ordered_len; auto)) as Z1. pose proof (hats_claim g pl l' ltac:(lia)) as Z2. fold fh in Z1. fold gh in Z2. tauto.
  - intros cp vk N v debug L Cv. unfold presc_perm_verify, track_virtual_comm, v_mul_scalar, add_comms, sub_comms.
    pose proof (I1 _ _ _ L) as [J1 _]. pose proof (I2 _ _ _ L) as [J2 _]. pose proof (I3 _ _ _ L) as J3. clear I1 I2 I3. pose proof (vext_refl v) as V. cbn [comm_of bc_nv bc_poly] in J1, J2. cbn [comm_of bc_nv bc_poly].
    rewrite <- Hn in J2. rewrite <- Hnp in J3. fold n in J1, J2, J3. subst h5 h6 h7 h8 h9 h10 h11 h12 h13 h14. cbn [tp_nv tp_id Nat.add] in *.
    destruct (T1 cp vk v L) as [v1 [-> [L1 X1]]]. cbn [bind]. vmove V X1. pose proof (T4 _ _ _ (T3 _ _ _ (T2 _ _ _ L1))) as L4.
    destruct (T5 cp vk N v1 one_fun L4 ltac:(cvr) (one_fun_ok _)) as [v5 [-> [L5 [X5 Y5]]]]. vmove V X5.
    destruct (T6 cp vk N v5 ordered_fun L5 ltac:(cvr) (ordered_fun_ok _)) as [v6 [-> [L6 [X6 Y6]]]]. vmove V X6.
    destruct (T7 cp vk N v6 debug L6 ltac:(cvr)) as [v7 [-> [L7 [X7 Y7]]]]. cbn [bind]. vmove V X7.
    destruct (T8 cp vk N v7 debug L7 ltac:(cvr)) as [v8 [-> [L8 [X8 Y8]]]]. cbn [bind]. vmove V X8.
    change (tp_nv (b_poly fx)) with n in *. change (tp_nv (b_poly gx)) with (b_nv gx) in *. rewrite <- Hn in *. rewrite <- Hnp in *. fold n in T12, T13, T14.
    vtake V L8 T9 as v9 L9 Y9. vtake V L9 T10 as v10 L10 Y10. vtake V L10 T11 as v11 L11 Y11. vtake V L11 T12 as v12 L12 Y12. vtake V L12 T13 as v13 L13 Y13. vtake V L13 T14 as v14 L14 Y14.
    destruct (T15 cp vk N v14 debug L14 ltac:(cvr)) as [v15 [E15' [L15 X15]]]. vmove V X15.
    exists (v_add_zerocheck_claim (v_add_zerocheck_claim v15 (pt_next (ws w10))) (pt_next (ws w13))).
    split; [|split; [exact (T17 cp vk _ (T16 cp vk _ L15))|eapply vext_trans; [exact V|apply vext_same; reflexivity]]].
    rewrite Lf. rewrite Lfh, Lgh in E15'. unfold comm_of, b_nv in E15'. cbn [b_poly b_sel tp_nv tp_id] in E15'. fold n. rewrite <- ?Hn. change (b_nv fx) with n. rewrite E15'. fold fh gh. match goal with |- _ = (if ?b then _ else _) => destruct b end; reflexivity.
Qed.

Lemma perm_rot_true : forall n (l : list (F p)) g g', length l = 2 ^ n ->
  Feqb (logd (wcol (hats g (ordered_evals n) l) (ones (length l)) (ones (length l))) g') (logd (wcol (hats g (shift_perm_evals (2 ^ n)) (rot l)) (ones (length l)) (ones (length l))) g') = true.
Proof.
  intros n l g g' Hl. apply Feqb_eq. apply same_bag_logd. rewrite shift_rot. unfold hats at 2. rewrite zipw_rot by (rewrite ordered_len; auto). fold (hats g (ordered_evals n) l).
  assert (Hh : length (hats g (ordered_evals n) l) = length l) by (rewrite hats_len by (rewrite ordered_len; auto); rewrite ordered_len; auto). rewrite <- Hh. apply rot_same_bag.
Qed.

Lemma strict_sort_run : forall w fx rx l sl rl rsl d dbg, good w -> hasb w fx l sl d -> hasb w rx rl rsl d -> 1 <= d -> 2 * d + 3 <= D ->
  exists g g1 g2 ml, incl_weights (diffs l) (dsel (length l)) rl (ones (length rl)) ml /\
    ran w (strict_sort_prove o dbg (ws w) fx rx) [g; g1; g2]
      (clear g1 (hats g (ordered_evals (b_nv fx)) l) /\ clear g2 (diffs l) /\ clear g2 rl /\ lz (nz_claim (diffs l) sl)) (fun debug v => strict_sort_verify o debug v (comm_of fx) (comm_of rx))
      (Feqb (logd (wcol (diffs l) (dsel (length l)) (ones (length l))) g2) (logd (wcol rl (ones (length rl)) ml) g2)).
Proof.
  intros w fx rx l sl rl rsl d dbg G Hf Hr Hd HD. pose proof (hasb_says _ _ _ _ _ Hf) as I1. pose proof (hasb_says _ _ _ _ _ Hr) as I2. pose proof (step_refl o pp K D w G) as S.
  pose proof (hasb_len o pp K D _ _ _ _ _ G Hf) as [Lf [Lfs Kf]]. pose proof (hasb_len o pp K D _ _ _ _ _ G Hr) as [Lr [Lrs Kr]].
  assert (Hne : l <> []) by (intros ->; cbn in Lf; pose proof (pow_pos (b_nv fx)); lia).
  assert (Lrot : length (rot l) = 2 ^ b_nv fx) by (rewrite rot_len; exact Lf).
  assert (Lds : length (dsel (p:=p) (length l)) = 2 ^ b_nv fx) by (rewrite dsel_len; [exact Lf|rewrite Lf; apply pow_pos]).
  assert (Lsp : length (shift_perm_evals (p:=p) (length l)) = 2 ^ b_nv fx) by (rewrite Lf, shift_rot, rot_len; apply ordered_len).
  assert (Ldf : length (diffs l) = 2 ^ b_nv fx) by (rewrite diffs_len by exact Hne; exact Lf).
  assert (perm_true : forall g g' , Feqb (logd (wcol (hats g (ordered_evals (b_nv fx)) l) (ones (length l)) (ones (length l))) g') (logd (wcol (hats g (shift_perm_evals (length l)) (rot l)) (ones (length l)) (ones (length l))) g') = true)
    by (intros g g'; rewrite Lf at 3; apply perm_rot_true; exact Lf).
  destruct Hf as [F1' [F2' F3']]. destruct Hr as [R1' [R2' R3']].
  peek S (call_evals o pp K D w (b_poly fx) l d G F1') as w1 E1 T1.
  take S (call_tab o pp K D w1 (b_nv fx) (ones (length l)) ltac:(gd S) ltac:(rewrite ones_len; exact Lf) Kf ltac:(lia)) as w2 h2 E2 H2' N2 T2. apply Ok_pair in E2.
  take S (call_tab o pp K D w2 (b_nv fx) (shift_perm_evals (length l)) ltac:(gd S) Lsp Kf ltac:(lia)) as w3 h3 E3 H3 N3 T3. apply Ok_pair in E3.
  take S (call_commit o pp K Hpp D w3 (b_nv fx) (rot l) ltac:(gd S) Lrot Kf ltac:(lia)) as w4 h4 E4 H4 N4 T4.
  assert (B1 : hasb w4 fx l sl d) by (repeat split; assumption).
  assert (B2 : hasb w4 (mkBag h4 h2) (rot l) (ones (length l)) d) by (split; [eapply hasd_weak; [exact H4|lia]|split; [eapply hasd_weak; [exact H2'|lia]|cbn; rewrite N4, N2; reflexivity]]).
  assert (H3d : hasd w4 h3 (shift_perm_evals (length l)) d) by (eapply hasd_weak; [exact H3|lia]).
  destruct (presc_perm_run w4 fx (mkBag h4 h2) h3 l sl (rot l) (ones (length l)) (shift_perm_evals (length l)) d dbg ltac:(gd S) B1 B2 H3d) as [g [g1 HR]];
    [cbn; rewrite N4; reflexivity|rewrite N3; reflexivity|exact Hd|lia|]. cbv zeta in HR. clear H3d.
  destruct HR as [w5 [E5 [S5 T5]]]. pass S S5.
  take S (call_tab o pp K D w5 (b_nv fx) (dsel (length l)) ltac:(gd S) Lds Kf ltac:(lia)) as w6 h6 E6 H6 N6 T6. apply Ok_pair in E6.
  take S (call_sub o pp K D w6 h4 (b_poly fx) _ _ _ _ ltac:(gd S) H4 F1') as w7 h7 E7 H7 N7 T7; [rewrite N4; reflexivity|lia|].
  take S (call_mul o pp K D w7 h6 h7 _ _ _ _ ltac:(gd S) H6 H7) as w8 h8 E8 H8 N8 T8; [rewrite N6, N7, N4; reflexivity|lia|].
  take S (call_adds o pp K D w8 h8 F1 _ _ ltac:(gd S) H8) as w9 h9 E9 H9 N9 T9; [lia|].
  take S (call_sub o pp K D w9 h9 h6 _ _ _ _ ltac:(gd S) H9 H6) as w10 h10 E10 H10 N10 T10; [rewrite N9, N8; reflexivity|lia|].
  change (hasd w10 h10 (diffs l) (Nat.max (1 + Nat.max 1 d) 1)) in H10.
  destruct (call_evals o pp K D w10 h10 _ _ ltac:(gd S) H10) as [w11' [E11' [C11' T11']]].
  assert (exists w11, (if dbg then ' (dl, s) <- tp_evaluations (ws w10) h10 ;; _ <- rassert (feql dl (diffs l)) ;; Ok s else Ok (ws w10)) = Ok (ws w11) /\ step w10 w11 [] True /\ (forall cp vk v, lk cp vk w10 v -> lk cp vk w11 v)) as [w11 [E11 [S11 T11]]].
  { destruct dbg.
    - exists w11'. split; [rewrite E11'; cbn [bind]; rewrite feql_refl; reflexivity|]. split; [apply callp_step; exact C11'|exact T11'].
    - exists w10. split; [reflexivity|]. split; [apply step_refl; gd S|auto]. }
  clear E11' C11' T11'. pass S S11.
  take S (call_tab o pp K D w11 (b_nv rx) (ones (2 ^ b_nv rx)) ltac:(gd S) (ones_len _) Kr ltac:(lia)) as w12 h12 E12 H12 N12 T12. apply Ok_pair in E12.
  assert (B3 : hasb w12 (mkBag h10 h6) (diffs l) (dsel (length l)) (d + 1)) by (split; [eapply hasd_weak; [exact H10|lia]|split; [eapply hasd_weak; [exact H6|lia]|cbn; rewrite N10, N9, N8; reflexivity]]).
  assert (B4 : hasb w12 (mkBag (b_poly rx) h12) rl (ones (length rl)) (d + 1)) by (rewrite Lr; split; [eapply hasd_weak; [exact R1'|lia]|split; [eapply hasd_weak; [exact H12|lia]|cbn; rewrite N12; reflexivity]]).
  assert (B5 : hasb w12 (mkBag h10 (b_sel fx)) (diffs l) sl (d + 1)) by (split; [eapply hasd_weak; [exact H10|lia]|split; [eapply hasd_weak; [exact F2'|lia]|cbn; rewrite N10, N9, N8, N6; exact F3']]).
  destruct (inclusion_run Hp H2 o pp K Hpp D w12 _ _ _ _ _ _ _ ltac:(gd S) B3 B4) as [g2 [ml [HW [w13 [E13 [S13 T13]]]]]]; [unfold boolean, ones; apply Forall_forall; intros x Hx; right; eapply repeat_spec; exact Hx|lia|lia|].
  pass S S13.
  destruct B5 as [B5a [B5b B5c]].
  destruct (no_zeros_run o pp K Hpp D w13 (mkBag h10 (b_sel fx)) _ _ _ ltac:(gd S) B5a B5b B5c ltac:(lia) ltac:(lia)) as [w14 [E14 [S14 T14]]]. pass S S14.
  exists g, g1, g2, ml. split; [exact HW|]. exists w14. split; [|split].
  - unfold strict_sort_prove. rewrite E1. cbn [bind]. rewrite rotate1_ok by exact Hne. cbn [bind]. rewrite diff_sel_ok by (rewrite Lf; apply pow_pos). cbn [bind]. rewrite diff_evals_ok by exact Hne. cbn [bind].
    rewrite (from_evals _ _ Lds). cbn [bind]. rewrite (from_evals (b_nv fx) (ones (length l))) by (rewrite ones_len; exact Lf). cbn [bind]. rewrite (from_evals _ _ Lsp). cbn [bind]. rewrite (from_evals _ _ Lrot). cbn [bind].
    rewrite E2, E3, E4. cbn [bind]. rewrite bag_new_ok by (rewrite N4, N2; reflexivity). cbn [bind]. rewrite E5. cbn [bind]. rewrite E6, E7. cbn [bind]. rewrite E8. cbn [bind]. rewrite E9. cbn [bind]. rewrite E10. cbn [bind].
    rewrite E11. cbn [bind]. rewrite bag_new_ok by (rewrite N10, N9, N8; reflexivity). cbn [bind]. rewrite one_mle_ok. cbn [bind]. unfold b_nv in E12. rewrite E12. rewrite bag_new_ok by (rewrite N12; reflexivity). cbn [bind].
    rewrite E13. cbn [bind]. rewrite bag_new_ok by (rewrite N10, N9, N8, N6; exact F3'). cbn [bind]. exact E14.
  - assert (Q : clear g1 (hats g (ordered_evals (b_nv fx)) l) <-> clear g1 (hats g (shift_perm_evals (length l)) (rot l))).
    { rewrite Lf, shift_rot. unfold clear, hats at 2. rewrite zipw_rot by (rewrite ordered_len; auto). fold (hats g (ordered_evals (b_nv fx)) l). rewrite !phi_claim_zero by exact Hp.
      unfold rot. destruct (hats g (ordered_evals (b_nv fx)) l) as [|z r]; [reflexivity|]. rewrite in_app_iff. cbn [In]. tauto. }
    eapply step_imp; [exact S|]. tauto.
  - intros cp vk N v debug L Cv. unfold strict_sort_verify, track_virtual_comm, sub_comms, mul_comms. cbv zeta. cbn [comm_of bc_nv bc_poly bc_sel]. rewrite <- Lf. rewrite diff_sel_ok by (rewrite Lf; apply pow_pos). rewrite (from_evals _ _ Lsp). cbn [bind]. rewrite (from_evals _ _ Lds). cbn [bind].
    pose proof (I1 _ _ _ L) as [J1 J2]. pose proof (I2 _ _ _ L) as [J3 J4]. clear I1 I2. cbn [comm_of bc_nv bc_poly bc_sel] in J1, J2, J3, J4. pose proof (vext_refl v) as V. subst h2 h3 h4 h6 h7 h8 h9 h10 h12. cbn [tp_nv tp_id Nat.add] in *.
    pose proof (T1 cp vk v L) as L1.
    destruct (T2 cp vk N v one_fun L1 ltac:(cvr)) as [v2 [-> [L2 [X2 Y2]]]]; [rewrite Lf; apply one_fun_ok|]. vmove V X2.
    match goal with |- context [VFun (mle_fun ?m)] => destruct (T3 cp vk N v2 (mle_fun m) L2 ltac:(cvr)) as [v3 [-> [L3 [X3 Y3]]]]; [intros k; apply mle_fun_ok; exact Lsp|] end. vmove V X3.
    destruct (T4 cp vk N v3 debug L3 ltac:(cvr)) as [v4 [-> [L4 [X4 Y4]]]]. cbn [bind]. vmove V X4.
    destruct (T5 cp vk N v4 debug L4 ltac:(cvr)) as [v5 [E5' [L5 X5]]]. rewrite perm_true in E5'. unfold comm_of, b_nv in E5'. cbn [b_poly b_sel tp_nv tp_id] in E5'. unfold comm_of, b_nv. rewrite E5'. cbn [bind]. fold (b_nv fx). vmove V X5.
    match goal with |- context [VFun (mle_fun ?m)] => destruct (T6 cp vk N v5 (mle_fun m) L5 ltac:(cvr)) as [v6 [-> [L6 [X6 Y6]]]]; [intros k; apply mle_fun_ok; exact Lds|] end. vmove V X6.
    vtake V L6 T7 as v7 L7 Y7. vtake V L7 T8 as v8 L8 Y8. vtake V L8 T9 as v9 L9 Y9. vtake V L9 T10 as v10 L10 Y10.
    pose proof (T11 cp vk v10 L10) as L11.
    destruct (T12 cp vk N v10 one_fun L11 ltac:(cvr) (one_fun_ok _)) as [v12 [-> [L12 [X12 Y12]]]]. vmove V X12.
    destruct (T13 cp vk N v12 debug L12 ltac:(cvr)) as [v13 [E13' [L13 X13]]]. vmove V X13.
    destruct (T14 cp vk N v13 debug L13 Cv) as [v14 [E14' [L14 X14]]]. vmove V X14.
    exists v14. split; [|split; [exact L14|exact V]]. unfold comm_of, b_nv in E13', E14'. cbn [b_poly b_sel tp_nv tp_id] in E13', E14'. unfold b_nv. rewrite E13'. rewrite (diffs_len l Hne). match goal with |- _ = (if ?b then _ else _) => destruct b end; [exact E14'|reflexivity].
Qed.
End P.
