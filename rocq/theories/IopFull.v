(** Handles that are read over cubes of every size: arithmetic, added variables and the cross product on both sides. *)
From Coq Require Import String List Arith Lia Bool ZArith.
Import ListNotations.
From Verif Require Import Res ResLemmas Fp FSum SpecMle MleLemmas SpecPoly SpecTracker SpecIop SpecRel ModelMle ModelTranscript Pairing ModelKzg ModelProver ModelVerifier ModelAdvice ModelIop
  ProverHist VerifierHist CompileHist IopHist TmapLemmas ProverProofs HistExtra BagLemmas IopWorld IopRuns IopComp IopComp2 IopComp3 CrossProofs.
Local Open Scope list_scope.
Local Open Scope nat_scope.

Lemma ok_inj : forall A (a b : A), Ok a = Ok b -> a = b. Proof. intros A a b H. injection H. auto. Qed.

Section M.
Context {p : positive} {E : pairing p}.
Notation comm := (gcar (PG1 E)).
Implicit Types (w : wd (E:=E)) (v : vtrk E).
Add Ring Fq : (@F_ring p).
Variables (o : oracle p comm) (pp : pparam E) (K D : nat).
Notation good := (good o pp K D).
Notation step := (step o pp K D).
Notation gives := (gives o pp K D).
Notation called := (called o pp K D).

(** More handles of a world that are read everywhere. *)
Definition more w (fs : list (tpoly * list (F p))) : wd := mkW (wo w) (ws w) (wh w) (fs ++ wf w).
Definition hasf w (h : tpoly) (l : list (F p)) (d : nat) : Prop := hasd w h l d /\ In (h, l) (wf w).
Lemma more_good : forall w fs, good w -> good (more w fs).
Proof. intros w fs [A B C X]. constructor; assumption. Qed.
Lemma more_le : forall w w1 fs, le w w1 -> le w (more w1 fs).
Proof. intros w w1 fs [m [k [A1 [A2 [A3 [A4 [A5 A6]]]]]]]. exists m, k. cbn [more wo ws wh wf]. repeat (split; [assumption|]). apply incl_appr. exact A6. Qed.
Lemma more_step : forall w w1 fs ds P, step w w1 ds P -> step w (more w1 fs) ds P.
Proof. intros w w1 fs ds P [A1 [A2 [A3 A4]]]. split; [apply more_good; exact A1|]. split; [apply more_le; exact A2|]. split; assumption. Qed.
Lemma more_lk : forall cp vk w v fs, lk cp vk w v -> (forall h l, In (h, l) fs -> full (snd (fst cp)) v h l) -> lk cp vk (more w fs) v.
Proof. intros cp vk w v fs [A1 A2 A3 A4 A5 A6 A7 A8 A9 A10 A11] H. constructor; try assumption. cbn [more wf]. intros h l Hi. apply in_app_or in Hi. destruct Hi as [Hi|Hi]; auto. Qed.
Lemma hasf_le : forall w w' h l d, good w -> le w w' -> hasf w h l d -> hasf w' h l d.
Proof. intros w w' h l d G L [A B]. split; [exact (hasd_le o pp K D _ _ _ _ _ G L A)|apply (le_full _ _ L); exact B]. Qed.

(** A call that returns a new handle, whose expression on the verifier's side is read everywhere. *)
Definition reads_all (A : reading (p:=p)) (m : tmap (vexp p)) (id n : nat) (l : list (F p)) : Prop := forall M, n <= M -> forall j, means A m id M j (nth (j mod 2 ^ n) l F0).
Definition puts (q : nat) (e : vexp p) (put : vtrk E -> nat * vtrk E) : Prop :=
  forall v, fst (put v) = q + vt_next v /\ vt_next (snd (put v)) = S (q + vt_next v) /\ vsame v (snd (put v)) /\ vt_virt (snd (put v)) = mput (vt_virt v) (q + vt_next v) e.
Lemma full_called : forall w r q n l d e put, called w r q n l d -> puts q e put ->
  (forall cp vk v m id, lk cp vk w v -> (forall i x, mget (vt_virt v) i = Some x -> mget m i = Some x) -> mget m id = Some e -> reads_all (snd (fst cp)) m id n l) ->
  exists w1 h, gives w w1 r h [] True (fun _ v => Ok (put v)) (tp_id h) /\ hasf w1 h l d /\ tp_nv h = n.
Proof.
  intros w r q n l d e put [w1 [h [E1 [C1 [H1 [N1 T1]]]]]] Hput Hfit. exists (more w1 [(h, l)]), h. split; [|split; [split; [exact H1|left; reflexivity]|rewrite N1; reflexivity]].
  split; [exact E1|]. split; [apply more_step; apply callp_step; exact C1|]. intros cp vk N v debug L Cv. destruct (Hput v) as [P1 [P2 [P3 P4]]].
  assert (Hn : n <= snd cp). { destruct Cv as [_ [_ [X [<- _]]]]. assert (Q : In h (wh w1)) by (destruct H1 as [i [Hi _]]; eapply nth_error_In; exact Hi). specialize (X h Q). rewrite N1 in X. exact X. }
  destruct (T1 cp vk N v (snd (put v)) e L Cv) as [L1 [V1 Y1]]; [|exact P2|exact P3|exact P4|].
  { intros m Hm Hg j. apply (Hfit cp vk v m _ L Hm Hg (snd cp) Hn). }
  exists (snd (put v)). split; [destruct (put v) as [a b]; cbn [fst snd] in *; rewrite P1, N1, (k_next _ _ _ _ L); reflexivity|]. split; [|exact V1]. apply more_lk; [exact L1|].
  intros h' l' [Hi|[]]. injection Hi as <- <-. split; [rewrite N1; cbn [tp_nv]; exact (proj1 Y1)|]. rewrite N1. cbn [tp_nv tp_id]. rewrite <- (k_next _ _ _ _ L). apply (Hfit cp vk v _ _ L); [exact V1|]. rewrite P4. apply mget_mput_same.
Qed.
Lemma puts_virtual : forall e, puts 0 e (fun v => track_virtual v e). Proof. intros e v. repeat split. Qed.
Lemma puts_adds : forall a c, puts 1 (VAddS a c) (fun v => v_add_scalar v a c). Proof. intros a c v. repeat split. Qed.

(** What the expressions stand for. *)
Lemma all_of : forall cp vk w v m h l, lk cp vk w v -> In (h, l) (wf w) -> (forall i x, mget (vt_virt v) i = Some x -> mget m i = Some x) -> length l = 2 ^ tp_nv h /\ reads_all (snd (fst cp)) m (tp_id h) (tp_nv h) l.
Proof. intros cp vk w v m h l L Hi X. destruct (k_full _ _ _ _ L h l Hi) as [A B]. split; [exact A|]. intros M HM j. eapply means_ext; [exact X|apply B; exact HM]. Qed.
Lemma mod_lt' : forall j n (l : list (F p)), length l = 2 ^ n -> j mod 2 ^ n < length l.
Proof. intros j n l ->. apply Nat.mod_upper_bound. apply Nat.pow_nonzero. lia. Qed.
Section A.
Variables (w : wd (E:=E)) (a b : tpoly) (la lb : list (F p)) (da db : nat).
Hypothesis G : good w.
Hypothesis Ha : hasf w a la da.
Hypothesis Hb : hasf w b lb db.
Lemma full_add : tp_nv a = tp_nv b -> Nat.max da db <= D -> exists w1 h, gives w w1 (tp_add (ws w) a b) h [] True (fun _ v => Ok (add_comms v (tp_id a) (tp_id b))) (tp_id h) /\ hasf w1 h (zipw Fadd la lb) (Nat.max da db) /\ tp_nv h = tp_nv a.
Proof.
  intros Hn HD. apply (full_called w _ 0 _ _ _ (VAdd (tp_id a) (tp_id b)) _ (call_add o pp K D w a b la lb da db G (proj1 Ha) (proj1 Hb) Hn HD) (puts_virtual _)). intros cp vk v m id L X Hg M HM j.
  destruct (all_of _ _ _ _ m _ _ L (proj2 Ha) X) as [L1 R1], (all_of _ _ _ _ m _ _ L (proj2 Hb) X) as [L2 R2]. rewrite <- Hn in *. rewrite zipw_nth_lt by (apply mod_lt'; assumption). eapply me_add; [exact Hg|apply R1; exact HM|apply R2; exact HM].
Qed.
Lemma full_sub : tp_nv a = tp_nv b -> Nat.max da db <= D -> exists w1 h, gives w w1 (tp_sub (ws w) a b) h [] True (fun _ v => Ok (sub_comms v (tp_id a) (tp_id b))) (tp_id h) /\ hasf w1 h (zipw Fsub la lb) (Nat.max da db) /\ tp_nv h = tp_nv a.
Proof.
  intros Hn HD. apply (full_called w _ 0 _ _ _ (VSub (tp_id a) (tp_id b)) _ (call_sub o pp K D w a b la lb da db G (proj1 Ha) (proj1 Hb) Hn HD) (puts_virtual _)). intros cp vk v m id L X Hg M HM j.
  destruct (all_of _ _ _ _ m _ _ L (proj2 Ha) X) as [L1 R1], (all_of _ _ _ _ m _ _ L (proj2 Hb) X) as [L2 R2]. rewrite <- Hn in *. rewrite zipw_nth_lt by (apply mod_lt'; assumption). eapply me_sub; [exact Hg|apply R1; exact HM|apply R2; exact HM].
Qed.
Lemma full_mul : tp_nv a = tp_nv b -> da + db <= D -> exists w1 h, gives w w1 (tp_mul (ws w) a b) h [] True (fun _ v => Ok (mul_comms v (tp_id a) (tp_id b))) (tp_id h) /\ hasf w1 h (zipw Fmul la lb) (da + db) /\ tp_nv h = tp_nv a.
Proof.
  intros Hn HD. apply (full_called w _ 0 _ _ _ (VMul (tp_id a) (tp_id b)) _ (call_mul o pp K D w a b la lb da db G (proj1 Ha) (proj1 Hb) Hn HD) (puts_virtual _)). intros cp vk v m id L X Hg M HM j.
  destruct (all_of _ _ _ _ m _ _ L (proj2 Ha) X) as [L1 R1], (all_of _ _ _ _ m _ _ L (proj2 Hb) X) as [L2 R2]. rewrite <- Hn in *. rewrite zipw_nth_lt by (apply mod_lt'; assumption). eapply me_mul; [exact Hg|apply R1; exact HM|apply R2; exact HM].
Qed.
Lemma full_adds : forall c, da <= D -> exists w1 h, gives w w1 (tp_add_scalar (ws w) a c) h [] True (fun _ v => Ok (v_add_scalar v (tp_id a) c)) (tp_id h) /\ hasf w1 h (map (fun x => Fadd x c) la) da /\ tp_nv h = tp_nv a.
Proof.
  intros c HD. apply (full_called w _ 1 _ _ _ (VAddS (tp_id a) c) _ (call_adds o pp K D w a c la da G (proj1 Ha) HD) (puts_adds _ _)). intros cp vk v m id L X Hg M HM j.
  destruct (all_of _ _ _ _ m _ _ L (proj2 Ha) X) as [L1 R1]. rewrite map_nth_lt by (apply mod_lt'; assumption). eapply me_adds; [exact Hg|apply R1; exact HM].
Qed.
Lemma full_muls : forall c, da <= D -> exists w1 h, gives w w1 (tp_mul_scalar (ws w) a c) h [] True (fun _ v => Ok (v_mul_scalar v (tp_id a) c)) (tp_id h) /\ hasf w1 h (map (fun x => Fmul x c) la) da /\ tp_nv h = tp_nv a.
Proof.
  intros c HD. apply (full_called w _ 0 _ _ _ (VMulS (tp_id a) c) _ (call_muls o pp K D w a c la da G (proj1 Ha) HD) (puts_virtual _)). intros cp vk v m id L X Hg M HM j.
  destruct (all_of _ _ _ _ m _ _ L (proj2 Ha) X) as [L1 R1]. rewrite map_nth_lt by (apply mod_lt'; assumption). replace (nth (j mod 2 ^ tp_nv a) la F0 * c)%F with (c * nth (j mod 2 ^ tp_nv a) la F0)%F by ring. eapply me_muls; [exact Hg|apply R1; exact HM].
Qed.
Lemma full_front : forall k, tp_nv a + k <= K -> 1 <= D -> exists w1 h, gives w w1 (tp_front (ws w) a k) h [] True (fun _ v => Ok (v_increase_nv_front v (tp_id a) k)) (tp_id h) /\ hasf w1 h (repeat_each (2 ^ k) la) 1 /\ tp_nv h = tp_nv a + k.
Proof.
  intros k Hk HD. pose proof (hasd_len _ _ _ _ _ _ _ _ G (proj1 Ha)) as Hl. pose proof (call_front o pp K D w a k la da G (proj1 Ha) Hk HD) as C. rewrite front_is in C by exact Hl.
  apply (full_called w _ 0 _ _ _ (VFront (tp_id a) k) _ C (puts_virtual _)). intros cp vk v m id L X Hg M HM j.
  destruct (all_of _ _ _ _ m _ _ L (proj2 Ha) X) as [L1 R1]. eapply me_front; [exact Hg|lia|].
  replace (nth (j mod 2 ^ (tp_nv a + k)) (repeat_each (2 ^ k) la) F0) with (nth ((j / 2 ^ k) mod 2 ^ tp_nv a) la F0); [apply R1; lia|].
  rewrite Nat.add_comm, Nat.pow_add_r, Nat.mod_mul_r by (apply Nat.pow_nonzero; lia). rewrite Nat.add_comm, Nat.mul_comm. rewrite repeat_each_nth by (apply Nat.mod_upper_bound, Nat.pow_nonzero; lia). reflexivity.
Qed.
Lemma full_back : forall k, tp_nv a + k <= K -> tp_nv a <= k -> 1 <= D -> exists w1 h, gives w w1 (tp_back (ws w) a k) h [] True (fun _ v => Ok (v_increase_nv_back v (tp_id a) k)) (tp_id h) /\ hasf w1 h (repeat_all (2 ^ k) la) 1 /\ tp_nv h = tp_nv a + k.
Proof.
  intros k Hk Hle HD. pose proof (hasd_len _ _ _ _ _ _ _ _ G (proj1 Ha)) as Hl. pose proof (call_back o pp K D w a k la da G (proj1 Ha) Hk HD) as C. rewrite back_is in C by exact Hl.
  apply (full_called w _ 0 _ _ _ (VBack (tp_id a) k) _ C (puts_virtual _)). intros cp vk v m id L X Hg M HM j.
  destruct (all_of _ _ _ _ m _ _ L (proj2 Ha) X) as [L1 R1]. eapply me_back; [exact Hg|lia|]. set (n := tp_nv a) in *.
  replace (nth (j mod 2 ^ (n + k)) (repeat_all (2 ^ k) la) F0) with (nth ((j mod 2 ^ k) mod 2 ^ n) la F0); [apply R1; lia|].
  assert (Z : forall x, 2 ^ x <> 0) by (intros x; apply Nat.pow_nonzero; lia).
  rewrite Nat.pow_add_r, Nat.mod_mul_r by apply Z. rewrite Nat.add_comm, Nat.mul_comm. rewrite <- L1. rewrite repeat_all_nth by (rewrite ?L1; apply Nat.mod_upper_bound, Z). rewrite L1. f_equal.
  replace k with (n + (k - n)) by lia. rewrite Nat.pow_add_r, Nat.mod_mul_r by apply Z. rewrite Nat.add_comm, Nat.mul_comm, Nat.add_comm, Nat.mod_add by apply Z. apply Nat.mod_mod, Z.
Qed.
End A.

(** ** The cross product *)
Lemma cols_f_le : forall w w' d n cs ls, good w -> le w w' -> Forall2 (fun c l => hasf w c l d /\ tp_nv c = n) cs ls -> Forall2 (fun c l => hasf w' c l d /\ tp_nv c = n) cs ls.
Proof. intros w w' d n cs ls G L H. induction H as [|c l cs ls [A B] _ IH]; constructor; [split; [eapply hasf_le; eassumption|exact B]|exact IH]. Qed.
Lemma each_full : forall (f : ptrk E -> tpoly -> res (tpoly * ptrk E)) (fv : vtrk E -> nat -> nat * vtrk E) (g : list (F p) -> list (F p)) d n m,
  (forall w c l, good w -> hasf w c l d -> tp_nv c = n -> exists w1 h, gives w w1 (f (ws w) c) h [] True (fun _ v => Ok (fv v (tp_id c))) (tp_id h) /\ hasf w1 h (g l) 1 /\ tp_nv h = m) ->
  forall cols ls w, good w -> Forall2 (fun c l => hasf w c l d /\ tp_nv c = n) cols ls ->
  exists w1 hs, gives w w1 (each_col f (ws w) cols) hs [] True (fun _ v => Ok (each_comm fv v (map tp_id cols))) (map tp_id hs) /\ Forall2 (fun c l => hasf w1 c l 1 /\ tp_nv c = m) hs (map g ls).
Proof.
  intros f fv g d n m Hf cols. induction cols as [|c cols IH]; intros ls w G H; inversion H as [|c' l cs' ls' [Hc Hn] Hr]; subst.
  - exists w, []. split; [|constructor]. split; [reflexivity|]. split; [apply step_refl; exact G|]. intros cp vk N v debug L Cv. exists v. split; [reflexivity|]. split; [exact L|apply vext_refl].
  - destruct (Hf w c l G Hc eq_refl) as [w1 [h [[E1 [S1 T1]] [H1 N1]]]]. pose proof (step_good _ _ _ _ _ _ _ _ S1) as G1. pose proof (step_le _ _ _ _ _ _ _ _ S1) as L1.
    destruct (IH ls' w1 G1 (cols_f_le _ _ _ _ _ _ G L1 Hr)) as [w2 [hs [[E2 [S2 T2]] H2]]]. pose proof (step_le _ _ _ _ _ _ _ _ S2) as L2. exists w2, (h :: hs). split; [|cbn [map]; constructor; [split; [eapply hasf_le; eassumption|exact N1]|exact H2]].
    split; [cbn [each_col]; rewrite E1; cbn [bind]; rewrite E2; reflexivity|]. split; [eapply step_imp; [exact (step_trans _ _ _ _ _ _ _ _ _ _ _ S1 S2)|tauto]|].
    intros cp vk N v debug Lk Cv. pose proof (cov_le _ _ _ _ _ _ _ _ (step_good _ _ _ _ _ _ _ _ S1) L2 Cv) as Cv1.
    destruct (T1 cp vk N v debug Lk Cv1) as [v1 [X1 [K1 V1]]]. destruct (T2 cp vk N v1 debug K1 Cv) as [v2 [X2 [K2 V2]]]. exists v2. apply ok_inj in X1. apply ok_inj in X2. cbn [map each_comm]. rewrite X1, X2.
    split; [reflexivity|]. split; [exact K2|eapply vext_trans; eassumption].
Qed.
Lemma cross_at : forall dbg w a b ca cb sa sb d, good w -> 2 <= D -> t_nv a + t_nv b <= K -> t_nv b <= t_nv a ->
  Forall2 (fun c l => hasf w c l d /\ tp_nv c = t_nv a) (t_cols a) ca -> Forall2 (fun c l => hasf w c l d /\ tp_nv c = t_nv b) (t_cols b) cb -> hasf w (t_sel a) sa d -> hasf w (t_sel b) sb d ->
  exists w1 t, gives w w1 (cross_prove dbg (ws w) a b) t [] True (fun _ v => Ok (cross_verify v (tcomm_of a) (tcomm_of b))) (tcomm_of t) /\ t_nv t = t_nv a + t_nv b /\
    Forall2 (fun c l => hasf w1 c l 1 /\ tp_nv c = t_nv t) (t_cols t) (cross_cols (t_nv a) (t_nv b) ca cb) /\ hasf w1 (t_sel t) (cross_sel (t_nv a) (t_nv b) sa sb) 2.
Proof.
  intros dbg w a b ca cb sa sb d G HD Hk Hle Ha Hb Hsa Hsb.
  destruct (each_full (fun s c => tp_front s c (t_nv b)) (fun v c => v_increase_nv_front v c (t_nv b)) (repeat_each (2 ^ t_nv b)) d (t_nv a) (t_nv a + t_nv b)) with (cols := t_cols a) (ls := ca) (w := w) as [w1 [xa [[E1 [S1 T1]] C1]]]; [|exact G|exact Ha|].
  { intros w0 c l G0 Hc Hn. destruct (full_front w0 c l d G0 Hc (t_nv b) ltac:(lia) ltac:(lia)) as [w' [h [A1 [A2 A3]]]]. exists w', h. split; [exact A1|]. split; [exact A2|lia]. }
  pose proof (step_good _ _ _ _ _ _ _ _ S1) as G1. pose proof (step_le _ _ _ _ _ _ _ _ S1) as L1.
  destruct (each_full (fun s c => tp_back s c (t_nv a)) (fun v c => v_increase_nv_back v c (t_nv a)) (repeat_all (2 ^ t_nv a)) d (t_nv b) (t_nv a + t_nv b)) with (cols := t_cols b) (ls := cb) (w := w1) as [w2 [xb [[E2 [S2 T2]] C2]]]; [|exact G1|exact (cols_f_le _ _ _ _ _ _ G L1 Hb)|].
  { intros w0 c l G0 Hc Hn. destruct (full_back w0 c l d G0 Hc (t_nv a) ltac:(lia) ltac:(lia) ltac:(lia)) as [w' [h [A1 [A2 A3]]]]. exists w', h. split; [exact A1|]. split; [exact A2|lia]. }
  pose proof (step_good _ _ _ _ _ _ _ _ S2) as G2. pose proof (step_le _ _ _ _ _ _ _ _ S2) as L2. pose proof (le_trans _ _ _ L1 L2) as L02.
  destruct (full_front w2 (t_sel a) sa d G2 (hasf_le _ _ _ _ _ G L02 Hsa) (t_nv b) Hk ltac:(lia)) as [w3 [za [[E3 [S3 T3]] [C3 N3]]]]. pose proof (step_good _ _ _ _ _ _ _ _ S3) as G3. pose proof (step_le _ _ _ _ _ _ _ _ S3) as L3. pose proof (le_trans _ _ _ L02 L3) as L03.
  destruct (full_back w3 (t_sel b) sb d G3 (hasf_le _ _ _ _ _ G L03 Hsb) (t_nv a)) as [w4 [zb [[E4 [S4 T4]] [C4 N4]]]]; [unfold t_nv in *; lia|exact Hle|lia|].
  pose proof (step_good _ _ _ _ _ _ _ _ S4) as G4. pose proof (step_le _ _ _ _ _ _ _ _ S4) as L4. change (tp_nv (t_sel a)) with (t_nv a) in N3. change (tp_nv (t_sel b)) with (t_nv b) in N4.
  destruct (full_mul w4 za zb _ _ 1 1 G4 (hasf_le _ _ _ _ _ G3 L4 C3) C4) as [w5 [zs [[E5 [S5 T5]] [C5 N5]]]]; [lia|lia|]. pose proof (step_le _ _ _ _ _ _ _ _ S5) as L5.
  assert (Cc : Forall2 (fun c l => hasf w5 c l 1 /\ tp_nv c = t_nv a + t_nv b) (xa ++ xb) (cross_cols (t_nv a) (t_nv b) ca cb)).
  { unfold cross_cols. apply Forall2_app; [apply (cols_f_le w1); [exact G1| |exact C1]|apply (cols_f_le w2); [exact G2| |exact C2]]; repeat (eapply le_trans; [eassumption|]); apply le_refl. }
  exists w5, (mkTable (xa ++ xb) zs). cbn [t_cols t_sel]. change (t_nv (mkTable (xa ++ xb) zs)) with (tp_nv zs). assert (Nz : tp_nv zs = t_nv a + t_nv b) by lia. split; [|split; [exact Nz|split; [rewrite Nz; exact Cc|exact C5]]].
  split.
  { unfold cross_prove. rewrite E1. cbn [bind]. rewrite E2. cbn [bind]. rewrite E3. cbn [bind]. rewrite E4. cbn [bind]. rewrite E5. cbn [bind].
    unfold table_new. replace (forallb (fun c => tp_nv c =? tp_nv zs) (xa ++ xb)) with true; [destruct dbg; reflexivity|]. symmetry. apply forallb_forall. intros c Hc.
    destruct (Forall2_in_l _ _ _ _ _ _ Cc Hc) as [l [_ [_ Hl]]]. rewrite Hl, Nz. apply Nat.eqb_refl. }
  split; [eapply step_imp; [exact (step_trans _ _ _ _ _ _ _ _ _ _ _ S1 (step_trans _ _ _ _ _ _ _ _ _ _ _ S2 (step_trans _ _ _ _ _ _ _ _ _ _ _ S3 (step_trans _ _ _ _ _ _ _ _ _ _ _ S4 S5))))|tauto]|].
  intros cp vk N v debug Lk Cv.
  pose proof (cov_le _ _ _ _ _ _ _ _ G4 L5 Cv) as Cv4. pose proof (cov_le _ _ _ _ _ _ _ _ G3 L4 Cv4) as Cv3. pose proof (cov_le _ _ _ _ _ _ _ _ G2 L3 Cv3) as Cv2. pose proof (cov_le _ _ _ _ _ _ _ _ G1 L2 Cv2) as Cv1.
  destruct (T1 cp vk N v debug Lk Cv1) as [v1 [X1 [K1 V1]]]. destruct (T2 cp vk N v1 debug K1 Cv2) as [v2 [X2 [K2 V2]]]. destruct (T3 cp vk N v2 debug K2 Cv3) as [v3 [X3 [K3 V3]]]. destruct (T4 cp vk N v3 debug K3 Cv4) as [v4 [X4 [K4 V4]]]. destruct (T5 cp vk N v4 debug K4 Cv) as [v5 [X5 [K5 V5]]].
  apply ok_inj in X1. apply ok_inj in X2. apply ok_inj in X3. apply ok_inj in X4. apply ok_inj in X5. exists v5. split; [|split; [exact K5|repeat (eapply vext_trans; [eassumption|]); apply vext_refl]].
  unfold cross_verify. cbn [tcomm_of tc_cols tc_sel tc_nv]. rewrite X1, X2, X3, X4, X5. f_equal. f_equal. unfold tcomm_of. cbn [t_cols t_sel]. rewrite map_app. f_equal. symmetry. exact Nz.
Qed.
End M.
