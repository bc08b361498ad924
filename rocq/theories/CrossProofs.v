(** The cross product of two tables: the prover's columns, the verifier's, and the rows they hold. *)
From Coq Require Import String List Arith Lia Bool ZArith Znumtheory.
Import ListNotations.
From Verif Require Import Res ResLemmas Fp FSum SpecMle MleLemmas SpecPoly SpecTracker SpecIop SpecRel ModelMle ModelTranscript Pairing ModelKzg ModelProver ModelVerifier ModelAdvice ModelIop
  ProverHist VerifierHist CompileHist IopHist ProverProofs ProverExtra ProverStep CompileMain TmapLemmas HistExtra BagLemmas IopWorld IopVer IopSound CompSound CompSound2 CompSound3 CompClaims RelClaims SessProofs.
Local Open Scope list_scope.
Local Open Scope nat_scope.

Lemma Forall2_in_l : forall A B (R : A -> B -> Prop) l m x, Forall2 R l m -> In x l -> exists y, In y m /\ R x y.
Proof. intros A B R l m x H. induction H as [|a b l m H0 H IH]; intros Hx; [destruct Hx|]. destruct Hx as [<-|Hx]; [exists b; split; [left; reflexivity|exact H0]|]. destruct (IH Hx) as [y [Y1 Y2]]. exists y. split; [right; exact Y1|exact Y2]. Qed.

(** *** Columns *)
Section L.
Context {p : positive}.
Add Ring Fr : (@F_ring p).
Implicit Types (l sa sb : list (F p)).

Lemma repeat_each_len : forall m l, length (repeat_each m l) = m * length l.
Proof. intros m l. unfold repeat_each. induction l as [|x l IH]; cbn; [lia|]. rewrite app_length, repeat_length, IH. lia. Qed.
Lemma repeat_all_len : forall m l, length (repeat_all m l) = m * length l.
Proof. intros m l. unfold repeat_all. induction m as [|m IH]; cbn; [reflexivity|]. rewrite app_length, IH. reflexivity. Qed.
Lemma repeat_each_nth : forall m l q r, r < m -> nth (q * m + r) (repeat_each m l) F0 = nth q l F0.
Proof.
  intros m l. unfold repeat_each. induction l as [|x l IH]; intros q r Hr.
  - cbn. destruct q; destruct (_ + r); reflexivity.
  - cbn [flat_map]. destruct q as [|q].
    + rewrite app_nth1 by (rewrite repeat_length; lia). cbn [Nat.mul Nat.add nth]. rewrite (nth_indep _ F0 x) by (rewrite repeat_length; lia). apply nth_repeat.
    + rewrite app_nth2 by (rewrite repeat_length; nia). rewrite repeat_length. replace (S q * m + r - m) with (q * m + r) by nia. rewrite IH by exact Hr. reflexivity.
Qed.
Lemma repeat_all_nth : forall m l q r, q < m -> r < length l -> nth (q * length l + r) (repeat_all m l) F0 = nth r l F0.
Proof.
  intros m l. unfold repeat_all. induction m as [|m IH]; intros q r Hq Hr; [lia|]. cbn [repeat concat]. destruct q as [|q].
  - rewrite app_nth1 by (cbn; lia). reflexivity.
  - rewrite app_nth2 by nia. replace (S q * length l + r - length l) with (q * length l + r) by nia. apply IH; [lia|exact Hr].
Qed.
Lemma pow_nz : forall n, 2 ^ n <> 0. Proof. intros n. apply Nat.pow_nonzero. lia. Qed.
Lemma split_idx : forall j na nb, j < 2 ^ (na + nb) -> j / 2 ^ nb < 2 ^ na /\ j mod 2 ^ nb < 2 ^ nb /\ j = j / 2 ^ nb * 2 ^ nb + j mod 2 ^ nb.
Proof.
  intros j na nb H. split; [apply Nat.div_lt_upper_bound; [apply pow_nz|rewrite <- Nat.pow_add_r, Nat.add_comm; exact H]|]. split; [apply Nat.mod_upper_bound, pow_nz|].
  rewrite Nat.mul_comm. apply Nat.div_mod, pow_nz.
Qed.
Lemma front_is : forall n k l, length l = 2 ^ n -> front_table n k l = repeat_each (2 ^ k) l.
Proof.
  intros n k l H. unfold front_table. apply (nth_ext _ _ F0 F0); [rewrite map_length, seq_length, repeat_each_len, H, Nat.pow_add_r; lia|].
  intros j Hj. rewrite map_length, seq_length in Hj. rewrite (nth_map_seq (fun j => nth (j / 2 ^ k) l F0)) by exact Hj. destruct (split_idx j n k Hj) as [_ [B C]]. rewrite C at 2. rewrite repeat_each_nth by exact B. reflexivity.
Qed.
Lemma back_is : forall n k l, length l = 2 ^ n -> back_table n k l = repeat_all (2 ^ k) l.
Proof.
  intros n k l H. unfold back_table. apply (nth_ext _ _ F0 F0); [rewrite map_length, seq_length, repeat_all_len, H, Nat.pow_add_r; lia|].
  intros j Hj. rewrite map_length, seq_length in Hj. rewrite (nth_map_seq (fun j => nth (j mod 2 ^ n) l F0)) by exact Hj. rewrite Nat.add_comm in Hj. destruct (split_idx j k n Hj) as [A [B C]]. rewrite C at 2. rewrite <- H. rewrite repeat_all_nth; rewrite ?H; [reflexivity|exact A|exact B].
Qed.

(** The rows of the cross product, one for each pair of rows. *)
Lemma cross_row : forall na nb (ca cb : list (list (F p))), Forall (fun l => length l = 2 ^ na) ca -> Forall (fun l => length l = 2 ^ nb) cb ->
  forall i j, i < 2 ^ na -> j < 2 ^ nb -> row (cross_cols na nb ca cb) (i * 2 ^ nb + j) = row ca i ++ row cb j.
Proof.
  intros na nb ca cb Ha Hb i j Hi Hj. unfold row, cross_cols. rewrite map_app, !map_map. f_equal; apply map_ext_in; intros l Hl.
  - apply repeat_each_nth. exact Hj.
  - rewrite Forall_forall in Hb. specialize (Hb l Hl). rewrite <- Hb. apply repeat_all_nth; [exact Hi|rewrite Hb; exact Hj].
Qed.
Lemma both_nth' : forall s t k, length s = length t -> nth k (both (p:=p) s t) F0 = (nth k s F0 * nth k t F0)%F.
Proof.
  intros s t. unfold both. revert t. induction s as [|x s IH]; intros [|y t] k H; cbn in H; try discriminate; [destruct k; cbn; ring|]. destruct k as [|k]; [reflexivity|]. apply (IH t k). lia.
Qed.
Lemma cross_sel_len : forall na nb sa sb, length sa = 2 ^ na -> length sb = 2 ^ nb -> length (cross_sel na nb sa sb) = 2 ^ (na + nb).
Proof. intros na nb sa sb Ha Hb. unfold cross_sel, both. rewrite map_length, combine_length, repeat_each_len, repeat_all_len, Ha, Hb, Nat.pow_add_r. lia. Qed.
Lemma cross_sel_at : forall na nb sa sb, length sa = 2 ^ na -> length sb = 2 ^ nb -> forall i j, i < 2 ^ na -> j < 2 ^ nb ->
  nth (i * 2 ^ nb + j) (cross_sel na nb sa sb) F0 = (nth i sa F0 * nth j sb F0)%F.
Proof.
  intros na nb sa sb Ha Hb i j Hi Hj. unfold cross_sel. rewrite both_nth' by (rewrite repeat_each_len, repeat_all_len; lia). rewrite repeat_each_nth by exact Hj. rewrite <- Hb, repeat_all_nth; [reflexivity|exact Hi|lia].
Qed.
Lemma seq_blocks : forall m n, seq 0 (n * m) = flat_map (fun i => map (fun j => i * m + j) (seq 0 m)) (seq 0 n).
Proof.
  intros m n. induction n as [|n IH]; [reflexivity|]. rewrite seq_S, flat_map_app, <- IH. cbn [flat_map]. rewrite app_nil_r. replace (S n * m) with (n * m + m) by lia. rewrite seq_app. f_equal.
  cbn [Nat.add]. assert (Q : forall c b, seq (c + b) m = map (fun j => c + j) (seq b m)); [|rewrite <- (Q (n * m) 0); f_equal; lia].
  clear. intros c. induction m as [|m IH]; intros b; [reflexivity|]. cbn [seq map]. f_equal. rewrite <- (IH (S b)). f_equal. lia.
Qed.
Lemma filter_flat : forall A B (f : A -> list B) (g : B -> bool) (l : list A), filter g (flat_map f l) = flat_map (fun x => filter g (f x)) l.
Proof. intros A B f g l. induction l as [|x l IH]; [reflexivity|]. cbn. rewrite filter_app, IH. reflexivity. Qed.
Lemma filter_map' : forall A B (f : A -> B) (g : B -> bool) (l : list A), filter g (map f l) = map f (filter (fun x => g (f x)) l).
Proof. intros A B f g l. induction l as [|x l IH]; [reflexivity|]. cbn. destruct (g (f x)); cbn; rewrite IH; reflexivity. Qed.
Lemma cross_table_rows : prime (Zpos p) -> forall na nb (ca cb : list (list (F p))) sa sb,
  Forall (fun l => length l = 2 ^ na) ca -> Forall (fun l => length l = 2 ^ nb) cb -> length sa = 2 ^ na -> length sb = 2 ^ nb ->
  table_rows (cross_cols na nb ca cb) (cross_sel na nb sa sb) = cross_rows (table_rows ca sa) (table_rows cb sb).
Proof.
  intros Hp na nb ca cb sa sb Ca Cb Sa Sb. unfold table_rows, cross_rows. rewrite cross_sel_len, Sa, Sb, Nat.pow_add_r, seq_blocks, filter_flat by assumption.
  set (ok := fun k => negb (Feqb (nth k (cross_sel na nb sa sb) F0) F0)).
  assert (Hin : forall i, In i (seq 0 (2 ^ na)) -> i < 2 ^ na) by (intros i Hi; apply in_seq in Hi; lia).
  revert Hin. generalize (seq 0 (2 ^ na)) as is. induction is as [|i is IH]; intros Hin; [reflexivity|].
  cbn [flat_map]. rewrite map_app, IH by (intros k Hk; apply Hin; right; exact Hk). clear IH.
  assert (Hi : i < 2 ^ na) by (apply Hin; left; reflexivity).
  assert (Hok : forall j, In j (seq 0 (2 ^ nb)) -> ok (i * 2 ^ nb + j) = negb (Feqb (nth i sa F0) F0) && negb (Feqb (nth j sb F0) F0)).
  { intros j Hj. apply in_seq in Hj. unfold ok. rewrite cross_sel_at by (try assumption; lia). destruct (F_dec (nth i sa F0) F0) as [E1|E1].
    - rewrite E1. replace (F0 * nth j sb F0)%F with (@F0 p) by ring. rewrite Feqb_refl. reflexivity.
    - destruct (F_dec (nth j sb F0) F0) as [E2|E2].
      + rewrite E2. replace (nth i sa F0 * F0)%F with (@F0 p) by ring. rewrite Feqb_refl, andb_false_r. reflexivity.
      + rewrite (proj2 (Feqb_neq _ _) E1), (proj2 (Feqb_neq _ _) E2). cbn [negb andb]. rewrite (proj2 (Feqb_neq _ _)); [reflexivity|]. intros E3. apply (Fmul_integral Hp) in E3. tauto. }
  rewrite filter_map', (filter_ext_in _ _ _ Hok), map_map. cbn [filter]. destruct (negb (Feqb (nth i sa F0) F0)) eqn:Ei; cbn [andb].
  - cbn [map flat_map]. f_equal. rewrite map_map. apply map_ext_in. intros j Hj. apply filter_In in Hj. destruct Hj as [Hj _]. apply in_seq in Hj. apply cross_row; [exact Ca|exact Cb|exact Hi|lia].
  - replace (filter (fun _ => false) (seq 0 (2 ^ nb))) with (@nil nat) by (clear; induction (seq 0 (2 ^ nb)) as [|x r IH]; [reflexivity|exact IH]). reflexivity.
Qed.
Lemma cross_is : prime (Zpos p) -> forall na nb (ca cb : list (list (F p))) sa sb,
  Forall (fun l => length l = 2 ^ na) ca -> Forall (fun l => length l = 2 ^ nb) cb -> length sa = 2 ^ na -> length sb = 2 ^ nb ->
  let cols := cross_cols na nb ca cb in let sel := cross_sel na nb sa sb in
  length sel = 2 ^ (na + nb) /\
  (forall i j, i < 2 ^ na -> j < 2 ^ nb -> row cols (i * 2 ^ nb + j) = row ca i ++ row cb j /\ nth (i * 2 ^ nb + j) sel F0 = (nth i sa F0 * nth j sb F0)%F) /\
  table_rows cols sel = cross_rows (table_rows ca sa) (table_rows cb sb).
Proof.
  intros Hp na nb ca cb sa sb A B C D cols sel. split; [apply cross_sel_len; assumption|]. split; [|apply cross_table_rows; assumption].
  intros i j Hi Hj. split; [apply cross_row; assumption|apply cross_sel_at; assumption].
Qed.
End L.

(** *** The prover *)
Section P.
Context {p : positive} {E : pairing p}.
Notation comm := (gcar (PG1 E)).
Variable o : oracle p comm.
Variable pp : pparam E.
Variable K : nat.
Variable D : nat.
Hypothesis HD : 1 <= D.
Implicit Types w : wd (E:=E).

(** [n] fresh ids and nothing else. *)
Definition fresh_ids (s s' : ptrk E) (n : nat) : Prop := pt_next s' = pt_next s + n /\ pt_tr s' = pt_tr s /\ pt_comm s' = pt_comm s /\ pt_zc s' = pt_zc s /\ pt_sc s' = pt_sc s.
Lemma fresh_trans : forall a b c n m, fresh_ids a b n -> fresh_ids b c m -> fresh_ids a c (n + m).
Proof. intros a b c n m [A1 [A2 [A3 [A4 A5]]]] [B1 [B2 [B3 [B4 B5]]]]. repeat split; try congruence. lia. Qed.
Lemma fresh_0 : forall s, fresh_ids s s 0. Proof. intros s. repeat split. lia. Qed.
Lemma pushed_fresh : forall s s' hs hs' n f keep, pushed s s' hs hs' 0 n f keep -> fresh_ids s s' 1.
Proof. intros s s' hs hs' n f keep [_ [H1 [_ [H2 [H3 [[H4 H5] _]]]]]]. repeat split; try assumption; try congruence. lia. Qed.

Lemma has_index : forall w a l d, hasd w a l d -> exists i, nth_error (wh w) i = Some a /\ rnth (wh w) i = Ok a.
Proof. intros w a l d [i [H _]]. exists i. split; [exact H|]. unfold rnth. rewrite H. reflexivity. Qed.
Lemma front_fresh : forall w a l d k h s', good o pp K D w -> hasd w a l d -> tp_front (ws w) a k = Ok (h, s') -> fresh_ids (ws w) s' 1.
Proof.
  intros w a l d k h s' G Ha H. destruct (has_index w a l d Ha) as [i [I1 I2]].
  assert (St : pstep o (ws w, wh w) (OFront i k) = Ok (s', wh w ++ [h])) by (cbn [pstep]; rewrite I2; cbn [bind]; rewrite H; reflexivity).
  destruct (pstep_shape _ _ _ _ _ _ (prun_inv _ _ _ _ (g_run _ _ _ _ w G)) St) as [a' [_ [X _]]]. exact (pushed_fresh _ _ _ _ _ _ _ X).
Qed.
Lemma back_fresh : forall w a l d k h s', good o pp K D w -> hasd w a l d -> tp_back (ws w) a k = Ok (h, s') -> fresh_ids (ws w) s' 1.
Proof.
  intros w a l d k h s' G Ha H. destruct (has_index w a l d Ha) as [i [I1 I2]].
  assert (St : pstep o (ws w, wh w) (OBack i k) = Ok (s', wh w ++ [h])) by (cbn [pstep]; rewrite I2; cbn [bind]; rewrite H; reflexivity).
  destruct (pstep_shape _ _ _ _ _ _ (prun_inv _ _ _ _ (g_run _ _ _ _ w G)) St) as [a' [_ [X _]]]. exact (pushed_fresh _ _ _ _ _ _ _ X).
Qed.
Lemma mul_fresh : forall w a b l d l' d' h s', good o pp K D w -> hasd w a l d -> hasd w b l' d' -> tp_mul (ws w) a b = Ok (h, s') -> fresh_ids (ws w) s' 1.
Proof.
  intros w a b l d l' d' h s' G Ha Hb H. destruct (has_index w a l d Ha) as [i [I1 I2]]. destruct (has_index w b l' d' Hb) as [j [J1 J2]].
  assert (St : pstep o (ws w, wh w) (OMul i j) = Ok (s', wh w ++ [h])) by (cbn [pstep]; rewrite I2, J2; cbn [bind]; rewrite H; reflexivity).
  destruct (pstep_shape _ _ _ _ _ _ (prun_inv _ _ _ _ (g_run _ _ _ _ w G)) St) as [a' [b' [_ [_ [_ X]]]]]. exact (pushed_fresh _ _ _ _ _ _ _ X).
Qed.

Definition next_to w w' n : Prop := good o pp K D w' /\ le w w' /\ fresh_ids (ws w) (ws w') n.
Lemma next_trans : forall a b c n m, next_to a b n -> next_to b c m -> next_to a c (n + m).
Proof. intros a b c n m [A1 [A2 A3]] [B1 [B2 B3]]. split; [exact B1|]. split; [eapply le_trans; eassumption|eapply fresh_trans; eassumption]. Qed.

Definition holds w n (c : tpoly) (l : list (F p)) : Prop := hasd w c l D /\ tp_nv c = n.
Lemma holds_le : forall w w' n c l, good o pp K D w -> le w w' -> holds w n c l -> holds w' n c l.
Proof. intros w w' n c l G L [H1 H2]. split; [exact (hasd_le o pp K D _ _ _ _ _ G L H1)|exact H2]. Qed.

Lemma front_next : forall w c l n k, good o pp K D w -> holds w n c l -> n + k <= K ->
  exists w' h, tp_front (ws w) c k = Ok (h, ws w') /\ next_to w w' 1 /\ holds w' (n + k) h (repeat_each (2 ^ k) l) /\ tp_id h = pt_next (ws w) /\ hasd w' h (repeat_each (2 ^ k) l) 1.
Proof.
  intros w c l n k G [H1 <-] Hk. pose proof (hasd_len _ _ _ _ _ _ _ _ G H1) as Hl. destruct (call_front o pp K D w c k l D G H1 Hk HD) as [w' [h [E1 [[G' [L _]] [H [Hh _]]]]]].
  exists w', h. split; [exact E1|]. split; [split; [exact G'|]; split; [exact L|exact (front_fresh w c l D k h _ G H1 E1)]|]. rewrite front_is in H by exact Hl. subst h. split; [split; [|reflexivity]; eapply hasd_weak; [exact H|lia]|]. split; [reflexivity|exact H].
Qed.
Lemma back_next : forall w c l n k, good o pp K D w -> holds w n c l -> n + k <= K ->
  exists w' h, tp_back (ws w) c k = Ok (h, ws w') /\ next_to w w' 1 /\ holds w' (n + k) h (repeat_all (2 ^ k) l) /\ tp_id h = pt_next (ws w) /\ hasd w' h (repeat_all (2 ^ k) l) 1.
Proof.
  intros w c l n k G [H1 <-] Hk. pose proof (hasd_len _ _ _ _ _ _ _ _ G H1) as Hl. destruct (call_back o pp K D w c k l D G H1 Hk HD) as [w' [h [E1 [[G' [L _]] [H [Hh _]]]]]].
  exists w', h. split; [exact E1|]. split; [split; [exact G'|]; split; [exact L|exact (back_fresh w c l D k h _ G H1 E1)]|]. rewrite back_is in H by exact Hl. subst h. split; [split; [|reflexivity]; eapply hasd_weak; [exact H|lia]|]. split; [reflexivity|exact H].
Qed.
Lemma each_next : forall (f : ptrk E -> tpoly -> res (tpoly * ptrk E)) (g : list (F p) -> list (F p)) n m,
  (forall w c l, good o pp K D w -> holds w n c l -> exists w' h, f (ws w) c = Ok (h, ws w') /\ next_to w w' 1 /\ holds w' m h (g l) /\ tp_id h = pt_next (ws w)) ->
  forall cols ls w, good o pp K D w -> Forall2 (holds w n) cols ls ->
  exists w' cs, each_col f (ws w) cols = Ok (cs, ws w') /\ next_to w w' (length cols) /\ Forall2 (holds w' m) cs (map g ls) /\ map tp_id cs = seq (pt_next (ws w)) (length cols).
Proof.
  intros f g n m Hf cols. induction cols as [|c cols IH]; intros ls w G H; inversion H as [|c' l cs' ls' Hc Hr]; subst.
  - exists w, []. split; [reflexivity|]. split; [split; [exact G|]; split; [apply le_refl|apply fresh_0]|]. split; [constructor|reflexivity].
  - destruct (Hf w c l G Hc) as [w1 [h [E1 [N1 [H1 I1]]]]]. destruct N1 as [G1 [L1 F1']].
    assert (Hr' : Forall2 (holds w1 n) cols ls') by (clear -Hr G L1; induction Hr; constructor; [eapply holds_le; eassumption|assumption]).
    destruct (IH ls' w1 G1 Hr') as [w2 [cs [E2 [N2 [H2 I2]]]]]. exists w2, (h :: cs). cbn [each_col]. rewrite E1. cbn [bind]. rewrite E2. cbn [bind]. split; [reflexivity|]. destruct N2 as [G2 [L2 F2']].
    split; [split; [exact G2|]; split; [eapply le_trans; eassumption|]; change (length (c :: cols)) with (1 + length cols); eapply fresh_trans; eassumption|].
    split; [cbn [map]; constructor; [exact (holds_le _ _ _ _ _ G1 L2 H1)|exact H2]|]. cbn [map length seq]. rewrite I1, I2, (proj1 F1'), Nat.add_1_r. reflexivity.
Qed.

Lemma zipw_both : forall a b : list (F p), zipw Fmul a b = both a b. Proof. reflexivity. Qed.
Lemma cross_next : forall debug w a b ca cb sa sb, good o pp K D w -> 2 <= D -> t_nv a + t_nv b <= K ->
  Forall2 (holds w (t_nv a)) (t_cols a) ca -> Forall2 (holds w (t_nv b)) (t_cols b) cb -> holds w (t_nv a) (t_sel a) sa -> holds w (t_nv b) (t_sel b) sb ->
  let la := length (t_cols a) in let lb := length (t_cols b) in let n := pt_next (ws w) in
  exists w' t, cross_prove debug (ws w) a b = Ok (t, ws w') /\ next_to w w' (la + lb + 3) /\ t_nv t = t_nv a + t_nv b /\
    Forall2 (holds w' (t_nv t)) (t_cols t) (cross_cols (t_nv a) (t_nv b) ca cb) /\ holds w' (t_nv t) (t_sel t) (cross_sel (t_nv a) (t_nv b) sa sb) /\
    map tp_id (t_cols t) = seq n (la + lb) /\ tp_id (t_sel t) = n + la + lb + 2.
Proof.
  intros debug w a b ca cb sa sb G H2 Hk Ha Hb Hsa Hsb la lb n.
  assert (Mono : forall w1 w2 m cols ls, good o pp K D w1 -> le w1 w2 -> Forall2 (holds w1 m) cols ls -> Forall2 (holds w2 m) cols ls)
    by (clear; intros w1 w2 m cols ls G L H; induction H; constructor; [eapply holds_le; eassumption|assumption]).
  destruct (each_next (fun s c => tp_front s c (t_nv b)) (repeat_each (2 ^ t_nv b)) (t_nv a) (t_nv a + t_nv b)) with (cols := t_cols a) (ls := ca) (w := w) as [w1 [ca' [E1 [[G1 [L1 F1']] [H1 I1]]]]]; [|exact G|exact Ha|].
  { intros w0 c l G0 Hc. destruct (front_next w0 c l _ (t_nv b) G0 Hc Hk) as [x [y [A1 [A2 [A3 [A4 _]]]]]]. exists x, y. auto. }
  destruct (each_next (fun s c => tp_back s c (t_nv a)) (repeat_all (2 ^ t_nv a)) (t_nv b) (t_nv a + t_nv b)) with (cols := t_cols b) (ls := cb) (w := w1) as [w2 [cb' [E2 [[G2 [L2 F2']] [H2' I2]]]]];
    [|exact G1|exact (Mono _ _ _ _ _ G L1 Hb)|].
  { intros w0 c l G0 Hc. destruct (back_next w0 c l _ (t_nv a) G0 Hc ltac:(lia)) as [x [y [A1 [A2 [A3 [A4 _]]]]]]. exists x, y. rewrite Nat.add_comm. auto. }
  pose proof (le_trans _ _ _ L1 L2) as L02.
  destruct (front_next w2 (t_sel a) sa _ (t_nv b) G2 (holds_le _ _ _ _ _ G L02 Hsa) Hk) as [w3 [xa [E3 [[G3 [L3 F3']] [H3 [I3 D3]]]]]].
  pose proof (le_trans _ _ _ L02 L3) as L03.
  destruct (back_next w3 (t_sel b) sb _ (t_nv a) G3 (holds_le _ _ _ _ _ G L03 Hsb) ltac:(lia)) as [w4 [xb [E4 [[G4 [L4 F4']] [H4 [I4 D4]]]]]].
  assert (Hn : tp_nv xa = tp_nv xb) by (destruct H3 as [_ ->], H4 as [_ ->]; lia).
  pose proof (hasd_le _ _ _ _ _ _ _ _ _ G3 L4 D3) as D3'.
  destruct (call_mul o pp K D w4 xa xb _ _ 1 1 G4 D3' D4 Hn ltac:(lia)) as [w5 [xs [E5 [[G5 [L5 _]] [H5 [Hh _]]]]]].
  pose proof (mul_fresh w4 xa xb _ _ _ _ _ _ G4 D3' D4 E5) as F5'.
  assert (Hxs : tp_nv xs = t_nv a + t_nv b) by (subst xs; cbn; apply H3).
  assert (Hca : Forall2 (holds w5 (t_nv a + t_nv b)) (ca' ++ cb') (cross_cols (t_nv a) (t_nv b) ca cb)).
  { unfold cross_cols. apply Forall2_app; [apply (Mono w1); [exact G1| |exact H1]|apply (Mono w2); [exact G2| |exact H2']]; repeat (eapply le_trans; [eassumption|]); apply le_refl. }
  exists w5, (mkTable (ca' ++ cb') xs). unfold cross_prove. rewrite E1. cbn [bind]. rewrite E2. cbn [bind]. rewrite E3. cbn [bind]. rewrite E4. cbn [bind]. rewrite E5. cbn [bind].
  change (t_nv (mkTable (ca' ++ cb') xs)) with (tp_nv xs). cbn [t_cols t_sel]. rewrite Hxs. split.
  { unfold table_new. replace (forallb (fun c => tp_nv c =? tp_nv xs) (ca' ++ cb')) with true; [destruct debug; reflexivity|]. symmetry. apply forallb_forall. intros c Hc.
    destruct (Forall2_in_l _ _ _ _ _ _ Hca Hc) as [l [_ [_ Hl]]]. rewrite Hl, Hxs. apply Nat.eqb_refl. }
  split; [split; [exact G5|]; split; [repeat (eapply le_trans; [eassumption|]); apply le_refl|]|].
  { replace (la + lb + 3) with (la + (lb + (1 + (1 + 1)))) by lia. repeat (eapply fresh_trans; [eassumption|]). exact F5'. }
  split; [reflexivity|]. split; [exact Hca|]. split; [split; [|exact Hxs]; eapply hasd_weak; [exact H5|lia]|].
  destruct F1' as [P1 _]. destruct F2' as [P2 _]. destruct F3' as [P3 _]. destruct F4' as [P4 _]. split.
  - rewrite map_app, I1, I2, P1, seq_app. reflexivity.
  - subst xs. cbn [tp_id]. rewrite P4, P3, P2, P1. subst n la lb. cbn. lia.
Qed.
End P.

(** *** From a history of calls; the verifier's ids *)
Section H.
Context {p : positive} {E : pairing p}.
Notation comm := (gcar (PG1 E)).
Implicit Types (v : vtrk E).

Lemma track_ids : forall v e id v', track_virtual v e = (id, v') -> id = vt_next v /\ vt_next v' = S (vt_next v) /\ vsame v v'.
Proof. intros v e id v' H. unfold track_virtual, v_gen_id, put_virt in H. cbn in H. injection H as <- <-. repeat split. Qed.
Lemma vsame_trans : forall a b c : vtrk E, vsame a b -> vsame b c -> vsame a c.
Proof. intros a b c [A1 [A2 [A3 [A4 [A5 A6]]]]] [B1 [B2 [B3 [B4 [B5 B6]]]]]. repeat split; etransitivity; eassumption. Qed.
Lemma each_comm_ids : forall (f : nat -> vexp p) l v, let r := each_comm (fun v c => track_virtual v (f c)) v l in
  fst r = seq (vt_next v) (length l) /\ vt_next (snd r) = vt_next v + length l /\ vsame v (snd r).
Proof.
  intros f l. induction l as [|c l IH]; intros v; cbn [each_comm].
  - cbn. split; [reflexivity|]. split; [lia|]. repeat split.
  - destruct (track_virtual v (f c)) as [h v1] eqn:E1. unfold track_virtual, v_gen_id, put_virt in E1. cbn in E1. injection E1 as E1 E1'. specialize (IH v1). cbv zeta in IH. destruct (each_comm _ v1 l) as [hs v2].
    cbn [fst snd] in *. destruct IH as [A1 [A2 A3]]. subst v1 h. cbn in *. rewrite A1, A2. split; [reflexivity|]. split; [lia|]. destruct A3 as [B1 [B2 [B3 [B4 [B5 B6]]]]]. repeat split; assumption.
Qed.
Lemma cross_ids : forall v (a b : tablec), let na := length (tc_cols a) in let nb := length (tc_cols b) in let n := vt_next v in
  exists v', cross_verify v a b = (mkTablec (seq n (na + nb)) (n + na + nb + 2) (tc_nv a + tc_nv b), v') /\ vt_next v' = n + (na + nb + 3) /\ vsame v v'.
Proof.
  intros v a b na nb n. unfold cross_verify.
  pose proof (each_comm_ids (fun c => VFront c (tc_nv b)) (tc_cols a) v) as H1. cbv zeta in H1. change (fun v c => v_increase_nv_front v c (tc_nv b)) with (fun v c => track_virtual (E:=E) v (VFront c (tc_nv b))). destruct (each_comm _ v (tc_cols a)) as [ia v1]. cbn [fst snd] in H1. destruct H1 as [A1 [A2 A3]].
  pose proof (each_comm_ids (fun c => VBack c (tc_nv a)) (tc_cols b) v1) as H2. cbv zeta in H2. change (fun v c => v_increase_nv_back v c (tc_nv a)) with (fun v c => track_virtual (E:=E) v (VBack c (tc_nv a))). destruct (each_comm _ v1 (tc_cols b)) as [ib v2]. cbn [fst snd] in H2. destruct H2 as [B1 [B2 B3]].
  unfold v_increase_nv_front, v_increase_nv_back, mul_comms.
  destruct (track_virtual v2 _) as [xa v3] eqn:E3. apply track_ids in E3. destruct E3 as [C1 [C2 C3]].
  destruct (track_virtual v3 _) as [xb v4] eqn:E4. apply track_ids in E4. destruct E4 as [D1 [D2 D3]].
  destruct (track_virtual v4 _) as [xs v5] eqn:E5. apply track_ids in E5. destruct E5 as [F1' [F2' F3']].
  exists v5. split; [|split].
  - rewrite A1, B1, A2, <- seq_app, F1', D2, C2, B2, A2. f_equal. f_equal. subst n na nb. lia.
  - rewrite F2', D2, C2, B2, A2. subst n na nb. lia.
  - do 4 (eapply vsame_trans; [eassumption|]). exact F3'.
Qed.

Lemma cross_prover : forall (o : oracle p comm) pp ops s hs debug a b ca cb sa sb, prun o pp ops = Ok (s, hs) -> 1 <= commit_calls ops ->
  table_stands ops hs a ca sa -> table_stands ops hs b cb sb ->
  exists t s' more hs', cross_prove debug s a b = Ok (t, s') /\ prun o pp (ops ++ more) = Ok (s', hs ++ hs') /\
    t_nv t = t_nv a + t_nv b /\ table_stands (ops ++ more) (hs ++ hs') t (cross_cols (t_nv a) (t_nv b) ca cb) (cross_sel (t_nv a) (t_nv b) sa sb) /\
    pt_tr s' = pt_tr s /\ pt_comm s' = pt_comm s /\ pt_zc s' = pt_zc s /\ pt_sc s' = pt_sc s /\
    forall v, vt_next v = pt_next s -> exists v', cross_verify v (tcomm_of a) (tcomm_of b) = (tcomm_of t, v') /\ vt_next v' = pt_next s' /\
      vt_tr v' = vt_tr v /\ vt_mat v' = vt_mat v /\ vt_zc v' = vt_zc v /\ vt_sc v' = vt_sc v.
Proof.
  intros o pp ops s hs debug a b ca cb sa sb Hr Hc [A1 A2] [B1 B2].
  set (K := Nat.max (max_nv hs) (t_nv a + t_nv b)). set (D := list_max (degrees ops) + 2). set (w := mkW (E:=E) ops s hs []).
  assert (G : good o pp K D w).
  { constructor; cbn [w wo ws wh]; [exact Hr| | |exact Hc].
    - intros d Hd. pose proof (proj1 (list_max_le (degrees ops) _) (Nat.le_refl _)) as X. rewrite Forall_forall in X. specialize (X d Hd). unfold D. lia.
    - intros h Hh. pose proof (max_nv_ge hs h Hh). unfold K. lia. }
  assert (St : forall c l n, stands ops hs c l -> tp_nv c = n -> holds D w n c l).
  { intros c l n [i [I1 I2]] Hn. split; [|exact Hn]. exists i. split; [exact I1|]. split; [exact I2|]. cbn [w wo]. destruct (Nat.lt_ge_cases i (length (degrees ops))) as [Hi|Hi].
    - apply (g_deg _ _ _ _ w G). apply nth_In. exact Hi.
    - rewrite nth_overflow by exact Hi. unfold D. lia. }
  destruct (cross_next o pp K D ltac:(unfold D; lia) debug w a b ca cb sa sb G) as [w' [t [E1 [[G' [L F']] [Hn [Hcols [Hsel [I1 I2]]]]]]]].
  - unfold D. lia.
  - unfold K. lia.
  - eapply Forall2_imp'; [|exact A1]. cbv beta. intros c l [X Y]. apply St; assumption.
  - eapply Forall2_imp'; [|exact B1]. cbv beta. intros c l [X Y]. apply St; assumption.
  - apply St; [exact A2|reflexivity].
  - apply St; [exact B2|reflexivity].
  - cbn [w ws wo wh] in E1, F', I1, I2. destruct L as [more [hs' [L1 [L2 _]]]]. cbn [w wo wh] in L1, L2. pose proof (g_run _ _ _ _ _ G') as R. rewrite L1, L2 in R.
    exists t, (ws w'), more, hs'. split; [exact E1|]. split; [exact R|]. split; [exact Hn|].
    assert (Un : forall c l, holds D w' (t_nv t) c l -> stands (ops ++ more) (hs ++ hs') c l /\ tp_nv c = t_nv t).
    { intros c l [[i [X1 [X2 _]]] X3]. rewrite L2 in X1. rewrite L1 in X2. split; [exists i; auto|exact X3]. }
    split; [split; [eapply Forall2_imp'; [|exact Hcols]; cbv beta; exact Un|apply Un; exact Hsel]|].
    destruct F' as [F1' [F2' [F3' [F4' F5']]]]. do 4 (split; [assumption|]). intros v Hv.
    destruct (cross_ids v (tcomm_of a) (tcomm_of b)) as [v' [V1 [V2 V3]]]. cbn [tcomm_of tc_cols tc_nv tc_sel] in V1, V2. rewrite !map_length in V1, V2. exists v'. split.
    + rewrite V1. unfold tcomm_of. rewrite I1, I2, Hn, Hv. reflexivity.
    + rewrite V2, F1', Hv. destruct V3 as [X1 [X2 [X3 [X4 _]]]]. auto.
Qed.

(** *** What the verifier's columns are read as *)
Lemma front_reads : forall A M v id c k n l, mget (vt_virt v) id = Some (VFront c k) -> n + k <= M -> reads A (M - k) v c n l -> reads A M v id (n + k) (repeat_each (2 ^ k) l).
Proof.
  intros A M v id c k n l H Hn [R1 [R2 R3]]. split; [exact Hn|]. split; [rewrite repeat_each_len, R2, Nat.pow_add_r; lia|]. intros j Hj.
  replace (nth (j mod 2 ^ (n + k)) (repeat_each (2 ^ k) l) F0) with (nth ((j / 2 ^ k) mod 2 ^ n) l F0).
  - eapply me_front; [exact H|lia|]. apply R3. apply Nat.div_lt_upper_bound; [apply pow_nz|]. rewrite <- Nat.pow_add_r. replace (k + (M - k)) with M by lia. exact Hj.
  - rewrite Nat.add_comm, Nat.pow_add_r, Nat.mod_mul_r by apply pow_nz. rewrite Nat.add_comm, Nat.mul_comm. rewrite repeat_each_nth by (apply Nat.mod_upper_bound, pow_nz). reflexivity.
Qed.
Lemma back_reads : forall A M v id c k n l, mget (vt_virt v) id = Some (VBack c k) -> n + k <= M -> n <= k -> reads A k v c n l -> reads A M v id (n + k) (repeat_all (2 ^ k) l).
Proof.
  intros A M v id c k n l H Hn Hk [R1 [R2 R3]]. split; [exact Hn|]. split; [rewrite repeat_all_len, R2, Nat.pow_add_r; lia|]. intros j Hj.
  replace (nth (j mod 2 ^ (n + k)) (repeat_all (2 ^ k) l) F0) with (nth ((j mod 2 ^ k) mod 2 ^ n) l F0).
  - eapply me_back; [exact H|lia|]. apply R3. apply Nat.mod_upper_bound, pow_nz.
  - rewrite Nat.pow_add_r, Nat.mod_mul_r by apply pow_nz. rewrite Nat.add_comm, Nat.mul_comm. rewrite <- R2. rewrite repeat_all_nth by (rewrite ?R2; apply Nat.mod_upper_bound, pow_nz). rewrite R2. f_equal.
    replace k with (n + (k - n)) by lia. rewrite Nat.pow_add_r, Nat.mod_mul_r by apply pow_nz. rewrite Nat.add_comm, Nat.mul_comm, Nat.add_comm, Nat.mod_add by apply pow_nz. apply Nat.mod_mod, pow_nz.
Qed.
Lemma cross_reads : forall v, vready v ->
  forall a b t v', cross_verify v a b = (t, v') -> tc_nv b <= tc_nv a ->
  forall A ca cb sa sb, (forall M, tc_nv a <= M -> table_reads A M v a ca sa) -> (forall M, tc_nv b <= M -> table_reads A M v b cb sb) ->
  tc_nv t = tc_nv a + tc_nv b /\ forall M, tc_nv t <= M -> table_reads A M v' t (cross_cols (tc_nv a) (tc_nv b) ca cb) (cross_sel (tc_nv a) (tc_nv b) sa sb).
Proof.
  intros v R a b t v' H Hn A ca cb sa sb Ra Rb. unfold cross_verify in H.
  change (fun v c => v_increase_nv_front v c (tc_nv b)) with (fun v c => track_virtual (E:=E) v (VFront c (tc_nv b))) in H. change (fun v c => v_increase_nv_back v c (tc_nv a)) with (fun v c => track_virtual (E:=E) v (VBack c (tc_nv a))) in H.
  destruct (each_comm _ v (tc_cols a)) as [ia v1] eqn:E1. destruct (each_comm_go _ _ _ _ _ R E1) as [G1 M1]. clear E1.
  destruct (each_comm _ v1 (tc_cols b)) as [ib v2] eqn:E2. destruct (each_comm_go _ _ _ _ _ (y_ready _ _ _ G1) E2) as [G2 M2]. clear E2.
  unfold v_increase_nv_front, v_increase_nv_back, mul_comms in H.
  destruct (track_virtual v2 _) as [xa v3] eqn:E3. destruct (go_virtual _ _ _ _ (y_ready _ _ _ G2) E3) as [_ [_ [M3 G3]]]. clear E3.
  destruct (track_virtual v3 _) as [xb v4] eqn:E4. destruct (go_virtual _ _ _ _ (y_ready _ _ _ G3) E4) as [_ [_ [M4 G4]]]. clear E4.
  destruct (track_virtual v4 _) as [xs v5] eqn:E5. destruct (go_virtual _ _ _ _ (y_ready _ _ _ G4) E5) as [_ [_ [M5 G5]]]. clear E5. injection H as <- <-. cbn [tc_nv].
  split; [reflexivity|]. intros M HM. unfold table_reads. cbn [tc_cols tc_sel tc_nv].
  pose proof (y_sub _ _ _ G1) as S1. pose proof (y_sub _ _ _ G2) as S2. pose proof (y_sub _ _ _ G3) as S3. pose proof (y_sub _ _ _ G4) as S4. pose proof (y_sub _ _ _ G5) as S5.
  assert (S15 : sub_map (vt_virt v1) (vt_virt v5)) by (intros i e X; apply S5, S4, S3, S2, X). assert (S05 : sub_map (vt_virt v) (vt_virt v5)) by (intros i e X; apply S15, S1, X).
  assert (S25 : sub_map (vt_virt v2) (vt_virt v5)) by (intros i e X; apply S5, S4, S3, X).
  specialize (Ra (M - tc_nv b) ltac:(lia)). specialize (Rb (tc_nv a) ltac:(lia)). destruct Ra as [Ra1 Ra2]. destruct Rb as [Rb1 Rb2].
  assert (FA : forall id c l, mget (vt_virt v5) id = Some (VFront c (tc_nv b)) -> reads A (M - tc_nv b) v c (tc_nv a) l -> reads A M v5 id (tc_nv a + tc_nv b) (repeat_each (2 ^ tc_nv b) l)).
  { intros id c l X Y. eapply front_reads; [exact X|exact HM|]. eapply reads_sub; [exact S05|exact Y]. }
  assert (FB : forall id c l, mget (vt_virt v5) id = Some (VBack c (tc_nv a)) -> reads A (tc_nv a) v c (tc_nv b) l -> reads A M v5 id (tc_nv a + tc_nv b) (repeat_all (2 ^ tc_nv a) l)).
  { intros id c l X Y. rewrite (Nat.add_comm (tc_nv a)). eapply back_reads; [exact X|lia|exact Hn|]. eapply reads_sub; [exact S05|exact Y]. }
  split.
  - unfold cross_cols. apply Forall2_app.
    + clear -M1 Ra1 FA S15. revert ia M1. induction Ra1 as [|c l cs ls Hc Hr IH]; intros ia M1; inversion M1; subst; cbn [map]; constructor; [eapply FA; [apply S15; eassumption|exact Hc]|apply IH; assumption].
    + clear -M2 Rb1 FB S25. revert ib M2. induction Rb1 as [|c l cs ls Hc Hr IH]; intros ib M2; inversion M2; subst; cbn [map]; constructor; [eapply FB; [apply S25; eassumption|exact Hc]|apply IH; assumption].
  - unfold cross_sel. eapply reads_mul; [exact M5|eapply FA; [apply S5, S4; exact M3|exact Ra2]|eapply FB; [apply S5; exact M4|exact Rb2]].
Qed.

(** A committed column with more variables than the left table has: no value is left. *)
Lemma cross_no_value : forall v, vready v ->
  forall a b t v', cross_verify v a b = (t, v') -> tc_nv a < tc_nv b ->
  forall A i c, nth_error (tc_cols b) i = Some c -> mget (vt_virt v) c = Some (VQuery c) -> fst (A c) = tc_nv b ->
  exists id, nth_error (tc_cols t) (length (tc_cols a) + i) = Some id /\ forall M j y, ~ means A (vt_virt v') id M j y.
Proof.
  intros v R a b t v' H Hn A i c Hi Hc Hw. unfold cross_verify in H.
  change (fun v c => v_increase_nv_front v c (tc_nv b)) with (fun v c => track_virtual (E:=E) v (VFront c (tc_nv b))) in H. change (fun v c => v_increase_nv_back v c (tc_nv a)) with (fun v c => track_virtual (E:=E) v (VBack c (tc_nv a))) in H.
  destruct (each_comm _ v (tc_cols a)) as [ia v1] eqn:E1. destruct (each_comm_go _ _ _ _ _ R E1) as [G1 M1]. clear E1.
  destruct (each_comm _ v1 (tc_cols b)) as [ib v2] eqn:E2. destruct (each_comm_go _ _ _ _ _ (y_ready _ _ _ G1) E2) as [G2 M2]. clear E2.
  unfold v_increase_nv_front, v_increase_nv_back, mul_comms in H.
  destruct (track_virtual v2 _) as [xa v3] eqn:E3. destruct (go_virtual _ _ _ _ (y_ready _ _ _ G2) E3) as [_ [_ [M3 G3]]]. clear E3.
  destruct (track_virtual v3 _) as [xb v4] eqn:E4. destruct (go_virtual _ _ _ _ (y_ready _ _ _ G3) E4) as [_ [_ [M4 G4]]]. clear E4.
  destruct (track_virtual v4 _) as [xs v5] eqn:E5. destruct (go_virtual _ _ _ _ (y_ready _ _ _ G4) E5) as [_ [_ [M5 G5]]]. clear E5. injection H as <- <-. cbn [tc_cols].
  assert (L : length ia = length (tc_cols a)) by (clear -M1; induction M1; cbn; congruence).
  assert (X : exists id, nth_error ib i = Some id /\ mget (vt_virt v2) id = Some (VBack c (tc_nv a))).
  { clear -M2 Hi. revert i Hi. induction M2 as [|x y l m Hxy Hr IH]; intros [|i] Hi; cbn in Hi; try discriminate; [injection Hi as ->; exists y; auto|exact (IH i Hi)]. }
  destruct X as [id [X1 X2]]. exists id. split; [rewrite nth_error_app2 by lia; rewrite <- X1; f_equal; lia|].
  pose proof (y_sub _ _ _ G5 _ _ (y_sub _ _ _ G4 _ _ (y_sub _ _ _ G3 _ _ X2))) as X3.
  pose proof (y_sub _ _ _ G5 _ _ (y_sub _ _ _ G4 _ _ (y_sub _ _ _ G3 _ _ (y_sub _ _ _ G2 _ _ (y_sub _ _ _ G1 _ _ Hc))))) as Hc3.
  intros M j y Hm. inversion Hm; subst; rewrite X3 in *; try discriminate. match goal with X : Some (VBack _ _) = Some (VBack _ _) |- _ => injection X as <- <- end.
  match goal with X : means A _ c _ _ _ |- _ => inversion X; subst; rewrite Hc3 in *; try discriminate end. match goal with X : Some (VQuery _) = Some (VQuery _) |- _ => injection X as <- end. lia.
Qed.

(** *** The two helper functions of the protocol *)
Lemma mat_evals : forall (s : ptrk E) id a, mget (pt_mat s) id = Some a -> evaluations s id = Ok (evs (snd a), s).
Proof. intros s id a H. unfold evaluations, materialize_poly. destruct (length (pt_virt s)) as [|m]; cbn [materialize_loop]; rewrite H; cbn [bind]; rewrite H; reflexivity. Qed.
Lemma alias_tables : forall (o : oracle p comm) pp ops s hs a l k, prun o pp ops = Ok (s, hs) -> stands ops hs a l ->
  (exists h s', front_alias s a k = Ok (h, s') /\ tp_nv h = tp_nv a + k /\ exists s'', tp_evaluations s' h = Ok (repeat_each (2 ^ k) l, s'')) /\
  (exists h s', back_alias s a k = Ok (h, s') /\ tp_nv h = tp_nv a + k /\ exists s'', tp_evaluations s' h = Ok (repeat_all (2 ^ k) l, s'')).
Proof.
  intros o pp ops s hs a l k Hr [i [I1 I2]]. assert (Hi : i < length hs) by (apply nth_error_Some; congruence). destruct (hist_at o pp ops s hs i Hr Hi) as [_ [A2 [A3 [A4 _]]]]. rewrite (nth_error_nth _ _ dh I1) in *.
  pose proof (w_inv _ (prun_inv o pp ops _ Hr)) as Pi. cbn [fst] in Pi. destruct (evaluations_spec s (tp_id a) _ Pi A3) as [s1 [E1 _]]. rewrite A4, I2 in E1.
  assert (Hl : length l = 2 ^ tp_nv a) by (rewrite <- I2; unfold corners; rewrite map_length, seq_length, A2; reflexivity).
  assert (Q : forall m, length m = 2 ^ (tp_nv a + k) -> exists h s', (m' <- from_evaluations (tp_nv a + k) m ;; Ok (tp_track s1 m')) = Ok (h, s') /\ tp_nv h = tp_nv a + k /\ exists s'', tp_evaluations s' h = Ok (m, s'')).
  { intros m Hm. unfold from_evaluations. rewrite Hm, Nat.eqb_refl. cbn [rassert bind]. unfold tp_track, track_mat_poly, track_mat_arc_poly, new_arc, gen_id, put_mat. cbn. eexists _, _. split; [reflexivity|]. split; [reflexivity|].
    eexists. unfold tp_evaluations. rewrite (mat_evals _ _ (pt_addr s1, mkMle (tp_nv a + k) m)) by (cbn; apply mget_mput_same). reflexivity. }
  split; [unfold front_alias|unfold back_alias]; unfold tp_evaluations at 1; rewrite E1; cbn [bind]; apply Q.
  - change (length (repeat_each (2 ^ k) l) = 2 ^ (tp_nv a + k)). rewrite repeat_each_len, Hl, Nat.pow_add_r. lia.
  - change (length (repeat_all (2 ^ k) l) = 2 ^ (tp_nv a + k)). rewrite repeat_all_len, Hl, Nat.pow_add_r. lia.
Qed.
End H.

(** A committed column read as a table is read so over every larger cube. *)
Lemma committed_reads : forall {p : positive} {E : pairing p} A M (v : vtrk E) c n (l : list (F p)), mget (vt_virt v) c = Some (VQuery c) -> A c = (n, fun j => nth j l F0) -> length l = 2 ^ n -> n <= M -> reads A M v c n l.
Proof.
  intros p E A M v c n l H HA Hl HM. split; [exact HM|]. split; [exact Hl|]. intros j Hj. pose proof (me_query A (vt_virt v) c c M j H) as X. rewrite HA in X. cbn [fst snd] in X. apply X. exact HM.
Qed.
Lemma comm_step : forall {p : positive} {E : pairing p} (o : oracle p (gcar (PG1 E))) debug (v : vtrk E) hs c,
  exists v', vstep o debug (v, hs) (VOComm c) = Ok (v', hs ++ [vt_next v]) /\ vt_next v' = S (vt_next v) /\ vt_virt v' = mput (vt_virt v) (vt_next v) (VQuery (vt_next v)).
Proof. intros p E o debug v hs c. eexists. split; [reflexivity|]. split; reflexivity. Qed.
Lemma four_comms : forall {p : positive} {E : pairing p} (o : oracle p (gcar (PG1 E))) vk cp c0 c1 c2 c3, exists v,
  vrun o true vk cp [VOComm c0; VOComm c1; VOComm c2; VOComm c3] = Ok (v, [0; 1; 2; 3]) /\ forall i, i < 4 -> mget (vt_virt v) i = Some (VQuery i).
Proof.
  intros p E o vk cp c0 c1 c2 c3. unfold vrun. cbn [foldM].
  match goal with |- context [vstep o true (?v, []) _] => assert (X : vt_next v = 0 /\ vt_virt v = []) by (split; reflexivity); revert X; generalize v end. intros v0 [N0 M0].
  destruct (comm_step o true v0 [] c0) as [v1 [E1 [N1 M1]]]. rewrite E1. cbn [bind app]. destruct (comm_step o true v1 [vt_next v0] c1) as [v2 [E2 [N2 M2]]]. rewrite E2. cbn [bind app].
  destruct (comm_step o true v2 [vt_next v0; vt_next v1] c2) as [v3 [E3 [N3 M3]]]. rewrite E3. cbn [bind app]. destruct (comm_step o true v3 [vt_next v0; vt_next v1; vt_next v2] c3) as [v4 [E4 [N4 M4]]]. rewrite E4. cbn [bind app].
  exists v4. rewrite N3, N2, N1, N0 in *. split; [reflexivity|]. rewrite M4, M3, M2, M1, M0. intros i Hi. do 4 (destruct i as [|i]; [reflexivity|]). lia.
Qed.
