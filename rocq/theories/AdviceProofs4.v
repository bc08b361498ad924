(** The left/middle/right split of two sorted bags. *)
From Coq Require Import List Arith Lia Bool ZArith Znumtheory Permutation Sorted.
Import ListNotations.
From Verif Require Import Res ResLemmas Fp FSum SpecMle MleLemmas SpecPoly PolyLemmas SpecIop SpecRel ModelMle ModelAdvice IopBasic LogDeriv BagLemmas AdviceProofs AdviceProofs2 AdviceProofs3.
Local Open Scope list_scope.
Local Open Scope nat_scope.

Section A.
Context {p : positive}.
Notation F := (F p).
Add Ring Fr : (@F_ring p).
Implicit Types (l sl a b : list F) (x : F).


Lemma selected_rows : forall l sl, selected l sl = rows l sl.
Proof. induction l as [|a l IH]; intros [|s sl]; try reflexivity. cbn [selected]. rewrite rows_cons, IH. destruct (Feqb s F0); reflexivity. Qed.
Lemma first_tail : forall x l s sl, sorted_first (x :: l) (s :: sl) -> sorted_first l sl.
Proof. intros x l s sl H i j Hij Hj Hs. apply (H (S i) (S j)); cbn [length nth]; [lia|lia|exact Hs]. Qed.
Lemma first_none : forall l sl, length sl = length l -> (forall j, j < length l -> nth j sl F0 = F0) -> rows l sl = [].
Proof.
  induction l as [|a l IH]; intros [|s sl] L H; cbn in L; try discriminate; [reflexivity|]. rewrite rows_cons. pose proof (H 0 ltac:(cbn; lia)) as H0. cbn in H0. rewrite H0, Feqb_refl. apply IH; [lia|]. intros j Hj. apply (H (S j)). cbn. lia.
Qed.
Lemma first_rows : forall l sl, length sl = length l -> sorted_first l sl -> rows l sl = firstn (length (rows l sl)) l.
Proof.
  induction l as [|a l IH]; intros [|s sl] L H; cbn in L; try discriminate; [reflexivity|]. rewrite rows_cons. destruct (Feqb s F0) eqn:Q.
  - rewrite (first_none l sl); [reflexivity|lia|]. intros j Hj. apply Feqb_eq in Q. destruct (F_dec (nth j sl F0) F0) as [D|D]; [exact D|exfalso]. destruct (H 0 (S j) ltac:(lia) ltac:(cbn; lia) D) as [H1 _]. cbn in H1. contradiction.
  - cbn [app length firstn]. f_equal. apply IH; [lia|]. eapply first_tail. exact H.
Qed.
Lemma first_skip : forall c l sl, length sl = length l -> sorted_first l sl -> rows (skipn c l) (skipn c sl) = skipn c (rows l sl).
Proof.
  induction c as [|c IH]; intros l sl L H; [reflexivity|]. destruct l as [|a l], sl as [|s sl]; cbn in L; try discriminate; [reflexivity|]. cbn [skipn]. rewrite rows_cons. destruct (Feqb s F0) eqn:Q.
  - assert (Hn : rows l sl = []). { apply first_none; [lia|]. intros j Hj. apply Feqb_eq in Q. destruct (F_dec (nth j sl F0) F0) as [D|D]; [exact D|exfalso]. destruct (H 0 (S j) ltac:(lia) ltac:(cbn; lia) D) as [H1 _]. cbn in H1. contradiction. }
    cbn [app]. rewrite IH by (try lia; eapply first_tail; exact H). rewrite Hn. destruct c; reflexivity.
  - cbn [app skipn]. apply IH; [lia|]. eapply first_tail. exact H.
Qed.
Lemma first_sorted : forall l sl i j, length sl = length l -> sorted_first l sl -> i < j -> j < length (rows l sl) -> (val (nth i l F0) <= val (nth j l F0))%Z.
Proof.
  intros l sl i j L H Hij Hj. assert (Hs : nth j sl F0 <> F0).
  { clear i Hij. revert sl j L H Hj. induction l as [|a l IH]; intros [|s sl] j L H Hj; cbn in L; try discriminate; [cbn in Hj; lia|]. rewrite rows_cons, app_length in Hj. destruct (Feqb s F0) eqn:Q.
    - cbn [length Nat.add] in Hj. exfalso. rewrite (first_none l sl) in Hj; [cbn in Hj; lia|lia|]. intros k Hk. apply Feqb_eq in Q. destruct (F_dec (nth k sl F0) F0) as [D|D]; [exact D|exfalso]. destruct (H 0 (S k) ltac:(lia) ltac:(cbn; lia) D) as [H1 _]. cbn in H1. contradiction.
    - destruct j as [|j]; cbn [nth]; [apply Feqb_neq; exact Q|]. apply IH; [lia|eapply first_tail; exact H|cbn [length] in Hj; lia]. }
  apply (H i j Hij); [|exact Hs]. pose proof (rows_length l sl). lia.
Qed.

Lemma take_run_ok : forall fuel (e : list F) bound c x acc, bound <= length e -> c <= bound -> bound - c < fuel ->
  exists c', take_run fuel e bound c x acc = Ok (c', acc ++ repeat x (c' - c)) /\ c <= c' <= bound /\ (forall i, c <= i < c' -> nth i e F0 = x) /\ (c' < bound -> nth c' e F0 <> x).
Proof.
  induction fuel as [|fuel IH]; intros e bound c x acc Hb Hc Hf; [lia|]. cbn [take_run]. destruct (Nat.ltb_spec c bound) as [Q|Q].
  - rewrite (rnth_ok _ e c F0) by lia. cbn [bind]. destruct (Feqb (nth c e F0) x) eqn:Qx.
    + apply Feqb_eq in Qx. destruct (IH e bound (S c) x (acc ++ [nth c e F0]) Hb ltac:(lia) ltac:(lia)) as [c' [E1 [E2 [E3 E4]]]]. exists c'. rewrite E1. replace (c' - c) with (S (c' - S c)) by lia. cbn [repeat]. rewrite <- app_assoc, Qx. cbn [app].
      split; [reflexivity|]. split; [lia|]. split; [|exact E4]. intros i Hi. destruct (Nat.eq_dec i c) as [->|D]; [exact Qx|apply E3; lia].
    + apply Feqb_neq in Qx. exists c. rewrite Nat.sub_diag. cbn [repeat]. rewrite app_nil_r. split; [reflexivity|]. split; [lia|]. split; [intros; lia|intros _; exact Qx].
  - exists c. rewrite Nat.sub_diag. cbn [repeat]. rewrite app_nil_r. split; [reflexivity|]. split; [lia|]. split; [intros; lia|intros; lia].
Qed.
Lemma firstn_run : forall k l c x, c + k <= length l -> (forall i, c <= i < c + k -> nth i l F0 = x) -> firstn (c + k) l = firstn c l ++ repeat x k.
Proof.
  induction k as [|k IH]; intros l c x L H; [rewrite Nat.add_0_r, app_nil_r; reflexivity|]. rewrite Nat.add_succ_r, (firstn_snoc _ l (c + k) F0) by lia. rewrite (IH l c x) by (try lia; intros; apply H; lia). rewrite (H (c + k)) by lia. rewrite <- app_assoc. f_equal. symmetry. apply repeat_cons.
Qed.
Lemma In_firstn : forall k l x, k <= length l -> (In x (firstn k l) <-> exists i, i < k /\ nth i l F0 = x).
Proof.
  intros k l x Hk. split.
  - intros H. apply (In_nth _ _ F0) in H. destruct H as [i [Hi Hx]]. rewrite firstn_length in Hi. exists i. split; [lia|]. rewrite <- Hx. clear - Hi. revert i l Hi. induction k as [|k IH]; intros i l Hi; [lia|]. destruct l as [|y l]; [destruct i; reflexivity|]. destruct i as [|i]; [reflexivity|]. cbn. apply IH. cbn in Hi. lia.
  - intros [i [Hi <-]]. replace (nth i l F0) with (nth i (firstn k l) F0); [apply nth_In; rewrite firstn_length; lia|]. clear Hk. revert i l Hi. induction k as [|k IH]; intros i l Hi; [lia|]. destruct l as [|y l]; [destruct i; reflexivity|]. destruct i as [|i]; [reflexivity|]. cbn. apply IH. lia.
Qed.

Lemma nth_firstn_lt : forall k l i, i < k -> nth i (firstn k l) F0 = nth i l F0.
Proof. induction k as [|k IH]; intros l i H; [lia|]. destruct l as [|y l]; [destruct i; reflexivity|]. destruct i as [|i]; [reflexivity|]. cbn. apply IH. lia. Qed.
Lemma nth_skip : forall k l i, nth i (skipn k l) F0 = nth (k + i) l F0.
Proof. induction k as [|k IH]; intros l i; [reflexivity|]. destruct l as [|y l]; [destruct i; reflexivity|]. cbn. apply IH. Qed.

Section Split.
Variables a b : list F.
Variables na nb : nat.
Hypothesis Ha : na <= length a.
Hypothesis Hb : nb <= length b.
Hypothesis Sa : forall i j, i < j -> j < na -> (val (nth i a F0) <= val (nth j a F0))%Z.
Hypothesis Sb : forall i j, i < j -> j < nb -> (val (nth i b F0) <= val (nth j b F0))%Z.

Record linv (s : @lmr p) : Prop := {
  li_a : lm_a s <= na;
  li_b : lm_b s <= nb;
  li_pa : Permutation (firstn (lm_a s) a) (lm_l s ++ lm_ma s);
  li_pb : Permutation (firstn (lm_b s) b) (lm_mb s ++ lm_r s);
  li_ab : forall i j, i < lm_a s -> lm_b s <= j -> j < nb -> (val (nth i a F0) < val (nth j b F0))%Z;
  li_ba : forall i j, i < lm_b s -> lm_a s <= j -> j < na -> (val (nth i b F0) < val (nth j a F0))%Z;
  li_l : forall x, In x (lm_l s) -> ~ In x (firstn nb b);
  li_r : forall x, In x (lm_r s) -> ~ In x (firstn na a);
  li_ma : forall x, In x (lm_ma s) -> In x (firstn nb b);
  li_mb : forall x, In x (lm_mb s) -> In x (firstn na a) }.
Lemma linv0 : linv (mkLmr 0 0 [] [] [] []).
Proof. constructor; cbn; try lia; try constructor; try contradiction; intros; lia. Qed.
Lemma val_ne : forall x y : F, x <> y -> (val x < val y)%Z \/ (val y < val x)%Z.
Proof. intros x y H. destruct (Z.lt_trichotomy (val x) (val y)) as [D|[D|D]]; auto. apply val_inj in D. contradiction. Qed.
Lemma le_a : forall i j, i <= j -> j < na -> (val (nth i a F0) <= val (nth j a F0))%Z.
Proof. intros i j H1 H2. destruct (Nat.eq_dec i j) as [->|D]; [lia|apply Sa; lia]. Qed.
Lemma le_b : forall i j, i <= j -> j < nb -> (val (nth i b F0) <= val (nth j b F0))%Z.
Proof. intros i j H1 H2. destruct (Nat.eq_dec i j) as [->|D]; [lia|apply Sb; lia]. Qed.
Lemma lmr_loop_ok : forall fuel s, linv s -> (na - lm_a s) + (nb - lm_b s) < fuel ->
  exists s', lmr_loop fuel a b na nb s = Ok s' /\ linv s' /\ (lm_a s' = na \/ lm_b s' = nb).
Proof.
  induction fuel as [|fuel IH]; intros s I Hf; [lia|]. cbn [lmr_loop]. destruct (Nat.ltb_spec (lm_a s) na) as [Q1|Q1], (Nat.ltb_spec (lm_b s) nb) as [Q2|Q2]; cbn [andb];
    try (exists s; split; [reflexivity|]; split; [exact I|]; destruct I; lia).
  rewrite (rnth_ok _ a (lm_a s) F0), (rnth_ok _ b (lm_b s) F0) by lia. cbn [bind]. set (x := nth (lm_a s) a F0). set (y := nth (lm_b s) b F0). unfold Fltb. destruct I. destruct (Z.ltb_spec (val x) (val y)) as [D1|D1]; [|destruct (Z.ltb_spec (val y) (val x)) as [D2|D2]].
  - apply IH; [|cbn [lm_a lm_b]; lia]. constructor; cbn [lm_a lm_b lm_l lm_ma lm_mb lm_r]; auto.
    + rewrite (firstn_snoc _ a (lm_a s) F0) by lia. rewrite li_pa0, <- !app_assoc. apply Permutation_app_head. apply Permutation_app_comm.
    + intros i j Hi Hj Hn. destruct (Nat.eq_dec i (lm_a s)) as [->|D]; [|apply li_ab0; lia]. pose proof (le_b (lm_b s) j Hj Hn). fold x in H |- *; fold y in H |- *. lia.
    + intros i j Hi Hj Hn. apply li_ba0; lia.
    + intros z Hz. rewrite in_app_iff in Hz. destruct Hz as [Hz|[<-|[]]]; [apply li_l0; exact Hz|]. rewrite In_firstn by exact Hb. intros [i [Hi E]]. destruct (Nat.lt_ge_cases i (lm_b s)) as [G|G].
      * pose proof (li_ba0 i (lm_a s) G ltac:(lia) Q1). fold x in H. rewrite E in H. lia.
      * pose proof (le_b (lm_b s) i G Hi). rewrite E in H. fold y in H. lia.
  - apply IH; [|cbn [lm_a lm_b]; lia]. constructor; cbn [lm_a lm_b lm_l lm_ma lm_mb lm_r]; auto.
    + rewrite (firstn_snoc _ b (lm_b s) F0) by lia. rewrite li_pb0, <- !app_assoc. reflexivity.
    + intros i j Hi Hj Hn. apply li_ab0; lia.
    + intros i j Hi Hj Hn. destruct (Nat.eq_dec i (lm_b s)) as [->|D]; [|apply li_ba0; lia]. pose proof (le_a (lm_a s) j Hj Hn). fold x in H |- *; fold y in H |- *. lia.
    + intros z Hz. rewrite in_app_iff in Hz. destruct Hz as [Hz|[<-|[]]]; [apply li_r0; exact Hz|]. rewrite In_firstn by exact Ha. intros [i [Hi E]]. destruct (Nat.lt_ge_cases i (lm_a s)) as [G|G].
      * pose proof (li_ab0 i (lm_b s) G ltac:(lia) Q2). fold y in H. rewrite E in H. lia.
      * pose proof (le_a (lm_a s) i G Hi). rewrite E in H. fold x in H. lia.
  - assert (Exy : x = y) by (apply val_inj; lia).
    destruct (take_run_ok (S na) a na (lm_a s) x (lm_ma s) Ha ltac:(lia) ltac:(lia)) as [ca [A1 [A2 [A3 A4]]]]. destruct (take_run_ok (S nb) b nb (lm_b s) x (lm_mb s) Hb ltac:(lia) ltac:(lia)) as [cb [B1 [B2 [B3 B4]]]].
    assert (Ga : lm_a s < ca). { destruct (Nat.eq_dec ca (lm_a s)) as [D|D]; [|lia]. rewrite D in A4. exfalso. apply A4; [exact Q1|reflexivity]. }
    assert (Gb : lm_b s < cb). { destruct (Nat.eq_dec cb (lm_b s)) as [D|D]; [|lia]. rewrite D in B4. exfalso. apply B4; [exact Q2|symmetry; exact Exy]. }
    rewrite A1. cbn [bind]. rewrite B1. cbn [bind]. apply IH; [|cbn [lm_a lm_b]; lia].
    assert (Xa : forall j, ca <= j -> j < na -> (val x < val (nth j a F0))%Z). { intros j Hj Hn. pose proof (le_a ca j Hj Hn). pose proof (A4 ltac:(lia)) as N. destruct (val_ne _ _ N) as [D|D]; [|lia]. pose proof (le_a (lm_a s) ca ltac:(lia) ltac:(lia)). fold x in H0. lia. }
    assert (Xb : forall j, cb <= j -> j < nb -> (val x < val (nth j b F0))%Z). { intros j Hj Hn. pose proof (le_b cb j Hj Hn). pose proof (B4 ltac:(lia)) as N. destruct (val_ne _ _ N) as [D|D]; [|lia]. pose proof (le_b (lm_b s) cb ltac:(lia) ltac:(lia)). fold y in H0. rewrite <- Exy in H0. lia. }
    constructor; cbn [lm_a lm_b lm_l lm_ma lm_mb lm_r]; auto; try lia.
    + replace ca with (lm_a s + (ca - lm_a s)) at 1 by lia. rewrite (firstn_run _ a (lm_a s) x) by (try lia; intros; apply A3; lia). rewrite li_pa0, <- app_assoc. reflexivity.
    + replace cb with (lm_b s + (cb - lm_b s)) at 1 by lia. rewrite (firstn_run _ b (lm_b s) x) by (try lia; intros; apply B3; lia). rewrite li_pb0, <- !app_assoc. apply Permutation_app_head. apply Permutation_app_comm.
    + intros i j Hi Hj Hn. destruct (Nat.lt_ge_cases i (lm_a s)) as [G|G]; [apply li_ab0; lia|]. rewrite (A3 i) by lia. apply Xb; lia.
    + intros i j Hi Hj Hn. destruct (Nat.lt_ge_cases i (lm_b s)) as [G|G]; [apply li_ba0; lia|]. rewrite (B3 i) by lia. apply Xa; lia.
    + intros z Hz. rewrite in_app_iff in Hz. destruct Hz as [Hz|Hz]; [apply li_ma0; exact Hz|]. rewrite (repeat_spec _ _ _ Hz). rewrite In_firstn by exact Hb. exists (lm_b s). split; [lia|symmetry; exact Exy].
    + intros z Hz. rewrite in_app_iff in Hz. destruct Hz as [Hz|Hz]; [apply li_mb0; exact Hz|]. rewrite (repeat_spec _ _ _ Hz). rewrite In_firstn by exact Ha. exists (lm_a s). split; [lia|reflexivity].
Qed.
End Split.

Lemma rows_ones : @F1 p <> F0 -> forall l k, rows (l ++ zeros k) (ones (length l) ++ zeros k) = l.
Proof.
  intros H1 l k. rewrite rows_app by (unfold ones; rewrite repeat_length; reflexivity). rewrite rows_zeros, app_nil_r. unfold ones. induction l as [|a l IH]; [reflexivity|]. cbn [length repeat]. rewrite rows_cons, IH. apply Feqb_neq in H1. rewrite H1. reflexivity.
Qed.
Lemma pad_bag_ok : forall n (l : list F), @F1 p <> F0 -> length l <= 2 ^ n -> exists c s, pad_bag n l = Ok (mkMle n c, mkMle n s) /\ length c = 2 ^ n /\ length s = 2 ^ n /\ boolean s /\ rows c s = l.
Proof.
  intros n l H1 H. unfold pad_bag, usub. rewrite (proj2 (Nat.leb_le _ _)) by exact H. cbn [bind]. set (k := 2 ^ n - length l). assert (L1 : length (l ++ zeros k) = 2 ^ n) by (unfold zeros; rewrite app_length, repeat_length; lia). assert (L2 : length (ones (p:=p) (length l) ++ zeros k) = 2 ^ n) by (unfold zeros, ones; rewrite app_length, !repeat_length; lia).
  rewrite !from_len by assumption. cbn [bind]. eexists _, _. split; [reflexivity|]. split; [exact L1|]. split; [exact L2|]. split; [|apply rows_ones; exact H1]. unfold boolean, ones, zeros. rewrite Forall_app. split; apply Forall_forall; intros y Hy; apply repeat_spec in Hy; auto.
Qed.
Lemma lmr_split_ok : forall an bn a sa b sb, @F1 p <> F0 -> length a = 2 ^ an -> length sa = 2 ^ an -> length b = 2 ^ bn -> length sb = 2 ^ bn -> sorted_first a sa -> sorted_first b sb ->
  exists l ls ma mas mb mbs r rs, lmr_split an bn a sa b sb = Ok ((mkMle an l, mkMle an ls), (mkMle an ma, mkMle an mas), (mkMle bn mb, mkMle bn mbs), (mkMle bn r, mkMle bn rs)) /\
    Forall (fun col => length col = 2 ^ an) [l; ls; ma; mas] /\ Forall (fun col => length col = 2 ^ bn) [mb; mbs; r; rs] /\ boolean ls /\ boolean mas /\ boolean mbs /\ boolean rs /\
    Permutation (rows a sa) (rows l ls ++ rows ma mas) /\ Permutation (rows b sb) (rows mb mbs ++ rows r rs) /\
    (forall x, In x (rows l ls) -> ~ In x (rows b sb)) /\ (forall x, In x (rows r rs) -> ~ In x (rows a sa)) /\
    (forall x, In x (rows ma mas) -> In x (rows b sb)) /\ (forall x, In x (rows mb mbs) -> In x (rows a sa)).
Proof.
  intros an bn a sa b sb H1 La Lsa Lb Lsb Fa Fb. unfold lmr_split. rewrite La, Lsa, Lb, Lsb, !Nat.leb_refl. cbn [andb rassert bind]. cbv zeta. rewrite (firstn_all2 a), (firstn_all2 sa), (firstn_all2 b), (firstn_all2 sb) by lia.
  assert (Pn : forall l sl, length (lmr_sorted (p:=p) l sl) = length (rows l sl)) by (intros l0 sl0; unfold lmr_sorted; rewrite (Permutation_length (ssort_perm _ _)), selected_rows; reflexivity). rewrite !Pn. set (na := length (rows a sa)). set (nb := length (rows b sb)).
  pose proof (rows_length a sa) as Na. pose proof (rows_length b sb) as Nb. fold na in Na. fold nb in Nb.
  destruct (lmr_loop_ok a b na nb Na Nb (fun i j H H' => first_sorted a sa i j ltac:(congruence) Fa H H') (fun i j H H' => first_sorted b sb i j ltac:(congruence) Fb H H') (S (na + nb)) (mkLmr 0 0 [] [] [] []) (linv0 a b na nb Na Nb) ltac:(cbn; lia)) as [s [E1 [I Hend]]]. rewrite E1. cbn [bind]. destruct I. unfold tail_selected. rewrite !selected_rows, !first_skip by (assumption || congruence).
  assert (Ra : rows a sa = firstn na a) by (apply first_rows; [congruence|assumption]). assert (Rb : rows b sb = firstn nb b) by (apply first_rows; [congruence|assumption]). rewrite <- Ra in *. rewrite <- Rb in *.
  set (lv := lm_l s ++ skipn (lm_a s) (rows a sa)). set (rv := lm_r s ++ skipn (lm_b s) (rows b sb)).
  assert (Xa : firstn (lm_a s) a = firstn (lm_a s) (rows a sa)) by (rewrite Ra, firstn_firstn, Nat.min_l by lia; reflexivity). assert (Xb : firstn (lm_b s) b = firstn (lm_b s) (rows b sb)) by (rewrite Rb, firstn_firstn, Nat.min_l by lia; reflexivity). rewrite Xa in li_pa0. rewrite Xb in li_pb0.
  assert (Pa : Permutation (rows a sa) (lv ++ lm_ma s)). { rewrite <- (firstn_skipn (lm_a s) (rows a sa)) at 1. rewrite li_pa0. unfold lv. rewrite <- !app_assoc. apply Permutation_app_head. apply Permutation_app_comm. }
  assert (Pb : Permutation (rows b sb) (lm_mb s ++ rv)). { rewrite <- (firstn_skipn (lm_b s) (rows b sb)) at 1. rewrite li_pb0. unfold rv. rewrite <- !app_assoc. reflexivity. }
  pose proof (Permutation_length Pa) as Ka. pose proof (Permutation_length Pb) as Kb. rewrite app_length in Ka, Kb. fold na in Ka. fold nb in Kb.
  destruct (pad_bag_ok an lv H1 ltac:(lia)) as [c1 [s1 [P1 [Lc1 [Ls1 [B1 R1]]]]]]. destruct (pad_bag_ok an (lm_ma s) H1 ltac:(lia)) as [c2 [s2 [P2 [Lc2 [Ls2 [B2 R2]]]]]]. destruct (pad_bag_ok bn (lm_mb s) H1 ltac:(lia)) as [c3 [s3 [P3 [Lc3 [Ls3 [B3 R3]]]]]]. destruct (pad_bag_ok bn rv H1 ltac:(lia)) as [c4 [s4 [P4 [Lc4 [Ls4 [B4 R4]]]]]].
  rewrite P1. cbn [bind]. rewrite P2. cbn [bind]. rewrite P3. cbn [bind]. rewrite P4. cbn [bind]. exists c1, s1, c2, s2, c3, s3, c4, s4. rewrite R1, R2, R3, R4. split; [reflexivity|]. split; [repeat constructor; assumption|]. split; [repeat constructor; assumption|]. repeat (split; [first [reflexivity|assumption]|]).
  split; [|split; [|split; [exact li_ma0|exact li_mb0]]].
  - intros x Hx. unfold lv in Hx. rewrite in_app_iff in Hx. destruct Hx as [Hx|Hx]; [apply li_l0; exact Hx|]. destruct Hend as [Hend|Hend]; [rewrite Hend in Hx; unfold na in Hx; rewrite skipn_all in Hx; contradiction|].
    intros Hy. rewrite Rb, In_firstn in Hy by exact Nb. destruct Hy as [j [Hj Ej]]. apply (In_nth _ _ F0) in Hx. destruct Hx as [i [Hi Ei]]. rewrite skipn_length in Hi. rewrite nth_skip in Ei. 
    pose proof (li_ba0 j (lm_a s + i) ltac:(lia) ltac:(lia) ltac:(fold na in Hi; lia)) as K. rewrite Ra in Ei. assert (Ei' : nth (lm_a s + i) a F0 = x) by (rewrite <- Ei; symmetry; apply nth_firstn_lt; unfold na, nb in *; lia).
    rewrite Ej, Ei' in K. lia.
  - intros x Hx. unfold rv in Hx. rewrite in_app_iff in Hx. destruct Hx as [Hx|Hx]; [apply li_r0; exact Hx|]. destruct Hend as [Hend|Hend]; [|rewrite Hend in Hx; unfold nb in Hx; rewrite skipn_all in Hx; contradiction].
    intros Hy. rewrite Ra, In_firstn in Hy by exact Na. destruct Hy as [j [Hj Ej]]. apply (In_nth _ _ F0) in Hx. destruct Hx as [i [Hi Ei]]. rewrite skipn_length in Hi. rewrite nth_skip in Ei.
    pose proof (li_ab0 j (lm_b s + i) ltac:(lia) ltac:(lia) ltac:(fold nb in Hi; lia)) as K. rewrite Rb in Ei. assert (Ei' : nth (lm_b s + i) b F0 = x) by (rewrite <- Ei; symmetry; apply nth_firstn_lt; unfold na, nb in *; lia).
    rewrite Ej, Ei' in K. lia.
Qed.
End A.
