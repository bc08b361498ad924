(** More on counts, the products of the disjointness advice, and the split with multiplicities. *)
From Coq Require Import List Arith Lia Bool ZArith Znumtheory Permutation Sorted.
Import ListNotations.
From Verif Require Import Res ResLemmas Fp FSum SpecMle MleLemmas SpecPoly PolyLemmas SpecIop SpecRel ModelMle ModelAdvice IopBasic LogDeriv BagLemmas AdviceProofs AdviceProofs2 AdviceProofs3 AdviceProofs4.
Local Open Scope list_scope.
Local Open Scope nat_scope.

Section A.
Context {p : positive}.
Notation F := (F p).
Add Ring Fr : (@F_ring p).
Implicit Types (l sl a b : list F) (x : F).

Lemma foldM_ext : forall B (f g : B -> nat -> res B) is (b : B), (forall i c, In i is -> f c i = g c i) -> foldM f b is = foldM g b is.
Proof. intros B f g is. induction is as [|i is IH]; intros b H; [reflexivity|]. cbn [foldM]. rewrite (H i b) by (left; reflexivity). destruct (g b i); cbn [bind]; auto. apply IH. intros j c Hj. apply H. right. exact Hj. Qed.
Lemma rnth_firstn : forall A k (l : list A) i, i < k -> rnth (firstn k l) i = rnth l i.
Proof. intros A k. unfold rnth. induction k as [|k IH]; intros l i H; [lia|]. destruct l as [|y l]; [destruct i; reflexivity|]. destruct i as [|i]; [reflexivity|]. cbn. apply IH. lia. Qed.
Lemma count_all : forall l sl, length l <= length sl -> exists m, vec_multiplicity_count l sl = Ok m /\
  forall x, fget m x = if in_dec F_dec x (rows l sl) then Some (count_occ F_dec (rows l sl) x) else None.
Proof.
  intros l sl H. assert (Hr : rows l (firstn (length l) sl) = rows l sl).
  { clear H. revert sl. induction l as [|a l IH]; intros [|s sl]; try reflexivity. cbn [length firstn]. rewrite !rows_cons, IH. reflexivity. }
  destruct (count_ok l (firstn (length l) sl) ltac:(rewrite firstn_length; lia)) as [m [E1 C]]. exists m. rewrite Hr in C. split.
  - rewrite <- E1. unfold vec_multiplicity_count. apply foldM_ext. intros i c Hi. apply in_seq in Hi. unfold count_step. rewrite rnth_firstn by lia. reflexivity.
  - intros x. rewrite C. destruct (in_dec F_dec x (rows l sl)) as [D|D].
    + apply (count_occ_In F_dec) in D. destruct (count_occ F_dec (rows l sl) x); [lia|reflexivity].
    + apply (count_occ_not_In F_dec) in D. rewrite D. reflexivity.
Qed.

Lemma ofN_nz : forall n, 0 < n -> (Z.of_nat n < Zpos p)%Z -> @ofN p n <> F0.
Proof. intros n H1 H2 H. apply (f_equal val) in H. change (val (@F0 p)) with (0 mod Zpos p)%Z in H. unfold ofN, ofZ in H. cbn in H. rewrite !Z.mod_small in H by lia. lia. Qed.
Lemma disjoint_products : forall k (vals : list F) a (sa : list F) b (sb : list F), length a < fsize p -> length b < fsize p -> (forall x, In x vals <-> In x (rows a sa) \/ In x (rows b sb)) -> prime (Zpos p) ->
  let ma := zeros (p:=p) k ++ map (fun x => ofN (count_occ F_dec (rows a sa) x)) vals in let mb := zeros (p:=p) k ++ map (fun x => ofN (count_occ F_dec (rows b sb) x)) vals in
  ((forall i, (nth i ma F0 * nth i mb F0)%F = F0) <-> forall x, In x (rows a sa) -> ~ In x (rows b sb)).
Proof.
  intros k vals a sa b sb La Lb Hv Hp ma mb. split.
  - intros H x Ha Hb. assert (Hx : In x vals) by (apply Hv; left; exact Ha). apply (In_nth _ _ F0) in Hx. destruct Hx as [i [Hi Hx]]. specialize (H (k + i)). unfold ma, mb in H.
    rewrite !app_nth2 in H by (unfold zeros; rewrite repeat_length; lia). unfold zeros in H. rewrite !repeat_length in H. replace (k + i - k) with i in H by lia.
    rewrite !(nth_indep (map _ vals) F0 (ofN 0)) in H by (rewrite map_length; exact Hi).
    assert (Hn : forall r, nth i (map (fun x => ofN (p:=p) (count_occ F_dec r x)) vals) (ofN 0) = ofN (count_occ F_dec r x)).
    { intros r. rewrite (nth_indep _ (ofN 0) (ofN (count_occ F_dec r F0))) by (rewrite map_length; exact Hi). rewrite (map_nth (fun x => ofN (count_occ F_dec r x))). rewrite Hx. reflexivity. }
    rewrite !Hn in H. apply (Fmul_integral Hp) in H. apply (count_occ_In F_dec) in Ha. apply (count_occ_In F_dec) in Hb. destruct H as [H|H]; revert H; apply ofN_nz; [lia|apply count_rows_lt; exact La|lia|apply count_rows_lt; exact Lb].
  - intros H i. unfold ma, mb. destruct (Nat.lt_ge_cases i k) as [D|D].
    + rewrite !app_nth1 by (unfold zeros; rewrite repeat_length; exact D). unfold zeros. rewrite nth_repeat. ring.
    + rewrite !app_nth2 by (unfold zeros; rewrite repeat_length; lia). unfold zeros. rewrite !repeat_length. destruct (Nat.lt_ge_cases (i - k) (length vals)) as [G|G].
      * assert (Hn : forall r, nth (i - k) (map (fun x => ofN (p:=p) (count_occ F_dec r x)) vals) F0 = ofN (count_occ F_dec r (nth (i - k) vals F0))).
        { intros r. rewrite (nth_indep _ F0 (ofN (count_occ F_dec r F0))) by (rewrite map_length; exact G). apply (map_nth (fun x => ofN (count_occ F_dec r x))). }
        rewrite !Hn. set (x := nth (i - k) vals F0). destruct (in_dec F_dec x (rows a sa)) as [Q|Q].
        { rewrite (proj1 (count_occ_not_In F_dec (rows b sb) x) (H x Q)). rewrite ofN_0. ring. }
        { rewrite (proj1 (count_occ_not_In F_dec (rows a sa) x) Q). rewrite ofN_0. ring. }
      * rewrite !nth_overflow by (rewrite map_length; exact G). ring.
Qed.

(** ** The split with multiplicities *)
Lemma open_run_next : forall fuel (e : list F) c x m c' k, open_run fuel e c x m = Ok (c', k) -> exists z, rnth e c' = Ok z /\ z <> x.
Proof.
  induction fuel as [|fuel IH]; intros e c x m c' k H; [discriminate|]. cbn [open_run] in H. destruct (rnth e c) as [v| |] eqn:Q; cbn [bind] in H; try discriminate. destruct (Feqb v x) eqn:Qx; [eapply IH; exact H|]. injection H as <- <-. exists v. split; [exact Q|]. apply Feqb_neq. exact Qx.
Qed.
Ltac bd H := match type of H with bind ?r _ = Ok _ => let q := fresh "q" in let Q := fresh "Q" in destruct r as [q| |] eqn:Q; cbn [bind] in H; [|discriminate|discriminate] end.
Lemma lmrm_loop_left : forall fuel a b na nb s s', lmrm_loop (p:=p) fuel a b na nb s = Ok s' -> exists more, mm_l s' = mm_l s ++ more.
Proof.
  induction fuel as [|fuel IH]; intros a b na nb s s' H; cbn [lmrm_loop] in H; destruct ((mm_a s <? na) && (mm_b s <? nb)); try discriminate; try (injection H as <-; exists []; rewrite app_nil_r; reflexivity).
  bd H. bd H. destruct (Fltb q q0).
  - bd H. destruct q1 as [c k]. bd H. destruct (IH _ _ _ _ _ _ H) as [more Hm]. cbn [mm_l] in Hm. rewrite Hm, <- app_assoc. eexists. reflexivity.
  - destruct (Fltb q0 q); bd H; destruct q1 as [c k]; bd H; [|destruct q1 as [c' k']]; destruct (IH _ _ _ _ _ _ H) as [more Hm]; cbn [mm_l] in Hm; exists more; exact Hm.
Qed.
Lemma lmrm_tail_left : forall (poly sel : list F) len c acc r, lmrm_tail poly sel len c acc = Ok r -> exists more, r = acc ++ more.
Proof.
  intros poly sel len c acc r H. unfold lmrm_tail in H. bd H. injection H as <-. remember (seq c (len - c)) as is eqn:His. clear His.
  assert (G : forall st, foldM (lmrm_tail_step poly sel) st is = Ok q -> exists more, snd q = snd st ++ more).
  { clear. induction is as [|i is IH]; intros st H; cbn [foldM] in H; [injection H as <-; exists []; rewrite app_nil_r; reflexivity|]. bd H. destruct (IH _ H) as [more Hm]. unfold lmrm_tail_step in Q. bd Q. destruct (Feqb q1 F0).
    - injection Q as <-. exists more. exact Hm.
    - bd Q. bd Q. destruct q3 as [c k]. bd Q. injection Q as <-. cbn [snd] in Hm. rewrite Hm, <- app_assoc. eexists. reflexivity. }
  destruct (G _ Q) as [more Hm]. exists more. exact Hm.
Qed.
Lemma pad_col_head : forall n len (l : list F) m, pad_col n len l = Ok m -> forall y r, l = y :: r -> nth 0 (evs m) F0 = y.
Proof. intros n len l m H y r ->. unfold pad_col in H. bd H. unfold from_evaluations in H. destruct (_ =? _); [|discriminate]. injection H as <-. reflexivity. Qed.
Lemma lmrm_wrong : forall an bn a sa b sb ls rest x y, 0 < length (rows (firstn (2 ^ an) a) (firstn (2 ^ an) sa)) -> 0 < length (rows (firstn (2 ^ bn) b) (firstn (2 ^ bn) sb)) -> nth_error a 0 = Some x -> nth_error b 0 = Some y -> (val x < val y)%Z ->
  forall lv, lmr_multiplicity_split an bn a sa b sb = Ok ((lv, ls), fst (fst rest), snd (fst rest), snd rest) -> nth 0 (evs lv) F0 <> x /\ In (nth 0 (evs lv) F0) a.
Proof.
  intros an bn a sa b sb ls [[mr rr] mults] x y Ha Hb Hx Hy Hlt lv H. unfold lmr_multiplicity_split in H. cbn [fst snd] in H. bd H. cbv zeta in H.
  assert (Pn : forall l sl, length (lmr_sorted (p:=p) l sl) = length (rows l sl)) by (intros l0 sl0; unfold lmr_sorted; rewrite (Permutation_length (ssort_perm _ _)), selected_rows; reflexivity). rewrite !Pn in H.
  set (na := length (rows (firstn (2 ^ an) a) (firstn (2 ^ an) sa))) in *. set (nb := length (rows (firstn (2 ^ bn) b) (firstn (2 ^ bn) sb))) in *. bd H. rename q0 into s. bd H. rename q0 into l. bd H. bd H.
  assert (Hlv : lv = q1) by (repeat bd H; injection H; intros; congruence). clear H. subst q1.
  cbn [lmrm_loop] in Q0. cbn [mm_a mm_b] in Q0. rewrite (proj2 (Nat.ltb_lt 0 na) Ha), (proj2 (Nat.ltb_lt 0 nb) Hb) in Q0. cbn [andb] in Q0. unfold rnth at 1 2 in Q0. rewrite Hx, Hy in Q0. cbn [ounwrap bind] in Q0. unfold Fltb at 1 in Q0. rewrite (proj2 (Z.ltb_lt _ _) Hlt) in Q0.
  bd Q0. destruct q1 as [c k]. bd Q0. destruct (open_run_next _ _ _ _ _ _ _ Q4) as [z [Z1 Z2]]. rewrite Q5 in Z1. injection Z1 as ->. destruct (lmrm_loop_left _ _ _ _ _ _ _ Q0) as [more Hm]. cbn [mm_l app] in Hm.
  destruct (lmrm_tail_left _ _ _ _ _ _ Q1) as [more' Hm']. rewrite Hm in Hm'. cbn [app] in Hm'. rewrite (pad_col_head _ _ _ _ Q3 z (map fst (more ++ more'))); [|rewrite Hm'; reflexivity]. split; [exact Z2|]. unfold rnth, ounwrap in Q5. destruct (nth_error a c) eqn:Qc; [|discriminate]. injection Q5 as ->. eapply nth_error_In. exact Qc.
Qed.
End A.
