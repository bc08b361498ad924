(** The disjointness advice, the sums of the set operations, the join selectors and the join's index. *)
From Coq Require Import List Arith Lia Bool ZArith Znumtheory Permutation Sorted.
Import ListNotations.
From Verif Require Import Res ResLemmas Fp FSum SpecMle MleLemmas SpecPoly PolyLemmas SpecIop SpecRel ModelMle ModelAdvice IopBasic LogDeriv BagLemmas AdviceProofs AdviceProofs2.
Local Open Scope list_scope.
Local Open Scope nat_scope.

Section A.
Context {p : positive}.
Notation F := (F p).
Add Ring Fr : (@F_ring p).
Implicit Types (l sl : list F) (x : F).

(** ** Disjointness *)
Lemma fget_keys : forall (m : @fmap p) x, In x (map fst m) <-> fget m x <> None.
Proof.
  intros m x. induction m as [|[y n] m IH]; cbn [map fst In fget]; [intuition|]. destruct (Feqb y x) eqn:Q.
  - apply Feqb_eq in Q. split; [discriminate|intros _; left; exact Q].
  - rewrite <- IH. apply Feqb_neq in Q. intuition.
Qed.
Lemma counts_keys : forall (m : @fmap p) r x, counts m r -> (In x (map fst m) <-> In x r).
Proof.
  intros m r x H. rewrite fget_keys, H. rewrite (count_occ_In F_dec). destruct (count_occ F_dec r x); split; intros; try lia; try congruence.
Qed.
Lemma union_in : forall (k : list F) x, In x (fold_right (fun x acc => if existsb (Feqb x) acc then acc else x :: acc) [] k) <-> In x k.
Proof.
  induction k as [|y k IH]; intros x; cbn [fold_right In]; [tauto|]. destruct (existsb _ _) eqn:Q; cbn [In]; rewrite IH; [|tauto].
  apply existsb_exists in Q. destruct Q as [z [Q1 Q2]]. apply Feqb_eq in Q2. subst z. rewrite IH in Q1. split; [tauto|]. intros [<-|H]; assumption.
Qed.
Lemma union_nodup : forall (k : list F), NoDup (fold_right (fun x acc => if existsb (Feqb x) acc then acc else x :: acc) [] k).
Proof.
  induction k as [|y k IH]; cbn [fold_right]; [constructor|]. destruct (existsb _ _) eqn:Q; [exact IH|]. constructor; [|exact IH]. intros Hin.
  assert (existsb (Feqb y) (fold_right (fun x acc => if existsb (Feqb x) acc then acc else x :: acc) [] k) = true) by (apply existsb_exists; exists y; split; [exact Hin|apply Feqb_refl]). congruence.
Qed.
Lemma Fleb_tot : forall a b : F, Fleb a b = false -> Fleb b a = true.
Proof. intros a b. unfold Fleb. rewrite Z.leb_gt, Z.leb_le. lia. Qed.
Lemma Fleb_tra : forall a b c : F, Fleb a b = true -> Fleb b c = true -> Fleb a c = true.
Proof. intros a b c. unfold Fleb. rewrite !Z.leb_le. lia. Qed.
Lemma sorted_ascending : forall l, StronglySorted (fun a b => Fleb a b = true) l -> NoDup l -> ascending l.
Proof.
  intros l H. induction H as [|x l H IH Hx]; intros N; [constructor|]. inversion N; subst. constructor; [apply IH; assumption|]. rewrite Forall_forall in *. intros y Hy. specialize (Hx y Hy). unfold Fleb in Hx. apply Z.leb_le in Hx.
  destruct (Z.eq_dec (val x) (val y)) as [D|D]; [apply val_inj in D; congruence|lia].
Qed.
Lemma two_pow_max : forall a b, 2 ^ a + 2 ^ b <= 2 ^ (Nat.max a b + 1).
Proof. intros a b. rewrite Nat.add_1_r. cbn [Nat.pow]. pose proof (Nat.pow_le_mono_r 2 a (Nat.max a b) ltac:(lia) ltac:(lia)). pose proof (Nat.pow_le_mono_r 2 b (Nat.max a b) ltac:(lia) ltac:(lia)). lia. Qed.
Lemma disjoint_advice_ok : forall an bn a sa b sb, length a = 2 ^ an -> length sa = 2 ^ an -> length b = 2 ^ bn -> length sb = 2 ^ bn ->
  exists vals, ascending vals /\ (forall x, In x vals <-> In x (rows a sa) \/ In x (rows b sb)) /\ let n := Nat.max an bn + 1 in length vals <= 2 ^ n /\ let k := 2 ^ n - length vals in
    disjoint_advice an bn a sa b sb = Ok (mkMle n (zeros k ++ vals), mkMle n (zeros k ++ ones (length vals)),
      mkMle n (zeros k ++ map (fun x => ofN (count_occ F_dec (rows a sa) x)) vals), mkMle n (zeros k ++ map (fun x => ofN (count_occ F_dec (rows b sb) x)) vals)).
Proof.
  intros an bn a sa b sb A1 A2 B1 B2. destruct (count_ok a sa ltac:(congruence)) as [ma [E1 C1]]. destruct (count_ok b sb ltac:(congruence)) as [mb [E2 C2]].
  set (u := ssort Fleb (key_union ma mb)). assert (Hp : Permutation u (key_union ma mb)) by apply ssort_perm.
  assert (Hin : forall x, In x u <-> In x (rows a sa) \/ In x (rows b sb)).
  { intros x. rewrite <- (counts_keys ma _ x C1), <- (counts_keys mb _ x C2), <- in_app_iff, <- (union_in (map fst ma ++ map fst mb) x). split; apply Permutation_in; [exact Hp|apply Permutation_sym; exact Hp]. }
  assert (Hasc : ascending u). { apply sorted_ascending; [apply ssort_sorted; [apply Fleb_tot|apply Fleb_tra]|]. eapply Permutation_NoDup; [apply Permutation_sym; exact Hp|apply union_nodup]. }
  assert (Hlen : length u <= 2 ^ (Nat.max an bn + 1)).
  { pose proof (NoDup_incl_length (ascending_nodup _ Hasc) (l' := rows a sa ++ rows b sb) ltac:(intros x Hx; rewrite in_app_iff; apply Hin; exact Hx)) as Hl. rewrite app_length in Hl. pose proof (rows_length a sa). pose proof (rows_length b sb). pose proof (two_pow_max an bn). lia. }
  exists u. split; [exact Hasc|]. split; [exact Hin|]. split; [exact Hlen|]. cbv zeta. unfold disjoint_advice. rewrite E1, E2. cbn [bind]. cbv zeta. fold u. unfold usub. rewrite (proj2 (Nat.leb_le _ _)) by exact Hlen. cbn [bind].
  assert (Hm : forall m r, counts m r -> map (fun x => ofN (p:=p) (match fget m x with Some c => c | None => 0 end)) u = map (fun x => ofN (count_occ F_dec r x)) u).
  { intros m r Hc. apply map_ext. intros x. rewrite Hc. destruct (count_occ F_dec r x); reflexivity. }
  rewrite (Hm ma _ C1), (Hm mb _ C2). rewrite !from_len; [reflexivity|..]; apply zeros_app; unfold ones; rewrite ?map_length, ?repeat_length; lia.
Qed.

(** ** The sums of set operations *)
Lemma concat_pad_ok : forall an bn (a b : list F), length a = 2 ^ an -> length b = 2 ^ bn -> concat_pad (Nat.max an bn + 1) a b = Ok (a ++ b ++ zeros (2 ^ (Nat.max an bn + 1) - (2 ^ an + 2 ^ bn))).
Proof.
  intros an bn a b A B. unfold concat_pad, usub. rewrite app_length, A, B. rewrite (proj2 (Nat.leb_le _ _)) by apply two_pow_max. cbn [bind]. rewrite <- app_assoc. reflexivity.
Qed.
Lemma rows_zeros : forall l k, rows l (zeros k) = [].
Proof. induction l as [|a l IH]; intros [|k]; try reflexivity. unfold zeros in *. cbn [repeat]. rewrite rows_cons, IH, Feqb_refl. reflexivity. Qed.
Lemma set_union_sum_ok : forall an bn (a b sa sb : list F), length a = 2 ^ an -> length sa = 2 ^ an -> length b = 2 ^ bn -> length sb = 2 ^ bn ->
  let n := Nat.max an bn + 1 in exists c s, set_union_sum an bn a b sa sb = Ok (mkMle n c, mkMle n s) /\ length c = 2 ^ n /\ length s = 2 ^ n /\ rows c s = rows a sa ++ rows b sb /\ (boolean sa -> boolean sb -> boolean s).
Proof.
  intros an bn a b sa sb A1 A2 B1 B2 n. unfold set_union_sum. fold n. unfold n. rewrite !concat_pad_ok by assumption. cbn [bind]. fold n. set (k := 2 ^ n - (2 ^ an + 2 ^ bn)). pose proof (two_pow_max an bn) as Hm. fold n in Hm.
  assert (L1 : length (a ++ b ++ zeros k) = 2 ^ n) by (unfold zeros; rewrite !app_length, repeat_length; lia). assert (L2 : length (sa ++ sb ++ zeros k) = 2 ^ n) by (unfold zeros; rewrite !app_length, repeat_length; lia).
  rewrite !from_len by assumption. cbn [bind]. eexists _, _. split; [reflexivity|]. split; [exact L1|]. split; [exact L2|]. split.
  - rewrite rows_app by congruence. rewrite rows_app by congruence. rewrite rows_zeros, app_nil_r. reflexivity.
  - intros H1 H2. unfold boolean. rewrite !Forall_app. repeat split; [exact H1|exact H2|]. apply Forall_forall. intros x Hx. left. eapply repeat_spec. exact Hx.
Qed.
Lemma pair_tot : forall a b : F * F, pair_le a b = false -> pair_le b a = true.
Proof. intros [a1 a2] [b1 b2]. unfold pair_le, Fltb, Fleb, Feqb. cbn [fst snd]. rewrite orb_false_iff, andb_false_iff, orb_true_iff, andb_true_iff, !Z.ltb_lt, Z.ltb_ge, !Z.eqb_neq, !Z.eqb_eq, !Z.leb_gt, !Z.leb_le. lia. Qed.
Lemma pair_tra : forall a b c : F * F, pair_le a b = true -> pair_le b c = true -> pair_le a c = true.
Proof. intros [a1 a2] [b1 b2] [c1 c2]. unfold pair_le, Fltb, Fleb, Feqb. cbn [fst snd]. rewrite !orb_true_iff, !andb_true_iff, !Z.ltb_lt, !Z.eqb_eq, !Z.leb_le. lia. Qed.
Definition prows (z : list (F * F)) : list F := map fst (filter (fun r => negb (Feqb (snd r) F0)) z).
Lemma prows_pairs : forall z, rows (map fst z) (map snd z) = prows z.
Proof. unfold rows, prows. intros z. f_equal. f_equal. induction z as [|[a b] z IH]; [reflexivity|]. cbn [map combine fst snd]. rewrite IH. reflexivity. Qed.
Lemma prows_zeroed : forall z, prows (map (fun vs : F * F => (if Feqb (snd vs) F0 then F0 else fst vs, snd vs)) z) = prows z.
Proof. unfold prows. induction z as [|[a b] z IH]; [reflexivity|]. cbn [map filter fst snd]. destruct (Feqb b F0); cbn [negb map fst]; rewrite IH; reflexivity. Qed.
Lemma Permutation_prows : forall a b, Permutation a b -> Permutation (prows a) (prows b).
Proof. intros a b H. unfold prows. apply Permutation_map, Permutation_filter. exact H. Qed.
(** Ascending columns: values never decrease; a selected row is followed by a greater value when the selected rows are distinct. *)
Lemma sorted_nth : forall X (R : X -> X -> Prop) (l : list X) d i j, StronglySorted R l -> i < j -> j < length l -> R (nth i l d) (nth j l d).
Proof.
  intros X R l d i j H. revert i j. induction H as [|x l H IH Hx]; intros i j Hij Hj; [cbn in Hj; lia|]. destruct j as [|j]; [lia|]. cbn in Hj. destruct i as [|i]; cbn [nth]; [rewrite Forall_forall in Hx; apply Hx; apply nth_In; lia|]. apply IH; lia.
Qed.
Lemma prows_twice : forall (z : list (F * F)) i, S i < length z -> snd (nth i z (F0, F0)) <> F0 -> snd (nth (S i) z (F0, F0)) <> F0 -> fst (nth i z (F0, F0)) = fst (nth (S i) z (F0, F0)) -> ~ NoDup (prows z).
Proof.
  induction z as [|a z IH]; intros i Hi H1 H2 H3 N; [cbn in Hi; lia|]. unfold prows in N. destruct i as [|i].
  - cbn [nth] in H1, H3. destruct z as [|b z]; [cbn in Hi; lia|]. cbn [nth] in H2, H3. cbn [filter] in N. apply Feqb_neq in H1. apply Feqb_neq in H2. rewrite H1, H2 in N. cbn [negb map] in N. inversion N as [|? ? N1 N2]; subst. apply N1. left. symmetry. exact H3.
  - cbn [length] in Hi. cbn [nth] in H1, H2, H3. apply (IH i); auto; [lia|]. unfold prows. cbn [filter] in N. destruct (negb (Feqb (snd a) F0)); [inversion N; assumption|exact N].
Qed.
Lemma set_disjoint_sum_ok : forall an bn (a b sa sb : list F), length a = 2 ^ an -> length sa = 2 ^ an -> length b = 2 ^ bn -> length sb = 2 ^ bn -> boolean sa -> boolean sb ->
  let n := Nat.max an bn + 1 in exists c s, set_disjoint_sum an bn a b sa sb = Ok (mkMle n c, mkMle n s) /\ length c = 2 ^ n /\ length s = 2 ^ n /\ boolean s /\ Permutation (rows c s) (rows a sa ++ rows b sb) /\
    (forall i j, i < j -> j < 2 ^ n -> (val (nth i c F0) <= val (nth j c F0))%Z) /\
    (NoDup (rows a sa ++ rows b sb) -> forall i, S i < 2 ^ n -> nth i s F0 <> F0 -> nth (S i) c F0 <> nth i c F0).
Proof.
  intros an bn a b sa sb A1 A2 B1 B2 Ba Bb n. destruct (set_union_sum_ok an bn a b sa sb A1 A2 B1 B2) as [c0 [s0 [E1 [L1 [L2 [HR HB]]]]]]. fold n in E1, L1, L2.
  unfold set_union_sum in E1. fold n in E1. unfold set_disjoint_sum. fold n. unfold n in E1 |- *. rewrite !concat_pad_ok in * by assumption. cbn [bind] in *. fold n in E1 |- *.
  set (k := 2 ^ n - (2 ^ an + 2 ^ bn)) in *. set (v := a ++ b ++ zeros k) in *. set (s1 := sa ++ sb ++ zeros k) in *. pose proof (two_pow_max an bn) as Hm. fold n in Hm.
  assert (Lv : length v = 2 ^ n) by (unfold v, zeros; rewrite !app_length, repeat_length; lia). assert (Ls : length s1 = 2 ^ n) by (unfold s1, zeros; rewrite !app_length, repeat_length; lia).
  rewrite !from_len in E1 by assumption. cbn [bind] in E1. injection E1 as <- <-.
  set (z := map (fun vs : F * F => (if Feqb (snd vs) F0 then F0 else fst vs, snd vs)) (combine v s1)). set (w := ssort pair_le z). assert (Hp : Permutation w z) by apply ssort_perm.
  assert (Lw : length w = 2 ^ n) by (rewrite (Permutation_length Hp); unfold z; rewrite map_length, combine_length; lia). assert (Hs : StronglySorted (fun a b => pair_le a b = true) w) by (apply ssort_sorted; [apply pair_tot|apply pair_tra]).
  rewrite !from_len by (rewrite map_length; exact Lw). cbn [bind]. exists (map fst w), (map snd w). rewrite !map_length. split; [reflexivity|]. split; [exact Lw|]. split; [exact Lw|].
  assert (Hz : forall e, In e w -> (snd e = F0 -> fst e = F0) /\ (snd e = F0 \/ snd e = F1)).
  { intros e He. apply (Permutation_in _ Hp) in He. unfold z in He. apply in_map_iff in He. destruct He as [[x y] [<- He]]. cbn [fst snd]. split; [intros ->; rewrite Feqb_refl; reflexivity|]. apply in_combine_r in He. specialize (HB Ba Bb). unfold boolean in HB. rewrite Forall_forall in HB. apply HB. exact He. }
  assert (HP : Permutation (prows w) (rows a sa ++ rows b sb)). { rewrite <- HR. rewrite (Permutation_prows _ _ Hp). unfold z. rewrite prows_zeroed. reflexivity. }
  split; [unfold boolean; rewrite Forall_map; apply Forall_forall; intros e He; apply (Hz e He)|]. split; [rewrite prows_pairs; exact HP|].
  assert (Nf : forall i, nth i (map fst w) F0 = fst (nth i w (F0, F0))) by (intros i; change (@F0 p) with (fst (@F0 p, @F0 p)) at 1; apply map_nth).
  assert (Ns : forall i, nth i (map snd w) F0 = snd (nth i w (F0, F0))) by (intros i; change (@F0 p) with (snd (@F0 p, @F0 p)) at 1; apply map_nth).
  split.
  - intros i j Hij Hj. rewrite !Nf. pose proof (sorted_nth _ _ w (F0, F0) i j Hs Hij ltac:(lia)) as H. unfold pair_le, Fltb, Feqb in H. rewrite orb_true_iff, andb_true_iff, Z.ltb_lt, Z.eqb_eq in H. lia.
  - intros N i Hi Hsel. rewrite !Nf. rewrite Ns in Hsel. intros D.
    assert (Hsel' : snd (nth (S i) w (F0, F0)) <> F0).
    { pose proof (sorted_nth _ _ w (F0, F0) i (S i) Hs ltac:(lia) ltac:(lia)) as H. unfold pair_le, Fltb, Fleb, Feqb in H. rewrite D, Z.ltb_irrefl, Z.eqb_refl in H. cbn [orb andb] in H. apply Z.leb_le in H.
      intros Q. rewrite Q in H. apply Hsel. apply val_inj. pose proof (val_range (snd (nth i w (F0, F0)))). change (val (@F0 p)) with (0 mod Zpos p)%Z in *. rewrite Z.mod_0_l in * by lia. lia. }
    eapply (prows_twice w i); [lia|exact Hsel|exact Hsel'|symmetry; exact D|]. eapply Permutation_NoDup; [apply Permutation_sym; exact HP|exact N].
Qed.

(** ** Join selectors *)
Lemma join_sel_ok : forall l other osl m, counts m (rows other osl) -> forall i, i < length l ->
  nth i (join_sel l m) F0 = if in_dec F_dec (nth i l F0) (rows other osl) then F0 else F1.
Proof.
  intros l other osl m Hm i Hi. unfold join_sel. rewrite (nth_indep (map _ l) F0 ((fun x => match fget m x with None => F1 | Some _ => F0 end) F0)) by (rewrite map_length; exact Hi). rewrite (map_nth (fun x => match fget m x with None => F1 | Some _ => F0 end)). rewrite Hm.
  destruct (in_dec F_dec (nth i l F0) (rows other osl)) as [H|H].
  - apply (count_occ_In F_dec) in H. destruct (count_occ F_dec (rows other osl) (nth i l F0)); [lia|reflexivity].
  - apply (count_occ_not_In F_dec) in H. rewrite H. reflexivity.
Qed.
Lemma join_advice_ok : forall a sa b sb : mle p, wf_mle a -> length (evs sa) = length (evs a) -> wf_mle b -> length (evs sb) = length (evs b) ->
  exists l r, join_reduction_advice a sa b sb = Ok (mkMle (nv a) l, mkMle (nv b) r) /\ length l = length (evs a) /\ length r = length (evs b) /\
    (forall i, i < length (evs a) -> nth i l F0 = if in_dec F_dec (nth i (evs a) F0) (rows (evs b) (evs sb)) then F0 else F1) /\
    (forall i, i < length (evs b) -> nth i r F0 = if in_dec F_dec (nth i (evs b) F0) (rows (evs a) (evs sa)) then F0 else F1).
Proof.
  intros a sa b sb Wa La Wb Lb. destruct (count_ok (evs a) (evs sa) ltac:(congruence)) as [ma [E1 C1]]. destruct (count_ok (evs b) (evs sb) ltac:(congruence)) as [mb [E2 C2]].
  exists (join_sel (evs a) mb), (join_sel (evs b) ma). unfold join_reduction_advice, mle_multiplicity_count. rewrite E1, E2. cbn [bind]. unfold join_sel at 1 2. rewrite !from_len by (rewrite map_length; assumption). cbn [bind].
  split; [reflexivity|]. unfold join_sel at 1 2. rewrite !map_length. split; [reflexivity|]. split; [reflexivity|]. split; intros i Hi; apply join_sel_ok; assumption.
Qed.

(** ** The index of a one-to-many join *)
Lemma row_index_ok : forall l sl, length sl = length l -> exists m, row_index l sl = Ok m /\
  forall x, match fget m x with Some i => i < length l /\ nth i l F0 = x /\ nth i sl F0 = F1 | None => forall i, i < length l -> nth i sl F0 = F1 -> nth i l F0 <> x end.
Proof.
  intros l sl H. unfold row_index.
  destruct (foldM_inv _ (row_index_step l sl) (fun k m => forall x, match fget m x with Some i => i < k /\ nth i l F0 = x /\ nth i sl F0 = F1 | None => forall i, i < k -> nth i sl F0 = F1 -> nth i l F0 <> x end) (length l) []) as [m [E1 I1]].
  - intros x. cbn. intros; lia.
  - intros i m Hi HI. unfold row_index_step. rewrite (rnth_ok _ sl i F0) by lia. cbn [bind]. destruct (Feqb (nth i sl F0) F1) eqn:Q.
    + apply Feqb_eq in Q. rewrite (rnth_ok _ l i F0) by lia. cbn [bind]. eexists. split; [reflexivity|]. intros x. rewrite fget_fput. destruct (Feqb (nth i l F0) x) eqn:Qx.
      * apply Feqb_eq in Qx. auto.
      * apply Feqb_neq in Qx. specialize (HI x). destruct (fget m x) as [j|]; [intuition lia|]. intros j Hj Hs. destruct (Nat.eq_dec j i) as [->|D]; [exact Qx|apply HI; [lia|exact Hs]].
    + exists m. split; [reflexivity|]. intros x. specialize (HI x). destruct (fget m x) as [j|]; [intuition lia|]. intros j Hj Hs. destruct (Nat.eq_dec j i) as [->|D]; [rewrite Hs, Feqb_refl in Q; discriminate|apply HI; [lia|exact Hs]].
  - exists m. split; [exact E1|exact I1].
Qed.
Lemma foldM_stop : forall B (f : B -> nat -> res B) (I : nat -> B -> Prop) (bad : nat -> Prop) e b0 n, I 0 b0 ->
  (forall i b, i < n -> I i b -> (bad i /\ f b i = e) \/ (~ bad i /\ exists b', f b i = Ok b' /\ I (S i) b')) -> (forall b, e <> Ok b) ->
  ((exists i, i < n /\ bad i) /\ foldM f b0 (seq 0 n) = e) \/ ((forall i, i < n -> ~ bad i) /\ exists b, foldM f b0 (seq 0 n) = Ok b /\ I n b).
Proof.
  intros B f I bad e b0 n H0 H He. induction n as [|n IH]; [right; split; [intros; lia|exists b0; auto]|]. destruct IH as [[[i [Hi Hb]] E]|[Hg [b [E Hb]]]]; [intros; apply H; auto| |].
  - left. split; [exists i; auto|]. rewrite seq_S, foldM_app, E. cbn [bind]. destruct e; [exfalso; eapply He; reflexivity|reflexivity|reflexivity].
  - rewrite seq_S, foldM_app, E. cbn [bind foldM Nat.add]. destruct (H n b ltac:(lia) Hb) as [[B1 B2]|[B1 [b' [B2 B3]]]].
    + left. split; [exists n; auto|]. rewrite B2. destruct e; [exfalso; eapply He; reflexivity|reflexivity|reflexivity].
    + right. split; [intros i Hi; destruct (Nat.eq_dec i n) as [->|D]; [exact B1|apply Hg; lia]|]. rewrite B2. exists b'. auto.
Qed.
Lemma join_index_ok : forall a sa b sb : list F, length sa = length a -> length sb = length b ->
  ((exists i, i < length b /\ missing a sa b sb i) /\ join_index_transform a sa b sb = Err IOPInvalidParameters) \/
  ((forall i, i < length b -> ~ missing a sa b sb i) /\ exists tr, join_index_transform a sa b sb = Ok tr /\ length tr = length b /\
     forall i, i < length b -> nth i sb F0 = F1 -> nth i tr 0 < length a /\ nth (nth i tr 0) sa F0 = F1 /\ nth (nth i tr 0) a F0 = nth i b F0).
Proof.
  intros a sa b sb La Lb. destruct (row_index_ok a sa La) as [m [E1 Hm]]. unfold join_index_transform. rewrite E1. cbn [bind].
  apply (foldM_stop _ (transform_step m b sb) (fun k tr => length tr = k /\ forall i, i < k -> nth i sb F0 = F1 -> nth i tr 0 < length a /\ nth (nth i tr 0) sa F0 = F1 /\ nth (nth i tr 0) a F0 = nth i b F0) (missing a sa b sb) (Err IOPInvalidParameters) [] (length b)).
  - split; [reflexivity|]. intros; lia.
  - intros i tr Hi [L HI]. unfold transform_step. rewrite (rnth_ok _ sb i F0) by lia. cbn [bind]. destruct (Feqb (nth i sb F0) F1) eqn:Q.
    + apply Feqb_eq in Q. rewrite (rnth_ok _ b i F0) by lia. cbn [bind]. specialize (Hm (nth i b F0)). destruct (fget m (nth i b F0)) as [r|].
      * right. destruct Hm as [M1 [M2 M3]]. split; [intros [_ Hk]; apply (Hk r M1 M3 M2)|]. eexists. split; [reflexivity|]. split; [rewrite app_length; cbn; lia|]. intros j Hj Hs. destruct (Nat.eq_dec j i) as [->|D].
        { rewrite app_nth2, L, Nat.sub_diag by lia. cbn [nth]. auto. }
        { rewrite app_nth1 by lia. apply HI; [lia|exact Hs]. }
      * left. split; [split; [exact Q|exact Hm]|reflexivity].
    + right. split; [intros [Hk _]; rewrite Hk, Feqb_refl in Q; discriminate|]. eexists. split; [reflexivity|]. split; [rewrite app_length; cbn; lia|]. intros j Hj Hs. destruct (Nat.eq_dec j i) as [->|D]; [rewrite Hs, Feqb_refl in Q; discriminate|]. rewrite app_nth1 by lia. apply HI; [lia|exact Hs].
  - discriminate.
Qed.
Lemma mapM_seq : forall B (f : nat -> res B) (g : nat -> B) n, (forall i, i < n -> f i = Ok (g i)) -> mapM f (seq 0 n) = Ok (map g (seq 0 n)).
Proof.
  intros B f g n H. assert (forall k a, (forall i, a <= i < a + k -> f i = Ok (g i)) -> mapM f (seq a k) = Ok (map g (seq a k))).
  { induction k as [|k IH]; intros a Ha; [reflexivity|]. cbn [seq mapM map]. rewrite Ha by lia. cbn [bind]. rewrite IH by (intros; apply Ha; lia). reflexivity. }
  apply H0. intros; apply H; lia.
Qed.
Lemma index_transformed_ok : forall debug tr (old act : list F) n, length act = 2 ^ n -> length tr = 2 ^ n -> (forall i, i < 2 ^ n -> nth i act F0 = F1 -> nth i tr 0 < length old) ->
  index_transformed debug tr old act n = Ok (mkMle n (map (fun i => if Feqb (nth i act F0) F1 then nth (nth i tr 0) old F0 else F0) (seq 0 (2 ^ n)))).
Proof.
  intros debug tr old act n La Lt H. unfold index_transformed. rewrite La, Lt, Nat.eqb_refl. assert (Hd : (if debug then rassert true else Ok tt) = Ok tt) by (destruct debug; reflexivity). rewrite Hd. cbn [bind].
  rewrite (mapM_seq F _ (fun i => if Feqb (nth i act F0) F1 then nth (nth i tr 0) old F0 else F0)).
  - cbn [bind]. apply from_len. rewrite map_length, seq_length. reflexivity.
  - intros i Hi. rewrite (rnth_ok _ act i F0) by lia. cbn [bind]. destruct (Feqb (nth i act F0) F1) eqn:Q; [|reflexivity]. apply Feqb_eq in Q. rewrite (rnth_ok _ tr i 0) by lia. cbn [bind]. apply rnth_ok. apply H; assumption.
Qed.
End A.
