(** Sorting, the support advice, the disjointness advice and the sums of set operations. *)
From Coq Require Import List Arith Lia Bool ZArith Znumtheory Permutation Sorted.
Import ListNotations.
From Verif Require Import Res ResLemmas Fp FSum SpecMle MleLemmas SpecPoly PolyLemmas SpecIop SpecRel ModelMle ModelAdvice IopBasic LogDeriv BagLemmas AdviceProofs.
Local Open Scope list_scope.
Local Open Scope nat_scope.

(** ** Insertion sort *)
Section S.
Context {X : Type} (le : X -> X -> bool).
Lemma sinsert_perm : forall x l, Permutation (sinsert le x l) (x :: l).
Proof. intros x l. induction l as [|y r IH]; cbn; [reflexivity|]. destruct (le x y); [reflexivity|]. rewrite IH. apply perm_swap. Qed.
Lemma ssort_perm : forall l, Permutation (ssort le l) l.
Proof. induction l as [|x l IH]; cbn; [reflexivity|]. rewrite sinsert_perm, IH. reflexivity. Qed.
Hypothesis tot : forall a b, le a b = false -> le b a = true.
Hypothesis tra : forall a b c, le a b = true -> le b c = true -> le a c = true.
Lemma sinsert_sorted : forall x l, StronglySorted (fun a b => le a b = true) l -> StronglySorted (fun a b => le a b = true) (sinsert le x l).
Proof.
  intros x l H. induction H as [|y r H IH Hy]; cbn; [repeat constructor|]. destruct (le x y) eqn:Q.
  - constructor; [constructor; assumption|]. constructor; [exact Q|]. eapply Forall_impl; [|exact Hy]. intros z Hz. eapply tra; eassumption.
  - constructor; [exact IH|]. eapply Permutation_Forall; [apply Permutation_sym; apply sinsert_perm|]. constructor; [apply tot; exact Q|exact Hy].
Qed.
Lemma ssort_sorted : forall l, StronglySorted (fun a b => le a b = true) (ssort le l).
Proof. induction l as [|x l IH]; cbn; [constructor|]. apply sinsert_sorted. exact IH. Qed.
End S.

Section A.
Context {p : positive}.
Notation F := (F p).
Add Ring Fr : (@F_ring p).
Implicit Types (l sl : list F) (x : F).

Lemma ascending_nodup : forall l, ascending l -> NoDup l.
Proof. intros l H. induction H as [|x l H IH Hx]; constructor; [|exact IH]. intros Hin. rewrite Forall_forall in Hx. specialize (Hx x Hin). lia. Qed.

Lemma rows_seq : forall l sl, length l = length sl -> rows l sl = map (fun i => nth i l F0) (filter (fun i => negb (Feqb (nth i sl F0) F0)) (seq 0 (length l))).
Proof.
  induction l as [|a l IH]; intros [|s sl] H; cbn in H; try discriminate; [reflexivity|]. rewrite rows_cons, IH by lia. cbn [length seq]. rewrite <- seq_shift.
  assert (Hs : map (fun i => nth i (a :: l) F0) (filter (fun i => negb (Feqb (nth i (s :: sl) F0) F0)) (map S (seq 0 (length l)))) = map (fun i => nth i l F0) (filter (fun i => negb (Feqb (nth i sl F0) F0)) (seq 0 (length l)))).
  { generalize (seq 0 (length l)). clear. intros q. induction q as [|i r IHr]; [reflexivity|]. cbn [map filter nth]. destruct (Feqb (nth i sl F0) F0); cbn [negb map nth]; [exact IHr|f_equal; exact IHr]. }
  cbn [filter]. change (nth 0 (s :: sl) F0) with s. destruct (Feqb s F0); cbn [negb map app]; [symmetry; exact Hs|f_equal; symmetry; exact Hs].
Qed.
Lemma Permutation_filter : forall (Y : Type) (f : Y -> bool) a b, Permutation a b -> Permutation (filter f a) (filter f b).
Proof. intros Y f a b H. induction H as [|x a b H IH|x y a|a b c H1 I1 H2 I2]; cbn; [constructor|destruct (f x); [constructor; exact IH|exact IH]|destruct (f x), (f y); try constructor; reflexivity|rewrite I1; exact I2]. Qed.

(** ** The support *)
Section Supp.
Variables poly sel : list F.
Hypothesis Hb : boolean sel.
Notation pv i := (nth i poly F0).
Notation sv i := (nth i sel F0).
Definition okidx (idx : list nat) : Prop := Forall (fun i => i < length poly /\ i < length sel) idx.
Definition picked (idx : list nat) : list F := map (fun i => pv i) (filter (fun i => negb (Feqb (sv i) F0)) idx).

Lemma sv_bool : forall i, i < length sel -> sv i = F0 \/ sv i = F1.
Proof. intros i H. unfold boolean in Hb. rewrite Forall_forall in Hb. apply Hb. apply nth_In. exact H. Qed.
Lemma supp_run_ok : forall idx x m, okidx idx -> exists k, supp_run poly sel x m idx = Ok (m + k, skipn k idx) /\ k <= length idx /\ Forall (fun i => Feqb (sv i) F0 = false /\ pv i = x) (firstn k idx) /\
  match skipn k idx with [] => True | i :: _ => Feqb (sv i) F0 = true \/ pv i <> x end.
Proof.
  induction idx as [|i idx IH]; intros x m Hk; cbn [supp_run].
  - exists 0. rewrite Nat.add_0_r. cbn. repeat split; [lia|constructor].
  - inversion Hk as [|? ? [K1 K2] K3]; subst. rewrite (rnth_ok _ sel i F0) by exact K2. cbn [bind]. destruct (Feqb (sv i) F0) eqn:Q.
    + exists 0. rewrite Nat.add_0_r. cbn [skipn firstn]. split; [reflexivity|]. split; [lia|]. split; [constructor|left; exact Q].
    + rewrite (rnth_ok _ poly i F0) by exact K1. cbn [bind]. destruct (Feqb (pv i) x) eqn:Qx.
      * destruct (IH x (S m) K3) as [k [E1 [E2 [E3 E4]]]]. exists (S k). cbn [skipn firstn length]. rewrite Nat.add_succ_r. cbn [Nat.add] in E1. split; [exact E1|]. split; [lia|]. split; [constructor; [split; [exact Q|apply Feqb_eq; exact Qx]|exact E3]|exact E4].
      * exists 0. rewrite Nat.add_0_r. cbn [skipn firstn]. split; [reflexivity|]. split; [lia|]. split; [constructor|right; apply Feqb_neq; exact Qx].
Qed.
Lemma supp_le_sel : forall i j, i < length sel -> j < length sel -> supp_le poly sel i j = true -> Feqb (sv i) F0 = true -> Feqb (sv j) F0 = true.
Proof.
  intros i j Hi Hj H Q. apply Feqb_eq in Q. unfold supp_le in H. cbv zeta in H. rewrite Q in H. apply orb_true_iff in H. destruct H as [H|H].
  - unfold Fltb in H. apply Z.ltb_lt in H. pose proof (val_range (sv j)). change (val (@F0 p)) with (0 mod Zpos p)%Z in H. rewrite Z.mod_0_l in H by lia. lia.
  - apply andb_true_iff in H. apply (proj1 H).
Qed.
Lemma supp_le_val : forall i j, i < length sel -> j < length sel -> supp_le poly sel i j = true -> Feqb (sv j) F0 = false -> (val (pv i) <= val (pv j))%Z.
Proof.
  intros i j Hi Hj H Q. unfold supp_le in H. cbv zeta in H. apply orb_true_iff in H. destruct H as [H|H].
  - exfalso. unfold Fltb in H. apply Z.ltb_lt in H. apply Feqb_neq in Q. destruct (sv_bool j Hj) as [Q'|Q']; [contradiction|]. rewrite Q' in H. destruct (sv_bool i Hi) as [Q2|Q2]; rewrite Q2 in H; [|lia].
    pose proof (val_range (@F1 p)). change (val (@F0 p)) with (0 mod Zpos p)%Z in H. rewrite Z.mod_0_l in H by lia. lia.
  - apply andb_true_iff in H. destruct H as [_ H]. unfold Fleb in H. apply Z.leb_le. exact H.
Qed.
Definition sorted_idx (idx : list nat) : Prop := StronglySorted (fun i j => supp_le poly sel i j = true) idx.
Lemma sorted_skip : forall k idx, sorted_idx idx -> sorted_idx (skipn k idx).
Proof. induction k as [|k IH]; intros [|i idx] H; cbn; auto. inversion H; subst. apply IH. assumption. Qed.
Lemma ok_skip : forall k idx, okidx idx -> okidx (skipn k idx).
Proof. induction k as [|k IH]; intros [|i idx] H; cbn; auto. inversion H; subst. apply IH. assumption. Qed.
Lemma picked_app : forall a b, picked (a ++ b) = picked a ++ picked b.
Proof. intros a b. unfold picked. rewrite filter_app, map_app. reflexivity. Qed.
Lemma picked_run : forall x a, Forall (fun i => Feqb (sv i) F0 = false /\ pv i = x) a -> picked a = repeat x (length a).
Proof. intros x a H. induction H as [|i a [H1 H2] H IH]; [reflexivity|]. unfold picked in *. cbn [filter]. rewrite H1. cbn [negb map length repeat]. rewrite H2, IH. reflexivity. Qed.
Lemma picked_none : forall idx, okidx idx -> sorted_idx idx -> match idx with [] => True | i :: _ => Feqb (sv i) F0 = true end -> picked idx = [].
Proof.
  intros [|i idx] Ho Hs Hi; [reflexivity|]. inversion Ho as [|? ? [O1 O2] O3]; subst. inversion Hs as [|? ? S1 S2]; subst. unfold picked. cbn [filter]. rewrite Hi. cbn [negb].
  assert (Hall : Forall (fun j => Feqb (sv j) F0 = true) idx). { rewrite Forall_forall in *. intros j Hj. apply (supp_le_sel i j); auto. apply (O3 j Hj). }
  clear - Hall. induction Hall as [|j r H1 H2 IH]; [reflexivity|]. cbn [filter]. rewrite H1. exact IH.
Qed.
Lemma sorted_above : forall idx x, okidx idx -> sorted_idx idx -> match idx with [] => True | i :: _ => Feqb (sv i) F0 = true \/ (val x < val (pv i))%Z end -> Forall (fun y => (val x < val y)%Z) (picked idx).
Proof.
  intros [|i idx] x Ho Hs Hi; [constructor|]. destruct (Feqb (sv i) F0) eqn:Q; [rewrite picked_none by (auto; exact Q); constructor|]. destruct Hi as [Hi|Hi]; [discriminate|].
  inversion Ho as [|? ? [O1 O2] O3]; subst. inversion Hs as [|? ? S1 S2]; subst. unfold picked. cbn [filter]. rewrite Q. cbn [negb map]. constructor; [exact Hi|]. apply Forall_forall. intros y Hy. apply in_map_iff in Hy. destruct Hy as [j [<- Hj]]. apply filter_In in Hj. destruct Hj as [Hj Hj'].
  rewrite Forall_forall in S2, O3. pose proof (supp_le_val i j O2 (proj2 (O3 j Hj)) (S2 j Hj) ltac:(destruct (Feqb (sv j) F0); [discriminate|reflexivity])). lia.
Qed.
Lemma supp_runs_ok : forall fuel idx acc, length idx <= fuel -> okidx idx -> sorted_idx idx ->
  exists runs, supp_runs fuel poly sel idx acc = Ok (acc ++ runs) /\ ascending (map fst runs) /\ (forall x, In x (map fst runs) <-> In x (picked idx)) /\ Forall (fun r => snd r = count_occ F_dec (picked idx) (fst r)) runs /\ length runs <= length idx.
Proof.
  induction fuel as [|fuel IH]; intros idx acc Hf Ho Hs.
  - destruct idx as [|i idx]; [|cbn in Hf; lia]. exists []. rewrite app_nil_r. cbn. repeat split; try tauto; constructor.
  - destruct idx as [|i idx]; [exists []; rewrite app_nil_r; cbn; repeat split; try tauto; constructor|]. cbn [supp_runs]. pose proof Ho as Ho'. inversion Ho' as [|? ? [O1 O2] O3]; subst. rewrite (rnth_ok _ sel i F0) by exact O2. cbn [bind].
    destruct (Feqb (sv i) F0) eqn:Q.
    { exists []. rewrite app_nil_r. rewrite (picked_none (i :: idx)) by (auto; exact Q). cbn. repeat split; try tauto; try constructor. lia. }
    rewrite (rnth_ok _ poly i F0) by exact O1. cbn [bind]. destruct (supp_run_ok (i :: idx) (pv i) 0 Ho) as [k [E1 [E2 [E3 E4]]]]. cbn [Nat.add] in E1. rewrite E1. cbn [bind].
    assert (Hk : 1 <= k). { destruct k as [|k]; [|lia]. cbn [skipn] in E4. destruct E4 as [E4|E4]; congruence. }
    set (r := skipn k (i :: idx)) in *. assert (Lr : length r = S (length idx) - k) by (unfold r; rewrite skipn_length; reflexivity).
    destruct (IH r (acc ++ [(pv i, k)]) ltac:(cbn [length] in Hf; lia) (ok_skip k _ Ho) (sorted_skip k _ Hs)) as [runs [R1 [R2 [R3 [R4 R5]]]]]. exists ((pv i, k) :: runs). rewrite R1, <- app_assoc.
    assert (Hsplit : picked (i :: idx) = repeat (pv i) k ++ picked r). { rewrite <- (firstn_skipn k (i :: idx)), picked_app, (picked_run (pv i)) by exact E3. rewrite firstn_length. cbn [length] in *. rewrite Nat.min_l by lia. reflexivity. }
    assert (Habove : Forall (fun y => (val (pv i) < val y)%Z) (picked r)).
    { apply sorted_above; [apply ok_skip; exact Ho|apply sorted_skip; exact Hs|]. destruct r as [|j r'] eqn:Er; [exact I|]. destruct E4 as [E4|E4]; [left; exact E4|].
      assert (Hj : In j idx). { assert (Hin : In j (skipn k (i :: idx))) by (change (skipn k (i :: idx)) with r; rewrite Er; left; reflexivity). destruct k as [|k]; [lia|]. cbn [skipn] in Hin. clear - Hin. revert Hin. revert k. induction idx as [|z idx IHi]; intros [|k] H; cbn in H; auto; try contradiction. right. eapply IHi. exact H. }
      destruct (Feqb (sv j) F0) eqn:Qj; [left; reflexivity|right]. inversion Hs as [|? ? S1 S2]; subst. rewrite Forall_forall in S2, O3. pose proof (supp_le_val i j O2 (proj2 (O3 j Hj)) (S2 j Hj) Qj).
      destruct (Z.eq_dec (val (pv i)) (val (pv j))) as [D|D]; [apply val_inj in D; congruence|lia]. }
    assert (Hnot : ~ In (pv i) (picked r)) by (intros Hin; rewrite Forall_forall in Habove; specialize (Habove _ Hin); lia).
    split; [reflexivity|]. split; [|split; [|split]].
    + cbn [map fst]. constructor; [exact R2|]. apply Forall_forall. intros y Hy. rewrite R3 in Hy. rewrite Forall_forall in Habove. apply Habove. exact Hy.
    + intros x. rewrite Hsplit, in_app_iff. cbn [map fst In]. rewrite R3. split; [intros [<-|H]; [left; destruct k; [lia|left; reflexivity]|right; exact H]|intros [H|H]; [left; symmetry; eapply repeat_spec; exact H|right; exact H]].
    + constructor.
      * cbn [fst snd]. rewrite Hsplit, count_occ_app, count_occ_repeat_eq by reflexivity. rewrite (proj1 (count_occ_not_In F_dec (picked r) (pv i)) Hnot). lia.
      * rewrite Forall_forall in *. intros y Hy. rewrite (R4 y Hy), Hsplit, count_occ_app. assert (Hyr : In (fst y) (picked r)) by (apply R3; apply in_map; exact Hy). pose proof (Habove _ Hyr). rewrite count_occ_repeat_neq; [reflexivity|]. intros D. rewrite <- D in *. lia.
    + cbn [length]. lia.
Qed.
End Supp.

Lemma supp_tot : forall poly sel i j, supp_le (p:=p) poly sel i j = false -> supp_le poly sel j i = true.
Proof.
  intros poly sel i j H. unfold supp_le in *. cbv zeta in *. apply orb_false_iff in H. destruct H as [H1 H2]. unfold Fltb, Fleb, Feqb in *. apply Z.ltb_ge in H1. apply orb_true_iff.
  destruct (Z.eqb_spec (val (nth j sel F0)) (val (nth i sel F0))) as [D|D]; [right|left; apply Z.ltb_lt; lia]. cbn [andb] in H2. apply Z.leb_gt in H2. rewrite D, Z.eqb_refl. cbn [andb]. apply Z.leb_le. lia.
Qed.
Lemma supp_tra : forall poly sel i j k, supp_le (p:=p) poly sel i j = true -> supp_le poly sel j k = true -> supp_le poly sel i k = true.
Proof.
  intros poly sel i j k H1 H2. unfold supp_le in *. cbv zeta in *. unfold Fltb, Fleb, Feqb in *. rewrite orb_true_iff, andb_true_iff in *. rewrite Z.ltb_lt, Z.eqb_eq, Z.leb_le in *. lia.
Qed.
Lemma zeros_app : forall k (l : list F) n, k + length l = n -> length (zeros k ++ l) = n. Proof. intros. unfold zeros. rewrite app_length, repeat_length. assumption. Qed.
Lemma from_len : forall n (l : list F), length l = 2 ^ n -> from_evaluations n l = Ok (mkMle n l).
Proof. intros n l H. unfold from_evaluations. rewrite H, Nat.eqb_refl. reflexivity. Qed.
Lemma supp_advice_ok : forall n poly sel, length poly = 2 ^ n -> length sel = 2 ^ n -> boolean sel ->
  exists vals, ascending vals /\ (forall x, In x vals <-> In x (rows poly sel)) /\ length vals <= 2 ^ n /\ let k := 2 ^ n - length vals in
    supp_advice n poly sel = Ok (mkMle n (zeros k ++ vals), mkMle n (zeros k ++ ones (length vals)), mkMle n (zeros k ++ map (fun x => ofN (count_occ F_dec (rows poly sel) x)) vals)).
Proof.
  intros n poly sel H1 H2 Hb. set (idx := ssort (supp_le poly sel) (seq 0 (2 ^ n))).
  assert (Hp : Permutation idx (seq 0 (2 ^ n))) by apply ssort_perm.
  assert (Ho : okidx poly sel idx). { eapply Permutation_Forall; [apply Permutation_sym; exact Hp|]. apply Forall_forall. intros i Hi. apply in_seq in Hi. lia. }
  assert (Hs : sorted_idx poly sel idx) by (apply ssort_sorted; [apply supp_tot|apply supp_tra]).
  assert (Li : length idx = 2 ^ n) by (rewrite (Permutation_length Hp), seq_length; reflexivity).
  destruct (supp_runs_ok poly sel Hb (2 ^ n) idx [] ltac:(lia) Ho Hs) as [runs [R1 [R2 [R3 [R4 R5]]]]]. cbn [app] in R1.
  assert (HP : Permutation (picked poly sel idx) (rows poly sel)). { rewrite rows_seq by congruence. unfold picked. rewrite H1. apply Permutation_map. apply Permutation_filter. exact Hp. }
  exists (map fst runs). split; [exact R2|]. split; [intros x; rewrite R3; split; apply Permutation_in; [exact HP|apply Permutation_sym; exact HP]|]. split; [rewrite map_length; lia|]. cbv zeta. rewrite map_length.
  unfold supp_advice. rewrite H1, H2, Nat.leb_refl. cbn [andb rassert bind]. cbv zeta. fold idx. rewrite R1. cbn [bind]. unfold usub. rewrite (proj2 (Nat.leb_le _ _)) by lia. cbn [bind].
  assert (Hm : map (fun r => ofN (p:=p) (snd r)) runs = map (fun x => ofN (count_occ F_dec (rows poly sel) x)) (map fst runs)).
  { rewrite map_map. apply map_ext_in. intros r Hr. rewrite Forall_forall in R4. rewrite (R4 r Hr). f_equal. apply Permutation_count_occ. exact HP. }
  rewrite <- Hm. rewrite !from_len; [reflexivity|..]; apply zeros_app; unfold ones; rewrite ?map_length, ?repeat_length; lia.
Qed.
End A.
