(** What the claims of the sort protocol force. *)
From Coq Require Import String List Arith Lia Bool ZArith Znumtheory Permutation.
Import ListNotations.
From Verif Require Import Res ResLemmas Fp FSum SpecMle SpecPoly PolyLemmas SpecTracker SpecIop ModelMle MleLemmas MleProofs ModelTranscript Pairing ModelKzg ModelBatch
  ModelProver ModelVerifier ModelAdvice ModelIop ProverHist VerifierHist CompileHist IopHist TmapLemmas LogDeriv BagLemmas EqualizeProofs IopWorld IopBasic IopMulti IopRuns IopSort IopVer IopSound IopSound2 IopGot InterpProofs MleExtra.
Local Open Scope string_scope.
Local Open Scope list_scope.
Local Open Scope nat_scope.

(** *** Lists and pairs *)
Section L.
Context {p : positive}.
Add Ring Fq : (@F_ring p).
Notation F := (F p).

Lemma wcol_one : forall l sl : list F, length sl = length l -> wcol l sl (ones (length l)) = combine l sl.
Proof.
  intros l. induction l as [|a l IH]; intros [|s sl] H; cbn in H; try discriminate; [reflexivity|]. cbn [length]. change (ones (S (length l))) with (@F1 p :: ones (length l)). rewrite wcol_cons, IH by lia. cbn [combine]. f_equal. f_equal. ring.
Qed.
Lemma wcol_sel1 : forall l m : list F, length m = length l -> wcol l (ones (length l)) m = combine l m.
Proof.
  intros l. induction l as [|a l IH]; intros [|s sl] H; cbn in H; try discriminate; [reflexivity|]. cbn [length]. change (ones (S (length l))) with (@F1 p :: ones (length l)). rewrite wcol_cons, IH by lia. cbn [combine]. f_equal. f_equal. ring.
Qed.
Lemma combine_ones : forall l : list F, combine l (ones (length l)) = unit_bag l.
Proof. intros l. induction l as [|a l IH]; [reflexivity|]. cbn [length]. change (ones (S (length l))) with (@F1 p :: ones (length l)). cbn [combine unit_bag map]. f_equal. exact IH. Qed.
Lemma wcol_unit : forall (l : list F) k, length l = k -> wcol l (ones k) (ones k) = unit_bag l.
Proof. intros l k <-. rewrite wcol_one by apply repeat_length. apply combine_ones. Qed.
Lemma unit_fst : forall l : list F, map fst (unit_bag l) = l. Proof. intros l. unfold unit_bag. rewrite map_map. cbn. apply map_id. Qed.
Hypothesis Hp : prime (Zpos p).
Lemma rows_ones : forall l : list F, rows l (ones (length l)) = l.
Proof.
  intros l. induction l as [|a l IH]; [reflexivity|]. cbn [length]. change (ones (S (length l))) with (@F1 p :: ones (length l)). rewrite rows_cons, IH.
  destruct (Feqb (@F1 p) F0) eqn:Q; [exfalso; apply Feqb_eq in Q; exact (F1_neq_0 Hp Q)|reflexivity].
Qed.
Lemma ones_boolean : forall k, boolean (@ones p k). Proof. intros k. apply Forall_forall. intros x Hx. right. eapply repeat_spec. exact Hx. Qed.
Lemma unit_perm : forall l l' : list F, length l < fsize p -> length l' < fsize p -> (same_bag (unit_bag l) (unit_bag l') <-> Permutation l l').
Proof.
  intros l l' H H'. rewrite <- (wcol_unit l (length l)), <- (wcol_unit l' (length l')) by reflexivity. unfold ones.
  pose proof (same_bag_rows Hp l (ones (length l)) l' (ones (length l'))) as X. unfold ones in X. rewrite X; try (rewrite repeat_length; reflexivity); try assumption; try apply ones_boolean.
  change (repeat F1 (length l)) with (@ones p (length l)). change (repeat F1 (length l')) with (@ones p (length l')). rewrite !rows_ones. reflexivity.
Qed.

Lemma folded_perm : forall (a b : list (F * F)) g, ~ clash a b g -> Permutation (folded g a) (folded g b) -> Permutation a b.
Proof.
  intros a b g Hc H. unfold folded in H. apply Permutation_map_inv in H. destruct H as [c [H1 H2]]. assert (a = c) as ->; [|apply Permutation_sym; exact H2].
  assert (Hin : forall r, In r c -> In r (a ++ b)) by (intros r Hr; apply in_or_app; right; eapply Permutation_in; [apply Permutation_sym; exact H2|exact Hr]).
  assert (Hia : forall r, In r a -> In r (a ++ b)) by (intros r Hr; apply in_or_app; left; exact Hr).
  assert (Hinj : forall r r', In r (a ++ b) -> In r' (a ++ b) -> (fst r + g * snd r)%F = (fst r' + g * snd r')%F -> r = r').
  { intros r r' Hr Hr' He. assert (D : {r = r'} + {r <> r'}) by (decide equality; apply F_dec). destruct D as [D|D]; [exact D|]. exfalso. apply Hc. exists r, r'. auto. }
  clear Hc H2. revert Hin Hia Hinj H1. generalize (a ++ b). intros u. revert c. induction a as [|x a IH]; intros [|y c] Hin Hia Hinj H1; cbn [map] in H1; try discriminate; [reflexivity|].
  pose proof (f_equal (@tl _) H1) as H3. apply (f_equal (hd F0)) in H1. cbn [hd tl] in H1, H3. f_equal; [apply Hinj; [apply Hia; left; reflexivity|apply Hin; left; reflexivity|exact H1]|]. apply IH; [intros; apply Hin; right; assumption|intros; apply Hia; right; assumption|exact Hinj|exact H3].
Qed.
Lemma perm_folded : forall (a b : list (F * F)) g, Permutation a b -> Permutation (folded g a) (folded g b). Proof. intros a b g H. apply Permutation_map. exact H. Qed.
(** Few challenges clash. *)
Lemma clash_few : forall (a b : list (F * F)) gs, NoDup gs -> Forall (clash a b) gs -> length gs <= (length a + length b) * (length a + length b).
Proof.
  intros a b gs Hn Hc. rewrite <- app_length. set (u := a ++ b) in *.
  set (cand := map (fun rr : (F * F) * (F * F) => ((fst (fst rr) - fst (snd rr)) / (snd (snd rr) - snd (fst rr)))%F) (list_prod u u)).
  replace (length u * length u) with (length cand) by (unfold cand; rewrite map_length, prod_length; reflexivity). apply NoDup_incl_length; [exact Hn|]. intros g Hg. rewrite Forall_forall in Hc. destruct (Hc g Hg) as [r [r' [H1 [H2 [H3 H4]]]]].
  unfold cand. apply in_map_iff. exists (r, r'). split; [|apply in_prod; assumption]. cbn [fst snd]. destruct r as [x y], r' as [x' y']. cbn [fst snd] in *.
  assert (Hy : (y' - y)%F <> F0).
  { intros H0. apply H3. apply sub_eq_0 in H0. subst y'. f_equal. transitivity ((x + g * y) - g * y)%F; [ring|]. rewrite H4. ring. }
  unfold Fdiv. transitivity ((g * (y' - y)) * Finv (y' - y))%F; [f_equal; transitivity ((x + g * y) - x' - g * y)%F; [ring|rewrite H4; ring]|].
  transitivity (g * (Finv (y' - y) * (y' - y)))%F; [ring|]. rewrite Finv_l by assumption. ring.
Qed.

Lemma combine_map : forall A B C (f : A -> B) (g : A -> C) (l : list A), combine (map f l) (map g l) = map (fun x => (f x, g x)) l.
Proof. intros A B C f g l. induction l as [|a l IH]; [reflexivity|]. cbn. f_equal. exact IH. Qed.
Lemma combine_app' : forall A B (a b : list A) (c e : list B), length a = length c -> combine (a ++ b) (c ++ e) = combine a c ++ combine b e.
Proof. intros A B a. induction a as [|x a IH]; intros b [|y c] e H; cbn in H; try discriminate; [reflexivity|]. cbn. f_equal. apply IH. lia. Qed.
Lemma index_nth : forall n i, i < 2 ^ n -> nth i (@index_column p n) F0 = ofN i.
Proof. intros n i H. unfold index_column. apply (nth_map_seq (@ofN p)). exact H. Qed.
Lemma next_nth : forall n i, i < 2 ^ n -> nth i (@next_column p n) F0 = ofN ((i + 1) mod 2 ^ n).
Proof. intros n i H. unfold next_column. apply (nth_map_seq (fun i => @ofN p ((i + 1) mod 2 ^ n))). exact H. Qed.
Lemma index_len : forall n, length (@index_column p n) = 2 ^ n. Proof. intros. unfold index_column. rewrite map_length, seq_length. reflexivity. Qed.
Lemma next_len : forall n, length (@next_column p n) = 2 ^ n. Proof. intros. unfold next_column. rewrite map_length, seq_length. reflexivity. Qed.
Lemma shift_next : forall n, shift_perm_evals (2 ^ n) = @next_column p n.
Proof.
  intros n. pose proof (Nat.pow_nonzero 2 n ltac:(lia)). unfold shift_perm_evals, next_column. destruct (2 ^ n) as [|k] eqn:Q; [lia|].
  rewrite seq_S, map_app. f_equal.
  - replace (S k - 1) with k by lia. rewrite <- seq_shift, map_map. apply map_ext_in. intros i Hi. apply in_seq in Hi. f_equal. rewrite Nat.mod_small by lia. lia.
  - cbn [map]. f_equal. replace (0 + k + 1) with (S k) by lia. rewrite Nat.mod_same by lia. symmetry. apply ofN_0.
Qed.
Lemma mod_lt : forall j n, j mod 2 ^ n < 2 ^ n. Proof. intros. apply Nat.mod_upper_bound. apply Nat.pow_nonzero. lia. Qed.

(** Steps up to [B] that cannot add up to [p]: no value comes twice. *)
Lemma sorted_tl : forall rl (a : F) l s sl, sorted_by rl (a :: l) (s :: sl) -> sorted_by rl l sl.
Proof. intros rl a l s sl H i Hi. apply (H (S i)). cbn. lia. Qed.
Lemma sorted_gap : forall B (rl l sl : list F), at_most B rl -> sorted_by rl l sl -> (Z.of_nat B < Zpos p)%Z -> forall d i, i + S d < length l ->
  exists c, c <= S d * B /\ nth (i + S d) l F0 = (nth i l F0 + ofN c)%F /\ (nth i sl F0 <> F0 -> 1 <= c).
Proof.
  intros B rl l sl HB HS Hlt. unfold at_most in HB. rewrite Forall_forall in HB.
  assert (H1 : forall i, S i < length l -> exists c, c <= B /\ nth (S i) l F0 = (nth i l F0 + ofN c)%F /\ (nth i sl F0 <> F0 -> 1 <= c)).
  { intros i Hi. destruct (HS i Hi) as [Hin Hne]. destruct (HB _ Hin) as [c [Hc1 Hc2]]. exists c. split; [exact Hc1|]. assert (He : nth (S i) l F0 = (nth i l F0 + ofN c)%F) by (rewrite <- Hc2; ring).
    split; [exact He|]. intros Hs. destruct c; [|lia]. exfalso. apply (Hne Hs). rewrite He, ofN_0. ring. }
  induction d as [|d IH]; intros i Hi.
  - replace (i + 1) with (S i) in * by lia. destruct (H1 i Hi) as [c [Hc H]]. exists c. split; [lia|exact H].
  - destruct (IH i ltac:(lia)) as [c [Hc1 [Hc2 Hc3]]]. destruct (H1 (i + S d)%nat ltac:(lia)) as [c' [Hd1 [Hd2 _]]]. exists (c + c'). split; [cbn in *; lia|]. split; [|intros Hs; specialize (Hc3 Hs); lia].
    replace (i + S (S d)) with (S (i + S d)) by lia. rewrite Hd2, Hc2, ofN_add. ring.
Qed.
Lemma sorted_nodup : forall B (rl l sl : list F), length l = length sl -> at_most B rl -> (Z.of_nat ((length l - 1) * B) < Zpos p)%Z -> sorted_by rl l sl -> NoDup (rows l sl).
Proof.
  intros B rl l. induction l as [|a l IH]; intros [|s sl] Hl HB Hp' HS; cbn in Hl; try discriminate; [constructor|]. rewrite rows_cons.
  assert (Hn : NoDup (rows l sl)) by (apply IH; [lia|exact HB|cbn [length] in Hp'; nia|eapply sorted_tl; exact HS]). 
  destruct (Feqb s F0) eqn:Q; [exact Hn|]. cbn [app]. constructor; [|exact Hn]. intros Hin. apply rows_In in Hin; [|lia]. destruct Hin as [k [Hk1 [Hk2 _]]].
  assert (HltB : (Z.of_nat B < Zpos p)%Z) by (cbn [length] in Hp'; nia).
  destruct (sorted_gap B rl _ _ HB HS HltB k 0 ltac:(cbn; lia)) as [c [Hc1 [Hc2 Hc3]]]. cbn [nth Nat.add] in Hc2, Hc3. 
  assert (Hs : s <> F0) by (intros ->; rewrite Feqb_refl in Q; discriminate). specialize (Hc3 Hs). rewrite Hk2 in Hc2. apply (ofN_neq_0 (p:=p) c); [lia|cbn [length] in Hp'; nia|].
  transitivity ((a + ofN c) - a)%F; [ring|]. rewrite <- Hc2. ring.
Qed.
Lemma val_plus : forall (a : F) c, (val a + Z.of_nat c < Zpos p)%Z -> val (a + ofN c)%F = (val a + Z.of_nat c)%Z.
Proof.
  intros a c H. pose proof (val_range a). rewrite <- (ofZ_val a) at 1. unfold ofN. rewrite <- ofZ_add, val_ofZ. apply Z.mod_small. lia.
Qed.
Lemma sorted_increasing : forall B (rl l sl : list F), at_most B rl -> sorted_by rl l sl -> (val (nth 0 l F0) + Z.of_nat ((length l - 1) * B) < Zpos p)%Z ->
  forall i j, i < j -> j < length l -> (val (nth i l F0) <= val (nth j l F0))%Z /\ (nth i sl F0 <> F0 -> (val (nth i l F0) < val (nth j l F0))%Z).
Proof.
  intros B rl l sl HB HS Hv i j Hij Hj. pose proof (val_range (nth 0 l F0)) as V0. assert (HltB : (Z.of_nat B < Zpos p)%Z) by nia.
  assert (Hi : exists c, c <= i * B /\ nth i l F0 = (nth 0 l F0 + ofN c)%F).
  { destruct i as [|i]; [exists 0; split; [lia|rewrite ofN_0; ring]|]. destruct (sorted_gap B rl l sl HB HS HltB i 0 ltac:(lia)) as [c [C1 [C2 _]]]. exists c. auto. }
  destruct Hi as [c [C1 C2]]. destruct (sorted_gap B rl l sl HB HS HltB (j - i - 1) i ltac:(lia)) as [c' [D1 [D2 D3]]]. replace (i + S (j - i - 1)) with j in D2 by lia. replace (S (j - i - 1)) with (j - i) in D1 by lia.
  assert (D4 : nth j l F0 = (nth 0 l F0 + ofN (c + c'))%F) by (rewrite D2, C2, ofN_add; ring).
  assert (Hb : c + c' <= (length l - 1) * B) by nia.
  rewrite C2, D4, !val_plus by lia. split; [lia|]. intros Hs. specialize (D3 Hs). lia.
Qed.
End L.

#[local] Opaque track_virtual v_add_scalar.
(** Carry what the claims of an earlier state force to a later one. *)
Lemma sound_le : forall {p} {E : pairing p} (v v' : vtrk E) ds (Q : reading (p:=p) -> nat -> tmap (vexp p) -> Prop), vgo v v' ds ->
  (forall A N V, sub_map (vt_virt v) V -> chold A V N v -> Q A N V) -> forall A N V, sub_map (vt_virt v') V -> chold A V N v' -> Q A N V.
Proof. intros p E v v' ds Q G H A N V S C. apply H; [eapply sub_trans; [apply (y_sub _ _ _ G)|exact S]|eapply chold_le; eassumption]. Qed.
#[local] Ltac fwd G ::= match type of G with vgo ?v _ _ => repeat match goal with
  | X : mget (vt_virt v) _ = Some _ |- _ => apply (y_sub _ _ _ G) in X
  | X : In _ (vt_zc v) |- _ => apply (in_zc _ _ _ _ G) in X
  | X : In _ (vt_sc v) |- _ => apply (in_sc _ _ _ _ G) in X
  | X : forall A N V, sub_map (vt_virt v) V -> chold A V N v -> @?Q A N V |- _ =>
      let X' := fresh "X" in pose proof (sound_le _ _ _ Q G X) as X'; cbv beta in X'; clear X; rename X' into X
  end end.
Section P.
Context {p : positive} {E : pairing p}.
Add Ring Fq : (@F_ring p).
Notation comm := (gcar (PG1 E)).
Implicit Types (v : vtrk E) (V : tmap (vexp p)) (A : reading (p:=p)).
Variable o : oracle p comm.
Hypothesis Hp : prime (Zpos p).
Hypothesis H2 : 2 < fsize p.

Lemma spread_table : forall N n (l : list (F p)), spread N n l = table_of N (per n l). Proof. reflexivity. Qed.
Lemma column_table : forall A N i, column A N i = table_of N (leaf A i). Proof. reflexivity. Qed.
Lemma in_table : forall N f (x : F p), In x (table_of N f) <-> exists j, j < 2 ^ N /\ f j = x.
Proof. intros N f x. unfold table_of. rewrite in_map_iff. split; intros [j [H1 H3]]; exists j; [apply in_seq in H3; split; [lia|exact H1]|split; [exact H3|apply in_seq; lia]]. Qed.
Lemma folded_table : forall N (g : F p) (f f' : nat -> F p), folded g (combine (table_of N f) (table_of N f')) = table_of N (fun j => (f j + g * f' j)%F).
Proof. intros N g f f'. unfold folded, table_of. rewrite combine_map, map_map. reflexivity. Qed.
Lemma table_ext : forall N (f g : nat -> F p), (forall j, j < 2 ^ N -> f j = g j) -> table_of (p:=p) N f = table_of N g.
Proof. intros N f g H. unfold table_of. apply map_ext_in. intros j Hj. apply in_seq in Hj. apply H. lia. Qed.
Lemma ones_table : forall N, table_of (p:=p) N (fun _ => F1) = ones (2 ^ N).
Proof.
  intros N. apply nth_ext with (d := F0) (d' := F0); [rewrite table_len; unfold ones; rewrite repeat_length; reflexivity|]. rewrite table_len. intros j Hj. rewrite table_nth by exact Hj. unfold ones. rewrite nth_repeat_lt by exact Hj. reflexivity.
Qed.
Lemma per_folded : forall n g (l m : list (F p)) j, length l = 2 ^ n -> length m = 2 ^ n -> per n (folded g (combine l m)) j = (per n l j + g * per n m j)%F.
Proof.
  intros n g l m j Hl Hm. unfold per, folded. pose proof (mod_lt j n).
  transitivity ((fun r : F p * F p => (fst r + g * snd r)%F) (nth (j mod 2 ^ n) (combine l m) (F0, F0))).
  - rewrite <- (map_nth (fun r : F p * F p => (fst r + g * snd r)%F)). apply nth_indep. rewrite map_length, combine_length. lia.
  - rewrite combine_nth by lia. reflexivity.
Qed.
Lemma logd_table : forall N n g (l : list (F p)), n <= N -> length l = 2 ^ n -> logd (unit_bag (table_of N (per n l))) g = (ofN (2 ^ (N - n)) * logd (unit_bag l) g)%F.
Proof.
  intros N n g l Hn Hl. rewrite <- (wcol_unit (table_of N (per n l)) (2 ^ N)) by apply table_len. rewrite <- ones_table at 1. rewrite <- (lsum_logd H2). 
  transitivity (lsum N g (per n l, per n (ones (2 ^ n)), fun _ => F1)).
  - unfold lsum. cbn [fst snd]. apply Fsum_map_ext. intros j _. change (per n (ones (2 ^ n)) j) with (nth (j mod 2 ^ n) (repeat (@F1 p) (2 ^ n)) F0). rewrite nth_repeat_lt by apply mod_lt. reflexivity.
  - rewrite (lsum_lists Hp H2) by (auto; apply repeat_length). rewrite (avgs_one Hp H2), (wcol_unit l) by exact Hl. reflexivity.
Qed.
Lemma cancel2 : forall k (x y : F p), (ofN (2 ^ k) * x)%F = (ofN (2 ^ k) * y)%F -> x = y.
Proof.
  intros k x y H. transitivity (Finv (ofN (2 ^ k)) * ofN (2 ^ k) * x)%F; [rewrite Finv_l; [ring|exact Hp|apply two_pow; assumption]|].
  transitivity (Finv (ofN (2 ^ k)) * (ofN (2 ^ k) * x))%F; [ring|]. rewrite H. transitivity (Finv (ofN (2 ^ k)) * ofN (2 ^ k) * y)%F; [ring|]. rewrite Finv_l; [ring|exact Hp|apply two_pow; assumption].
Qed.
Lemma not_in_table : forall N n g (l : list (F p)), n <= N -> length l = 2 ^ n -> ~ In g (table_of N (per n l)) -> ~ In g l.
Proof.
  intros N n g l Hn Hl H Hg. apply H. apply in_table. apply (In_nth _ _ F0) in Hg. destruct Hg as [k [Hk Hg]]. pose proof (Nat.pow_le_mono_r 2 n N ltac:(lia) Hn). exists k. split; [lia|]. unfold per. rewrite Nat.mod_small by lia. exact Hg.
Qed.

Lemma index_known : forall A v v' n id, vready v -> vt_next v <= id -> index_over A v v' n -> mget (vt_virt v') id = Some (VFun ordered_fun) -> fst (A id) = n.
Proof.
  intros A v v' n id R Hi H Hm. apply (H id ordered_fun); [apply R; exact Hi|exact Hm|]. intros m k Hk. rewrite ordered_bpoint, Nat.mod_small by exact Hk. reflexivity.
Qed.
Lemma presc_perm_sound : forall debug v v' fx gx perm, vready v -> presc_perm_verify o debug v fx gx perm = Ok v' -> bc_nv fx = bc_nv gx ->
  exists g g', sound v v' [g; g'] (fun A N V => forall l l' pl, plist A V N (bc_poly fx) (bc_nv fx) l -> plist A V N (bc_poly gx) (bc_nv gx) l' -> plist A V N perm (bc_nv fx) pl ->
    index_over A v v' (bc_nv fx) ->
    let a := combine (index_column (bc_nv fx)) l in let b := combine pl l' in
    ~ In g' (folded g a) /\ ~ In g' (folded g b) /\ logd (unit_bag (folded g a)) g' = logd (unit_bag (folded g b)) g').
Proof.
  intros debug v v' fx gx perm R H Hn. destruct (presc_perm_soundN o Hp H2 _ _ _ _ _ _ R H Hn) as [g [g' [Eo [G HQ]]]]. exists g, g'. split; [exact G|].
  intros A N V S C l l' pl [L1 [L2 L3]] [M1 [M2 M3]] [K1 [K2 K3]] Ho a b. rewrite <- Hn in M1, M2, M3. destruct (HQ A N V S C _ _ _ L3 M3 K3) as [X1 [X2 X3]]. cbv zeta in X1, X2, X3.
  set (n := bc_nv fx) in *. pose proof (index_known _ _ _ _ _ R (Nat.le_succ_diag_r _) Ho Eo) as Hord. rewrite Hord in X1, X3.
  assert (La : length (folded g a) = 2 ^ n) by (unfold a, folded; rewrite map_length, combine_length, index_len; lia).
  assert (Lb : length (folded g b) = 2 ^ n) by (unfold b, folded; rewrite map_length, combine_length; lia).
  assert (Ta : table_of N (fun j => (ofN (j mod 2 ^ n) + g * per n l j)%F) = table_of N (per n (folded g a))).
  { apply table_ext. intros j Hj. unfold a. rewrite per_folded by (rewrite ?index_len; auto). f_equal. unfold per. rewrite index_nth by apply mod_lt. reflexivity. }
  assert (Tb : table_of N (fun j => (per n pl j + g * per n l' j)%F) = table_of N (per n (folded g b))).
  { apply table_ext. intros j Hj. unfold b. rewrite per_folded by auto. reflexivity. }
  rewrite Ta in X1, X3. rewrite Tb in X2, X3. rewrite !wcol_unit, !logd_table in X3 by (rewrite ?table_len; auto).
  split; [eapply not_in_table; [| |exact X1]; assumption|]. split; [eapply not_in_table; [| |exact X2]; assumption|]. apply (cancel2 (N - n)). exact X3.
Qed.

(** The claims force the committed column to be the rotated one. *)
Lemma rot_from_perm : forall n N (l : list (F p)) f, n <= N -> length l = 2 ^ n -> 2 ^ N < fsize p ->
  (forall r : F p * F p, In r (combine (spread N n (next_column n)) (table_of N f)) -> In r (combine (spread N n (index_column n)) (spread N n l))) ->
  forall j, j < 2 ^ N -> f j = per n (rot l) j.
Proof.
  intros n N l f Hn Hl Hf H j Hj. pose proof (mod_lt j n) as Hm. pose proof (Nat.pow_le_mono_r 2 n N ltac:(lia) Hn) as Hle.
  specialize (H (per n (next_column n) j, f j)). rewrite !spread_table in H. unfold table_of in H. rewrite !combine_map in H.
  assert (Hin : In (per (p:=p) n (next_column n) j, f j) (map (fun x => (per (p:=p) n (next_column n) x, f x)) (seq 0 (2 ^ N)))).
  { apply in_map_iff. exists j. split; [reflexivity|apply in_seq; lia]. }
  apply H in Hin. apply in_map_iff in Hin. destruct Hin as [i [Hi1 Hi2]]. apply in_seq in Hi2. 
  pose proof (f_equal fst Hi1) as Hi3. pose proof (f_equal snd Hi1) as Hi4. cbn [fst snd] in Hi3, Hi4. clear Hi1 H. unfold per in Hi3 at 1 2. pose proof (mod_lt i n) as Hmi.
  rewrite index_nth, next_nth in Hi3 by assumption. pose proof (mod_lt (j mod 2 ^ n + 1) n) as Hmj. apply ofN_inj in Hi3; [|unfold fsize in *; lia|unfold fsize in *; lia].
  rewrite <- Hi4. unfold per. rewrite Hi3. set (k := j mod 2 ^ n) in *. destruct (Nat.eq_dec (S k) (2 ^ n)) as [Q|Q].
  - replace ((k + 1) mod 2 ^ n) with 0 by (replace (k + 1) with (2 ^ n) by lia; symmetry; apply Nat.mod_same; lia).
    destruct l as [|x r]; [cbn in Hl; lia|]. cbn [rot nth]. rewrite app_nth2 by (cbn in Hl; lia). replace (k - length r) with 0 by (cbn in Hl; lia). reflexivity.
  - rewrite Nat.mod_small by lia. replace (k + 1) with (S k) by lia. symmetry. apply rot_nth. lia.
Qed.
Lemma diffs_unit : forall (l : list (F p)), l <> [] -> combine (diffs l) (dsel (length l)) = unit_bag (steps l) ++ [(F1, F0)].
Proof.
  intros l Hne. assert (Hlen : 0 < length l) by (destruct l; [contradiction|cbn; lia]).
  assert (Ld : length (diffs l) = length l) by (apply diffs_len; exact Hne). assert (Ls : length (dsel (p:=p) (length l)) = length l) by (apply dsel_len; exact Hlen).
  apply nth_ext with (d := (F0, F0)) (d' := (F0, F0)); [rewrite combine_length, app_length; unfold unit_bag, steps; rewrite !map_length, seq_length; cbn; lia|].
  rewrite combine_length. intros k Hk. rewrite combine_nth by lia. rewrite diffs_nth, dsel_nth by lia. destruct (Nat.eq_dec (S k) (length l)) as [Q|Q].
  - rewrite (proj2 (Nat.eqb_eq _ _) Q). rewrite app_nth2 by (unfold unit_bag, steps; rewrite !map_length, seq_length; lia). unfold unit_bag, steps. rewrite !map_length, seq_length. replace (k - (length l - 1)) with 0 by lia. reflexivity.
  - rewrite (proj2 (Nat.eqb_neq _ _) Q). rewrite app_nth1 by (unfold unit_bag, steps; rewrite !map_length, seq_length; lia). unfold unit_bag, steps. rewrite map_map.
    rewrite (nth_indep _ _ ((fun x => (((nth (S x) l F0 - nth x l F0)%F), F1)) 0)) by (rewrite map_length, seq_length; lia). rewrite (map_nth (fun x => (((nth (S x) l F0 - nth x l F0)%F), @F1 p))), seq_nth by lia. reflexivity.
Qed.
Lemma steps_diffs : forall (l : list (F p)) g, l <> [] -> logd (wcol (diffs l) (dsel (length l)) (ones (length l))) g = logd (unit_bag (steps l)) g.
Proof.
  intros l g Hne. assert (Hlen : 0 < length l) by (destruct l; [contradiction|cbn; lia]).
  rewrite <- (diffs_len l Hne) at 2. rewrite wcol_one by (rewrite dsel_len, diffs_len; auto). rewrite (diffs_unit l Hne), logd_app. unfold logd at 2. cbn [map fst snd]. rewrite Fsum_cons, Fsum_nil. unfold Fdiv. ring.
Qed.
Lemma in_steps : forall (l : list (F p)) i, S i < length l -> In (nth (S i) l F0 - nth i l F0)%F (steps l).
Proof. intros l i H. unfold steps. apply in_map_iff. exists i. split; [reflexivity|apply in_seq; lia]. Qed.
Lemma unit_in_weights : forall (a b : list (F p)) (m : list (F p)), length a < fsize p -> length m = length b -> same_bag (unit_bag a) (combine b m) -> incl a b.
Proof.
  intros a b m Ha Hm Hs. rewrite <- (wcol_unit a (length a) eq_refl), <- (wcol_sel1 b m Hm) in Hs.
  pose proof (inclusion_rows Hp a (ones (length a)) b (ones (length b)) m) as X. rewrite !(rows_ones Hp) in X. apply X; unfold ones; rewrite ?repeat_length; auto. apply (ones_boolean).
Qed.

Lemma mod_min : forall j N k, j < 2 ^ N -> j mod 2 ^ k = j mod 2 ^ Nat.min k N.
Proof.
  intros j N k Hj. destruct (Nat.le_ge_cases k N) as [H|H]; [rewrite Nat.min_l by exact H; reflexivity|]. rewrite Nat.min_r by exact H. pose proof (Nat.pow_le_mono_r 2 N k ltac:(lia) H). rewrite !Nat.mod_small by lia. reflexivity.
Qed.
Lemma fst_combine : forall (l m : list (F p)), length m = length l -> map fst (combine l m) = l.
Proof. induction l as [|x l IH]; intros [|y m] H; cbn in *; try discriminate; [reflexivity|]. f_equal. apply IH. lia. Qed.
(** The column of indices and the column of next indices are the same bag only over the same number of variables. *)
Lemma index_next : forall N K n, K <= N -> n <= N -> 2 ^ N < fsize p -> Permutation (spread N K (@index_column p K)) (spread N n (@next_column p n)) -> K = n.
Proof.
  intros N K n HK Hn Hf HP. pose proof (Nat.pow_le_mono_r 2 K N ltac:(lia) HK) as B1. pose proof (Nat.pow_le_mono_r 2 n N ltac:(lia) Hn) as B2. pose proof (Nat.pow_nonzero 2 K) as Z1. pose proof (Nat.pow_nonzero 2 n) as Z2.
  assert (I1 : forall c, c < 2 ^ K -> exists j, j < 2 ^ n /\ c = (j + 1) mod 2 ^ n).
  { intros c Hc. assert (Hin : In (ofN c) (spread N K (@index_column p K))).
    { rewrite spread_table. apply in_table. exists c. split; [lia|]. unfold per. rewrite Nat.mod_small by lia. apply index_nth. exact Hc. }
    apply (Permutation_in _ HP) in Hin. rewrite spread_table in Hin. apply in_table in Hin. destruct Hin as [j [_ Hj]]. unfold per in Hj. rewrite next_nth in Hj by apply mod_lt. exists (j mod 2 ^ n). split; [apply mod_lt|].
    pose proof (mod_lt (j mod 2 ^ n + 1) n). apply ofN_inj in Hj; [lia|unfold fsize in *; lia|unfold fsize in *; lia]. }
  assert (I2 : forall j, j < 2 ^ n -> exists c, c < 2 ^ K /\ c = (j + 1) mod 2 ^ n).
  { intros j Hj. pose proof (mod_lt (j + 1) n) as Hm. assert (Hin : In (ofN ((j + 1) mod 2 ^ n)) (spread N n (@next_column p n))).
    { rewrite spread_table. apply in_table. exists j. split; [lia|]. unfold per. rewrite Nat.mod_small by lia. apply next_nth. exact Hj. }
    apply (Permutation_in _ (Permutation_sym HP)) in Hin. rewrite spread_table in Hin. apply in_table in Hin. destruct Hin as [c [_ Hc]]. unfold per in Hc. rewrite index_nth in Hc by apply mod_lt. exists (c mod 2 ^ K). split; [apply mod_lt|].
    pose proof (mod_lt c K). apply ofN_inj in Hc; [lia|unfold fsize in *; lia|unfold fsize in *; lia]. }
  destruct (Nat.lt_trichotomy K n) as [H|[H|H]]; [|exact H|].
  - pose proof (Nat.pow_lt_mono_r 2 K n ltac:(lia) H) as Hlt. destruct (I2 (2 ^ n - 2) ltac:(lia)) as [c [Hc1 Hc2]]. rewrite Nat.mod_small in Hc2 by lia. lia.
  - pose proof (Nat.pow_lt_mono_r 2 n K ltac:(lia) H) as Hlt. destruct (I1 (2 ^ n) ltac:(lia)) as [j [Hj1 Hj2]]. pose proof (mod_lt (j + 1) n). lia.
Qed.
(** The challenges, when the column of indices is read with [K] variables. *)
Definition sort_lucky_at A (N n nr K q m : nat) (l rl : list (F p)) (g g1 g2 : F p) : Prop :=
  (let a := combine (spread N K (index_column K)) (spread N n l) in
   let b := combine (spread N n (next_column n)) (column A N q) in
   ~ clash a b g /\ ~ unlucky (unit_bag (folded g a)) (unit_bag (folded g b)) g1) /\
  ~ unlucky (unit_bag (steps l)) (combine rl (averaged A N m nr)) g2.
Lemma strict_sort_sound_at : forall debug v v' fx rx, vready v -> strict_sort_verify o debug v fx rx = Ok v' ->
  exists g g1 g2 q m k, (q = vt_next v + 2 /\ m = vt_next v + 37) /\ mget (vt_virt v') q = Some (VQuery q) /\ mget (vt_virt v') m = Some (VQuery m) /\ mget (vt_virt v') k = Some (VFun ordered_fun) /\
   sound v v' [g; g1; g2] (fun A N V => 2 ^ N < fsize p ->
    forall l sl rl, plist_bag A V N fx l sl -> plist A V N (bc_poly rx) (bc_nv rx) rl -> sort_lucky_at A N (bc_nv fx) (bc_nv rx) (Nat.min (fst (A k)) N) q m l rl g g1 g2 ->
    sorted_by rl l sl).
Proof.
  intros debug v v' fx rx R H. pose proof (vgo_refl v R) as G. unfold strict_sort_verify in H. cbv zeta in H. set (n := bc_nv fx) in *.
  assert (Hlen : 0 < 2 ^ n) by (pose proof (Nat.pow_nonzero 2 n); lia).
  assert (Ls : length (next_column (p:=p) n) = 2 ^ n) by apply next_len. assert (Ld : length (dsel (p:=p) (2 ^ n)) = 2 ^ n) by (apply dsel_len; exact Hlen).
  rewrite shift_next, (from_evals n _ Ls) in H. cbn [bind] in H. rewrite diff_sel_ok in H by exact Hlen. cbn [bind] in H. rewrite (from_evals n _ Ld) in H. cbn [bind] in H.
  vvirt G H. vvirt G H. vtrans G H.
  destruct (presc_perm_verify _ _ _ _ _ _) as [w| |] eqn:Eb in H; cbn [bind] in H; try discriminate.
  destruct (presc_perm_soundN o Hp H2 _ _ _ _ _ _ (y_ready _ _ _ G) Eb eq_refl) as [g [g1 [Eo [G1 HQ]]]].
  pose proof (proj1 (proj2 (presc_perm_got o _ _ _ _ _ _ (y_ready _ _ _ G) Eb))) as Hnx. pose proof (y_next _ _ _ G) as Hlt. fwd G1. vjoin G G1.
  vvirt G H. vvirt G H. vvirt G H. vadds G H. vvirt G H. vvirt G H.
  match type of H with context [inclusion_verify ?o ?d ?v ?a ?b] => destruct (inclusion_verify o d v a b) as [w1| |] eqn:Ec; cbn [bind] in H; try discriminate H end.
  destruct (inclusion_sound o Hp H2 _ _ _ _ _ (y_ready _ _ _ G) Ec) as [g2 [Em [G2 HI]]]. pose proof (y_next _ _ _ G) as Hlt2. fwd G2. vjoin G G2.
  destruct (no_zeros_sound _ _ _ _ (y_ready _ _ _ G) H) as [G3 HZ]. fwd G3. pose proof G as G4. vjoin G G3.
  match type of Em with mget _ ?k = _ => match type of Eo with mget _ ?k' = _ => exists g, g1, g2, i1, k, k' end end.
  split; [lia|]. split; [assumption|]. split; [exact Em|]. split; [exact Eo|]. split; [exact G|].
  intros A N V S C Hf l sl rl [[L1 [L2 L3]] [_ [L4 L5]]] HR HL. destruct HL as [HL1 HL3].
  match type of Eo with mget _ ?k = _ => set (K := Nat.min (fst (A k)) N) in * end. destruct HL1 as [HL1 HL2]. cbv zeta in HL1, HL2. pose proof (HQ A N V S C) as HQ'. pose proof (HI A N V S C) as HI'. pose proof (HZ A N V S C) as HZ'. clear HQ HI HZ.
  cbn [bc_poly bc_sel bc_nv] in HQ', HI', HZ'. fold n in L1, L2, L3, L4, L5. pose proof (Nat.pow_le_mono_r 2 n N ltac:(lia) L1) as Hle. lift S.
  (* the committed column *)
  destruct (HQ' _ _ _ L3 (ps_query _ _ _ _ _ Im1) (ps_mle H2 _ _ _ _ _ _ Im0 Ls)) as [X1 [X2 X3]]. cbv zeta in X1, X2, X3. clear HQ'.
  set (a := combine (spread N K (index_column K)) (spread N n l)) in *. set (b := combine (spread N n (next_column n)) (column A N i1)) in *.
  match type of Eo with mget _ ?k = _ => assert (Ta : table_of N (fun j => (ofN (j mod 2 ^ fst (A k)) + g * per n l j)%F) = folded g a);
    [unfold a; rewrite !spread_table, folded_table; apply table_ext; intros j Hj; f_equal; unfold per; rewrite index_nth by apply mod_lt; f_equal; apply mod_min; exact Hj|] end.
  assert (Tb : table_of N (fun j => (per n (next_column n) j + g * leaf A i1 j)%F) = folded g b).
  { unfold b. rewrite spread_table, column_table, folded_table. reflexivity. }
  rewrite Ta in X1, X3. rewrite Tb in X2, X3.
  assert (La : length (folded g a) = 2 ^ N) by (rewrite <- Ta; apply table_len). assert (Lb : length (folded g b) = 2 ^ N) by (rewrite <- Tb; apply table_len).
  rewrite !wcol_unit in X3 by assumption.
  assert (Hperm : Permutation a b).
  { apply (folded_perm _ _ g HL1). apply (unit_perm Hp); [lia|lia|]. intros x. destruct (F_dec (weight (unit_bag (folded g a)) x) (weight (unit_bag (folded g b)) x)) as [D|D]; [exact D|].
    exfalso. apply HL2. repeat split; rewrite ?unit_fst; auto. }
  assert (HK : K = n).
  { apply (index_next N); [unfold K; apply Nat.le_min_r|exact L1|exact Hf|]. assert (LS : forall k (c : list (F p)), length (spread N k c) = 2 ^ N) by (intros; unfold spread; rewrite map_length, seq_length; reflexivity).
    apply (Permutation_map fst) in Hperm. unfold a, b in Hperm. rewrite !fst_combine in Hperm by (unfold column; rewrite ?LS, ?map_length, ?seq_length; reflexivity). exact Hperm. }
  assert (Hq : forall j, j < 2 ^ N -> leaf A i1 j = per n (rot l) j).
  { unfold a in Hperm. rewrite HK in Hperm. apply (rot_from_perm n N l); auto. intros r Hr. eapply Permutation_in; [apply Permutation_sym; exact Hperm|exact Hr]. }
  assert (Hne : l <> []) by (intros ->; cbn in L2; lia). assert (Lf : length (diffs l) = 2 ^ n) by (rewrite diffs_len; auto).
  (* the differences *)
  assert (Pd : psem A V N i6 (per n (diffs l))).
  { eapply psem_ext; [apply (ps_sub _ _ _ _ _ _ _ _ Im6 (ps_adds _ _ _ _ _ _ _ Im5 (ps_mul _ _ _ _ _ _ _ _ Im4 (ps_mle H2 _ _ _ _ _ _ Im2 Ld) (ps_sub _ _ _ _ _ _ _ _ Im3 (ps_query _ _ _ _ _ Im1) L3))) (ps_mle H2 _ _ _ _ _ _ Im2 Ld))|].
    intros j Hj. cbn beta. rewrite Hq by exact Hj. unfold per. pose proof (mod_lt j n) as Hm. rewrite dsel_nth, diffs_nth by lia. rewrite L2. destruct (Datatypes.S (j mod 2 ^ n) =? 2 ^ n) eqn:Q; [ring|].
    apply Nat.eqb_neq in Q. rewrite rot_nth by lia. ring. }
  assert (Psel : plist A V N i2 n (dsel (2 ^ n))) by (split; [exact L1|split; [exact Ld|apply ps_mle; assumption]]).
  destruct HR as [R1 [R2 R3]]. 
  assert (Prs : plist A V N i7 (bc_nv rx) (ones (2 ^ bc_nv rx))).
  { split; [exact R1|]. split; [apply repeat_length|]. eapply psem_ext; [apply ps_one; exact Im7|]. intros j Hj. unfold per, ones. rewrite nth_repeat_lt by apply mod_lt. reflexivity. }
  destruct (HI' (diffs l) (dsel (2 ^ n)) rl (ones (2 ^ bc_nv rx))) as [Y1 [Y2 Y3]]; [split; [split; [exact L1|split; [exact Lf|exact Pd]]|exact Psel]|split; [split; [exact R1|split; [exact R2|exact R3]]|exact Prs]|].
  assert (Lm : length (averaged A N (vt_next u7) (bc_nv rx)) = length rl) by (rewrite R2; unfold averaged; rewrite map_length, seq_length; reflexivity).
  rewrite Lf in Y3. rewrite <- L2, (steps_diffs l g2 Hne) in Y3. rewrite <- R2, (wcol_sel1 rl _ Lm) in Y3.
  assert (Hinc : incl (steps l) rl).
  { apply (unit_in_weights (steps l) rl (averaged A N (vt_next u7) (bc_nv rx))); [unfold steps; rewrite map_length, seq_length; lia|exact Lm|].
    intros x. destruct (F_dec (weight (unit_bag (steps l)) x) (weight (combine rl (averaged A N (vt_next u7) (bc_nv rx))) x)) as [D|D]; [exact D|]. exfalso. apply HL3. repeat split; rewrite ?unit_fst; auto.
    - intros Hin. apply Y1. unfold steps in Hin. apply in_map_iff in Hin. destruct Hin as [k [Hk1 Hk2]]. apply in_seq in Hk2. rewrite <- Hk1.
      replace (nth (Datatypes.S k) l F0 - nth k l F0)%F with (nth k (diffs l) F0); [apply nth_In; lia|]. rewrite diffs_nth by lia. destruct (Datatypes.S k =? length l) eqn:Q; [apply Nat.eqb_eq in Q; lia|reflexivity].
    - intros Hin. apply Y2. apply in_map_iff in Hin. destruct Hin as [r [Hr1 Hr2]]. rewrite <- Hr1. eapply in_combine_fst. exact Hr2. }
  intros k Hi. split; [apply Hinc; apply in_steps; exact Hi|]. intros Hs He.
  apply (HZ' _ _ Pd L5 k ltac:(lia)); unfold per; rewrite (Nat.mod_small k) by lia; [exact Hs|]. rewrite diffs_nth by lia. destruct (Datatypes.S k =? length l) eqn:Q; [apply Nat.eqb_eq in Q; lia|]. rewrite He. ring.
Qed.
Lemma strict_sort_sound : forall debug v v' fx rx, vready v -> strict_sort_verify o debug v fx rx = Ok v' ->
  exists g g1 g2 q m, vt_next v <= q /\ mget (vt_virt v') q = Some (VQuery q) /\ vt_next v <= m /\ mget (vt_virt v') m = Some (VQuery m) /\
   sound v v' [g; g1; g2] (fun A N V => 2 ^ N < fsize p ->
    forall l sl rl, plist_bag A V N fx l sl -> plist A V N (bc_poly rx) (bc_nv rx) rl -> sort_lucky A N (bc_nv fx) (bc_nv rx) q m l rl g g1 g2 ->
    sorted_by rl l sl).
Proof.
  intros debug v v' fx rx R H. destruct (strict_sort_sound_at debug v v' fx rx R H) as [g [g1 [g2 [q [m [k [[Q1 Q2] [Mq [Mm [_ S]]]]]]]]]]. exists g, g1, g2, q, m. split; [lia|]. split; [exact Mq|]. split; [lia|]. split; [exact Mm|].
  destruct S as [S1 S2]. split; [exact S1|]. intros A N V HS C Hf l sl rl HB HR [HL1 HL2]. apply (S2 A N V HS C Hf l sl rl HB HR). split; [apply HL1; apply Nat.le_min_r|exact HL2].
Qed.
End P.
