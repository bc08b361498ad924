(** Multiplicity counts and the inclusion advice. *)
From Coq Require Import List Arith Lia Bool ZArith Znumtheory Permutation.
Import ListNotations.
From Verif Require Import Res ResLemmas Fp FSum SpecMle MleLemmas SpecPoly PolyLemmas SpecTracker SpecIop ModelMle ModelVp ModelTranscript ModelSumcheck Pairing ModelKzg ModelBatch ModelProver ModelVerifier
  ModelAdvice ModelIop ProverProofs IopBasic LogDeriv BagLemmas.
Local Open Scope list_scope.
Local Open Scope nat_scope.

Section A.
Context {p : positive}.
Notation F := (F p).
Add Ring Fr : (@F_ring p).
Implicit Types (l sl : list F) (x : F).

Lemma foldM_app : forall A B (f : B -> A -> res B) (l1 l2 : list A) b, foldM f b (l1 ++ l2) = (b' <- foldM f b l1 ;; foldM f b' l2).
Proof. intros A B f l1. induction l1 as [|a l1 IH]; intros l2 b; [reflexivity|]. cbn [foldM app]. destruct (f b a); cbn [bind]; auto. Qed.
Lemma foldM_inv : forall B (f : B -> nat -> res B) (I : nat -> B -> Prop) n b0, I 0 b0 ->
  (forall i b, i < n -> I i b -> exists b', f b i = Ok b' /\ I (S i) b') -> exists b, foldM f b0 (seq 0 n) = Ok b /\ I n b.
Proof.
  intros B f I n b0 H0. induction n as [|n IH]; intros H; [exists b0; auto|]. destruct IH as [b [E1 I1]]; [intros; apply H; auto|].
  destruct (H n b ltac:(lia) I1) as [b' [E2 I2]]. exists b'. rewrite seq_S, foldM_app, E1. cbn [bind foldM Nat.add]. rewrite E2. auto.
Qed.
Lemma rnth_ok : forall A (l : list A) i d, i < length l -> rnth l i = Ok (nth i l d).
Proof. intros A l i d H. unfold rnth. rewrite (nth_error_nth' l d H). reflexivity. Qed.
Lemma firstn_snoc : forall A (l : list A) i d, i < length l -> firstn (S i) l = firstn i l ++ [nth i l d].
Proof. intros A l. induction l as [|a l IH]; intros [|i] d H; cbn in *; try lia; [reflexivity|]. f_equal. apply IH. lia. Qed.
Lemma rows_app : forall l sl l' sl', length l = length sl -> rows (l ++ l') (sl ++ sl') = rows l sl ++ rows l' sl'.
Proof.
  intros l. induction l as [|a l IH]; intros [|s sl] l' sl' H; cbn in H; try discriminate; [reflexivity|]. cbn [app]. rewrite !rows_cons, IH by lia. apply app_assoc.
Qed.
Lemma rows_snoc : forall l sl i, length l = length sl -> i < length l ->
  rows (firstn (S i) l) (firstn (S i) sl) = rows (firstn i l) (firstn i sl) ++ (if Feqb (nth i sl F0) F0 then [] else [nth i l F0]).
Proof.
  intros l sl i H Hi. rewrite (firstn_snoc _ l i F0), (firstn_snoc _ sl i F0) by lia. rewrite rows_app by (rewrite !firstn_length; lia). f_equal. rewrite rows_cons. cbn [rows]. destruct (Feqb (nth i sl F0) F0); reflexivity.
Qed.
Lemma wcol_app : forall l sl m l' sl' m', length sl = length l -> length m = length l -> wcol (l ++ l') (sl ++ sl') (m ++ m') = wcol l sl m ++ wcol l' sl' m'.
Proof.
  intros l. induction l as [|a l IH]; intros [|s sl] [|y m] l' sl' m' H1 H2; cbn in H1, H2; try discriminate; [reflexivity|]. cbn [app]. rewrite !wcol_cons, IH by lia. reflexivity.
Qed.

(** ** Counts *)
Lemma fget_filter_other : forall (m : @fmap p) x y, x <> y -> fget (filter (fun e => negb (Feqb (fst e) x)) m) y = fget m y.
Proof.
  intros m x y H. induction m as [|[z n] m IH]; [reflexivity|]. cbn [filter fst]. destruct (Feqb z x) eqn:Hz; cbn [negb fget].
  - apply Feqb_eq in Hz. subst z. rewrite IH. apply Feqb_neq in H. rewrite H. reflexivity.
  - rewrite IH. reflexivity.
Qed.
Lemma fget_fput : forall (m : @fmap p) x n y, fget (fput m x n) y = if Feqb x y then Some n else fget m y.
Proof.
  intros m x n y. unfold fput. cbn [fget]. destruct (Feqb x y) eqn:H; [reflexivity|]. apply fget_filter_other. apply Feqb_neq. exact H.
Qed.
(** The map holds exactly the values of [r] with their numbers of occurrences. *)
Definition counts (m : @fmap p) (r : list F) : Prop := forall x, fget m x = match count_occ F_dec r x with O => None | S k => Some (S k) end.
Lemma count_snoc : forall r y x, count_occ F_dec (r ++ [y]) x = count_occ F_dec r x + (if Feqb y x then 1 else 0).
Proof.
  intros r y x. rewrite count_occ_app. cbn [count_occ]. destruct (F_dec y x) as [->|H]; [rewrite Feqb_refl; reflexivity|]. apply Feqb_neq in H. rewrite H. reflexivity.
Qed.
Lemma count_ok : forall l sl, length l = length sl -> exists m, vec_multiplicity_count l sl = Ok m /\ counts m (rows l sl).
Proof.
  intros l sl H. unfold vec_multiplicity_count.
  destruct (foldM_inv _ (count_step l sl) (fun i m => counts m (rows (firstn i l) (firstn i sl))) (length l) []) as [m [E1 I1]].
  - intros x. reflexivity.
  - intros i m Hi HI. unfold count_step. rewrite (rnth_ok _ sl i F0) by lia. cbn [bind]. rewrite rows_snoc by assumption. destruct (Feqb (nth i sl F0) F0) eqn:Hs.
    + exists m. split; [reflexivity|]. rewrite app_nil_r. exact HI.
    + rewrite (rnth_ok _ l i F0) by lia. cbn [bind]. set (y := nth i l F0). pose proof (HI y) as Hy.
      destruct (fget m y) as [n|] eqn:Hg; eexists; (split; [reflexivity|]); intros x; rewrite fget_fput, count_snoc; destruct (Feqb y x) eqn:Hx.
      * apply Feqb_eq in Hx. subst x. destruct (count_occ F_dec _ y); [discriminate|]. inversion Hy. rewrite !Nat.add_1_r. reflexivity.
      * rewrite Nat.add_0_r. apply HI.
      * apply Feqb_eq in Hx. subst x. destruct (count_occ F_dec _ y); [reflexivity|discriminate].
      * rewrite Nat.add_0_r. apply HI.
  - exists m. split; [exact E1|]. rewrite H, firstn_all in I1. rewrite <- H, firstn_all in I1. exact I1.
Qed.
Lemma count_short : forall l sl, length sl < length l -> vec_multiplicity_count l sl = Panic.
Proof.
  intros l sl H. unfold vec_multiplicity_count. replace (length l) with (length sl + (length l - length sl)) by lia. rewrite seq_app, foldM_app. 
  assert (Hn : forall n, n <= length sl -> exists m, foldM (count_step l sl) [] (seq 0 n) = Ok m).
  { intros n Hn. destruct (foldM_inv _ (count_step l sl) (fun _ _ => True) n []) as [m [E1 _]]; [exact I| |exists m; exact E1].
    intros i m Hi _. unfold count_step. rewrite (rnth_ok _ sl i F0) by lia. cbn [bind]. destruct (Feqb _ F0); [eauto|]. rewrite (rnth_ok _ l i F0) by lia. cbn [bind]. destruct (fget m _); eauto. }
  destruct (Hn (length sl) ltac:(lia)) as [m ->]. cbn [bind Nat.add]. destruct (length l - length sl) as [|k] eqn:Hk; [lia|]. cbn [seq foldM]. unfold count_step at 1. unfold rnth at 1.
  rewrite (proj2 (nth_error_None sl (length sl))) by lia. reflexivity.
Qed.

(** ** Inclusion advice *)
Lemma incl_ok : forall n il isl m sl ssl, counts m (rows il isl) -> length sl = 2 ^ n -> length ssl = length sl -> boolean ssl ->
  exists st, foldM (incl_step sl ssl) (m, []) (seq 0 (length sl)) = Ok st /\ length (snd st) = length sl /\
    forall x, weight (wcol sl ssl (snd st)) x = if in_dec F_dec x (rows sl ssl) then ofN (count_occ F_dec (rows il isl) x) else F0.
Proof.
  intros n il isl m sl ssl Hm Hl Hs Hb. set (r := rows il isl) in *.
  destruct (foldM_inv _ (incl_step sl ssl) (fun i st => length (snd st) = i /\
     (forall x, fget (fst st) x = if in_dec F_dec x (rows (firstn i sl) (firstn i ssl)) then match count_occ F_dec r x with O => None | S k => Some 0 end else fget m x) /\
     (forall x, weight (wcol (firstn i sl) (firstn i ssl) (snd st)) x = if in_dec F_dec x (rows (firstn i sl) (firstn i ssl)) then ofN (count_occ F_dec r x) else F0)) (length sl) (m, [])) as [st [E1 [I1 [I2 I3]]]].
  - split; [reflexivity|]. split; intros x; reflexivity.
  - intros i [m0 acc] Hi [J1 [J2 J3]]. cbn [fst snd] in *. unfold incl_step. rewrite (rnth_ok _ ssl i F0) by lia. cbn [bind fst snd]. rewrite rows_snoc by lia.
    assert (Hw : forall c x, weight (wcol (firstn (S i) sl) (firstn (S i) ssl) (acc ++ [c])) x =
       (weight (wcol (firstn i sl) (firstn i ssl) acc) x + (if Feqb (nth i sl F0) x then nth i ssl F0 * c else F0))%F).
    { intros c x. rewrite (firstn_snoc _ sl i F0), (firstn_snoc _ ssl i F0) by lia. rewrite wcol_app by (rewrite ?firstn_length; lia). rewrite weight_app. f_equal. rewrite wcol_cons, weight_cons. cbn [fst snd].
      change (weight (wcol [] [] []) x) with (@F0 p). destruct (Feqb _ x); ring. }
    destruct (Feqb (nth i ssl F0) F0) eqn:Hz.
    + eexists. split; [reflexivity|]. cbn [fst snd]. rewrite app_nil_r. split; [rewrite app_length; cbn; lia|]. split; [exact J2|]. intros x. rewrite Hw, <- J3. destruct (Feqb _ x); ring.
    + assert (Hone : nth i ssl F0 = F1).
      { unfold boolean in Hb. rewrite Forall_nth_iff in Hb. destruct (Hb i ltac:(lia)) as [Q|Q]; [|exact Q]. apply Feqb_neq in Hz. contradiction. }
      rewrite (rnth_ok _ sl i F0) by lia. cbn [bind]. set (y := nth i sl F0) in *. set (R := rows (firstn i sl) (firstn i ssl)) in *. rewrite Hone in Hw.
      assert (Hin : forall x, In x (R ++ [y]) <-> In x R \/ x = y) by (intros x; rewrite in_app_iff; cbn; intuition).
      assert (Hd : forall T x (a b : T), (if in_dec F_dec x (R ++ [y]) then a else b) = if in_dec F_dec x R then a else if Feqb y x then a else b).
      { intros T x a b. destruct (Feqb y x) eqn:Q; [apply Feqb_eq in Q|apply Feqb_neq in Q]; destruct (in_dec F_dec x (R ++ [y])) as [Q1|Q1], (in_dec F_dec x R) as [Q2|Q2]; try reflexivity; exfalso; rewrite Hin in Q1; intuition congruence. }
      pose proof (J2 y) as Jy. pose proof (Hm y) as My. destruct (fget m0 y) as [c|] eqn:Hg.
      * eexists. split; [reflexivity|]. cbn [fst snd]. split; [rewrite app_length; cbn; lia|]. split; intros x.
        { rewrite fget_fput, Hd, J2. destruct (Feqb y x) eqn:Q; [|reflexivity]. apply Feqb_eq in Q. subst x. destruct (in_dec F_dec y R) as [Q|Q].
          - destruct (count_occ F_dec r y); [discriminate|reflexivity].
          - destruct (count_occ F_dec r y); [congruence|]. reflexivity. }
        { rewrite Hw, Hd, J3. destruct (Feqb y x) eqn:Q; [apply Feqb_eq in Q; subst x|destruct (in_dec F_dec x R); ring]. destruct (in_dec F_dec y R) as [Q|Q].
          - destruct (count_occ F_dec r y); inversion Jy. rewrite ofN_0. ring.
          - rewrite My in Jy. destruct (count_occ F_dec r y); inversion Jy. ring. }
      * eexists. split; [reflexivity|]. cbn [fst snd]. assert (Hc : count_occ F_dec r y = 0).
        { destruct (in_dec F_dec y R); destruct (count_occ F_dec r y); try reflexivity; congruence. }
        split; [rewrite app_length; cbn; lia|]. split; intros x.
        { rewrite Hd, J2. destruct (in_dec F_dec x R); [reflexivity|]. destruct (Feqb y x) eqn:Q; [|reflexivity]. apply Feqb_eq in Q. subst x. rewrite Hc in *. exact My. }
        { rewrite Hw, Hd, J3. destruct (in_dec F_dec x R); destruct (Feqb y x) eqn:Q; try (apply Feqb_eq in Q; subst x; rewrite Hc, ?ofN_0); ring. }
  - exists st. split; [exact E1|]. split; [exact I1|]. intros x. rewrite firstn_all, <- Hs, firstn_all in I3. apply I3.
Qed.
Definition incl_weights (il isl sl ssl m : list F) : Prop :=
  length m = length sl /\ forall x, weight (wcol sl ssl m) x = if in_dec F_dec x (rows sl ssl) then ofN (count_occ F_dec (rows il isl) x) else F0.
Lemma inclusion_advice_ok : forall n n' il isl sl ssl, length il = length isl -> length sl = 2 ^ n -> length ssl = length sl -> boolean ssl ->
  exists m, inclusion_advice_mle (mkMle n' il) (mkMle n' isl) (mkMle n sl) (mkMle n ssl) = Ok (mkMle n m) /\ incl_weights il isl sl ssl m.
Proof.
  intros n n' il isl sl ssl H1 H2 H3 Hb. unfold inclusion_advice_mle, mle_multiplicity_count. cbn [evs nv]. destruct (count_ok il isl H1) as [m [-> Hm]]. cbn [bind].
  destruct (incl_ok n il isl m sl ssl Hm H2 H3 Hb) as [st [-> [I1 I2]]]. cbn [bind]. unfold from_evaluations. rewrite I1, H2, Nat.eqb_refl. cbn [rassert bind]. exists (snd st). split; [reflexivity|]. split; [exact I1|exact I2].
Qed.
Hypothesis Hp : prime (Zpos p).
Lemma incl_weights_same : forall il isl sl ssl m, length il = length isl -> boolean isl -> length il < fsize p -> length sl = length ssl -> incl_weights il isl sl ssl m ->
  (same_bag (wcol il isl (repeat F1 (length il))) (wcol sl ssl m) <-> incl (rows il isl) (rows sl ssl)).
Proof.
  intros il isl sl ssl m H1 Hb Hl H2 [Hm HW]. split.
  - intros Hs. apply (inclusion_rows Hp il isl sl ssl m); auto.
  - intros Hi x. rewrite HW, weight_rows by (auto; apply (F1_neq_0 Hp)). destruct (in_dec F_dec x (rows sl ssl)) as [Q|Q]; [reflexivity|].
    rewrite (proj1 (count_occ_not_In F_dec _ x)); [reflexivity|]. intros Hx. apply Q. apply Hi. exact Hx.
Qed.
End A.
