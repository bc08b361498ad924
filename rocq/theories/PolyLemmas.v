(** Root counting, interpolation uniqueness, counting of challenge vectors. *)
From Coq Require Import List Arith Lia Bool ZArith Znumtheory Field.
Import ListNotations.
From Verif Require Import Res ResLemmas Fp FSum SpecMle MleLemmas SpecPoly.
Local Open Scope nat_scope.

Section Poly.
Context {p : positive}.
Add Ring Fr : (@F_ring p).

Lemma peval_nil : forall x : F p, peval [] x = F0. Proof. reflexivity. Qed.
Lemma peval_cons : forall c cs (x : F p), peval (c :: cs) x = (c + x * peval cs x)%F. Proof. reflexivity. Qed.

(** Synthetic division. *)
Fixpoint pquot (cs : list (F p)) (a : F p) : list (F p) :=
  match cs with
  | [] => []
  | c :: r => match r with [] => [] | _ => peval r a :: pquot r a end
  end.

Lemma pquot_length : forall cs a, length (pquot cs a) = length cs - 1.
Proof.
  induction cs as [|c cs IH]; intros a; [reflexivity|]. destruct cs as [|c' cs]; [reflexivity|].
  simpl pquot. simpl pquot in IH. simpl length in *. rewrite IH. lia.
Qed.

Lemma pquot_spec : forall (cs : list (F p)) a x, peval cs x = (peval cs a + (x - a) * peval (pquot cs a) x)%F.
Proof.
  induction cs as [|c cs IH]; intros a x; [rewrite !peval_nil; ring|].
  destruct cs as [|c' cs].
  - simpl pquot. rewrite !peval_cons, !peval_nil. ring.
  - change (pquot (c :: c' :: cs) a) with (peval (c' :: cs) a :: pquot (c' :: cs) a).
    rewrite (peval_cons c (c' :: cs) x), (peval_cons c (c' :: cs) a), (peval_cons (peval (c' :: cs) a)).
    rewrite (IH a x) at 1. ring.
Qed.

(** Closure properties *)
Lemma polyfun_ext : forall d (f g : F p -> F p), (forall x, f x = g x) -> polyfun d f -> polyfun d g.
Proof. intros d f g H [cs [Hl He]]. exists cs. split; [exact Hl|]. intros x. rewrite <- H. apply He. Qed.

Lemma polyfun_mono : forall d e (f : F p -> F p), d <= e -> polyfun d f -> polyfun e f.
Proof. intros d e f H [cs [Hl He]]. exists cs. split; [lia|exact He]. Qed.

Lemma polyfun_const : forall d c, polyfun d (fun _ : F p => c).
Proof. intros d c. exists [c]. split; [simpl; lia|]. intros x. rewrite peval_cons, peval_nil. ring. Qed.

Lemma polyfun_id : forall d, 1 <= d -> polyfun d (fun x : F p => x).
Proof. intros d H. exists [F0; F1]. split; [simpl; lia|]. intros x. rewrite !peval_cons, peval_nil. ring. Qed.

Fixpoint padd (a b : list (F p)) : list (F p) :=
  match a, b with
  | [], b => b
  | a, [] => a
  | x :: a, y :: b => (x + y)%F :: padd a b
  end.
Lemma padd_eval : forall a b x, peval (padd a b) x = (peval a x + peval b x)%F.
Proof.
  induction a as [|c a IH]; intros b x; [simpl padd; rewrite peval_nil; ring|].
  destruct b as [|e b]; [simpl padd; rewrite peval_nil; ring|].
  simpl padd. rewrite !peval_cons, IH. ring.
Qed.
Lemma padd_length : forall a b, length (padd a b) = Nat.max (length a) (length b).
Proof. induction a as [|c a IH]; intros b; [reflexivity|]. destruct b; simpl; [reflexivity|]. rewrite IH. reflexivity. Qed.

Lemma polyfun_add : forall d (f g : F p -> F p), polyfun d f -> polyfun d g -> polyfun d (fun x => f x + g x)%F.
Proof.
  intros d f g [a [Ha Hea]] [b [Hb Heb]]. exists (padd a b). split; [rewrite padd_length; lia|].
  intros x. rewrite padd_eval, Hea, Heb. reflexivity.
Qed.

Lemma pscale_eval : forall (c : F p) a x, peval (map (Fmul c) a) x = (c * peval a x)%F.
Proof.
  induction a as [|e a IH]; intros x; [simpl; ring|].
  simpl map. rewrite !peval_cons, IH. ring.
Qed.
Lemma polyfun_scale : forall d c (f : F p -> F p), polyfun d f -> polyfun d (fun x => c * f x)%F.
Proof.
  intros d c f [a [Ha Hea]]. exists (map (Fmul c) a). split; [rewrite map_length; exact Ha|].
  intros x. rewrite pscale_eval, Hea. reflexivity.
Qed.
Lemma polyfun_sub : forall d (f g : F p -> F p), polyfun d f -> polyfun d g -> polyfun d (fun x => f x - g x)%F.
Proof.
  intros d f g Hf Hg. apply (polyfun_ext d (fun x => f x + (- F1) * g x)%F).
  - intros x. ring.
  - apply polyfun_add; [exact Hf|]. apply polyfun_scale. exact Hg.
Qed.

Fixpoint pmul (a b : list (F p)) : list (F p) :=
  match a with
  | [] => []
  | [c] => map (Fmul c) b
  | c :: a => padd (map (Fmul c) b) (F0 :: pmul a b)
  end.
Lemma pmul_eval : forall a b x, peval (pmul a b) x = (peval a x * peval b x)%F.
Proof.
  induction a as [|c a IH]; intros b x; [simpl; ring|].
  destruct a as [|c' a].
  - simpl pmul. rewrite pscale_eval, peval_cons, peval_nil. ring.
  - change (pmul (c :: c' :: a) b) with (padd (map (Fmul c) b) (F0 :: pmul (c' :: a) b)).
    rewrite padd_eval, pscale_eval, (peval_cons F0), IH, (peval_cons c). ring.
Qed.
Lemma pmul_length : forall a b, length (pmul a b) <= length a + length b - 1.
Proof.
  induction a as [|c a IH]; intros b; [simpl; lia|]. destruct a as [|c' a].
  - simpl. rewrite map_length. lia.
  - change (pmul (c :: c' :: a) b) with (padd (map (Fmul c) b) (F0 :: pmul (c' :: a) b)).
    rewrite padd_length, map_length. specialize (IH b). simpl length in *. lia.
Qed.
Lemma polyfun_mul : forall d e (f g : F p -> F p), polyfun d f -> polyfun e g -> polyfun (d + e) (fun x => f x * g x)%F.
Proof.
  intros d e f g [a [Ha Hea]] [b [Hb Heb]]. exists (pmul a b).
  split; [pose proof (pmul_length a b); lia|].
  intros x. rewrite pmul_eval, Hea, Heb. reflexivity.
Qed.

Lemma polyfun_linear : forall a b : F p, polyfun 1 (fun x => a + x * b)%F.
Proof. intros a b. exists [a; b]. split; [simpl; lia|]. intros x. rewrite !peval_cons, peval_nil. ring. Qed.

Lemma polyfun_Fsum : forall {A} d (f : A -> F p -> F p) (l : list A),
  (forall a, In a l -> polyfun d (f a)) -> polyfun d (fun x => Fsum (map (fun a => f a x) l)).
Proof.
  intros A d f l. induction l as [|a l IH]; intros H; simpl.
  - apply polyfun_const.
  - apply polyfun_add; [apply H; left; reflexivity|]. apply IH. intros b Hb. apply H. right. exact Hb.
Qed.

Lemma polyfun_sumN : forall d (f : nat -> F p -> F p) n,
  (forall k, k < n -> polyfun d (f k)) -> polyfun d (fun x => sumN n (fun k => f k x)).
Proof.
  intros d f n H. unfold sumN. apply (polyfun_Fsum d f). intros k Hk. apply in_seq in Hk. apply H. lia.
Qed.

Lemma polyfun_Fprod : forall {A} (f : A -> F p -> F p) (l : list A),
  (forall a, In a l -> polyfun 1 (f a)) -> polyfun (length l) (fun x => Fprod (map (fun a => f a x) l)).
Proof.
  intros A f l. induction l as [|a l IH]; intros H; simpl.
  - apply polyfun_const.
  - apply (polyfun_mul 1 (length l)); [apply H; left; reflexivity|]. apply IH. intros b Hb. apply H. right. exact Hb.
Qed.

(** ** Roots *)
Section Prime.
Hypothesis Hp : prime (Zpos p).

Lemma sub_eq_0 : forall a b : F p, (a - b)%F = F0 -> a = b.
Proof.
  intros a b H. replace a with (a - b + b)%F by ring. rewrite H. ring.
Qed.

Lemma peval_roots : forall cs l, NoDup l -> (forall a, In a l -> peval cs a = F0) -> length cs <= length l ->
  forall x : F p, peval cs x = F0.
Proof.
  intros cs. remember (length cs) as n eqn:En. revert cs En. induction n as [|n IH]; intros cs En l Hnd Hr Hl x.
  - destruct cs; [reflexivity|discriminate].
  - destruct l as [|a l]; [simpl in Hl; lia|]. inversion Hnd as [|? ? Hnin Hnd']; subst.
    rewrite (pquot_spec cs a x), (Hr a (or_introl eq_refl)).
    rewrite (IH (pquot cs a)) with (l := l).
    + ring.
    + rewrite pquot_length. lia.
    + exact Hnd'.
    + intros b Hb. assert (Hba : (b - a)%F <> F0).
      { intros E. apply sub_eq_0 in E. subst b. contradiction. }
      pose proof (Hr b (or_intror Hb)) as E. rewrite (pquot_spec cs a b), (Hr a (or_introl eq_refl)) in E.
      assert (E' : ((b - a) * peval (pquot cs a) b)%F = F0) by (rewrite <- E; ring).
      destruct (Fmul_integral Hp _ _ E') as [C|C]; [contradiction|exact C].
    + simpl in Hl. lia.
Qed.

Lemma polyfun_roots : forall d f l, polyfun d f -> NoDup l -> (forall a, In a l -> f a = F0) -> d < length l ->
  forall x : F p, f x = F0.
Proof.
  intros d f l [cs [Hl He]] Hnd Hr Hd x. rewrite He. apply (peval_roots cs l); [exact Hnd| |lia].
  intros a Ha. rewrite <- He. apply Hr. exact Ha.
Qed.

Lemma polyfun_unique : forall d f g l, polyfun d f -> polyfun d g -> NoDup l ->
  (forall a, In a l -> f a = g a) -> d < length l -> forall x : F p, f x = g x.
Proof.
  intros d f g l Hf Hg Hnd Hag Hd x. apply sub_eq_0.
  apply (polyfun_roots d (fun x => f x - g x)%F l); [apply polyfun_sub; assumption|exact Hnd| |exact Hd].
  intros a Ha. rewrite (Hag a Ha). ring.
Qed.

(** A non-zero polynomial function of degree at most d has at most d zeros. *)
Lemma polyfun_zero_count : forall d f, polyfun d f -> (exists x : F p, f x <> F0) ->
  count (fun a => Feqb (f a) F0) (allF p) <= d.
Proof.
  intros d f Hf [x Hx]. unfold count.
  destruct (Nat.le_gt_cases (length (filter (fun a => Feqb (f a) F0) (allF p))) d) as [H|H]; [exact H|].
  exfalso. apply Hx. apply (polyfun_roots d f (filter (fun a => Feqb (f a) F0) (allF p))).
  - exact Hf.
  - apply NoDup_filter. apply allF_NoDup.
  - intros a Ha. apply filter_In in Ha. destruct Ha as [_ Ha]. apply Feqb_eq. exact Ha.
  - exact H.
Qed.

Lemma polyfun_agree_count : forall d f g, polyfun d f -> polyfun d g -> (exists x : F p, f x <> g x) ->
  count (fun a => Feqb (f a) (g a)) (allF p) <= d.
Proof.
  intros d f g Hf Hg [x Hx].
  assert (E : count (fun a => Feqb (f a) (g a)) (allF p) = count (fun a => Feqb (f a - g a) F0) (allF p)).
  { unfold count. f_equal. apply filter_ext. intros a.
    destruct (Feqb (f a) (g a)) eqn:E1; destruct (Feqb (f a - g a) F0) eqn:E2; try reflexivity; exfalso.
    - apply Feqb_eq in E1. apply Feqb_neq in E2. apply E2. rewrite E1. ring.
    - apply Feqb_eq in E2. apply Feqb_neq in E1. apply E1. apply sub_eq_0. exact E2. }
  rewrite E. apply (polyfun_zero_count d (fun a => f a - g a)%F).
  - apply polyfun_sub; assumption.
  - exists x. intros C. apply Hx. apply sub_eq_0. exact C.
Qed.

(** The interpolation nodes 0..d are distinct when d < p. *)
Lemma nodes_NoDup : forall n, n <= fsize p -> NoDup (map (ofN (p:=p)) (seq 0 n)).
Proof.
  intros n Hn. apply NoDup_map_inj'; [|apply seq_NoDup]. unfold fsize in Hn.
  intros a b Ha Hb E. apply in_seq in Ha. apply in_seq in Hb.
  apply (@ofN_inj p); [lia|lia|exact E].
Qed.

Lemma polyfun_unique_nodes : forall d f g, polyfun d f -> polyfun d g -> S d <= fsize p ->
  (forall i, i <= d -> f (ofN i) = g (ofN i)) -> forall x : F p, f x = g x.
Proof.
  intros d f g Hf Hg Hd H. apply (polyfun_unique d f g (map ofN (seq 0 (S d)))); auto.
  - apply nodes_NoDup. exact Hd.
  - intros a Ha. apply in_map_iff in Ha. destruct Ha as [i [<- Hi]]. apply in_seq in Hi. apply H. lia.
  - rewrite map_length, seq_length. lia.
Qed.
End Prime.
End Poly.

(** ** Counting vectors *)
Section Count.
Context {p : positive}.

Lemma count_app : forall {A} (P : A -> bool) l1 l2, count P (l1 ++ l2) = count P l1 + count P l2.
Proof. intros A P l1 l2. unfold count. rewrite filter_app, app_length. reflexivity. Qed.

Lemma count_cons : forall {A} (P : A -> bool) a l, count P (a :: l) = (if P a then 1 else 0) + count P l.
Proof. intros A P a l. unfold count. simpl. destruct (P a); reflexivity. Qed.

Lemma count_map : forall {A B} (P : B -> bool) (f : A -> B) l, count P (map f l) = count (fun a => P (f a)) l.
Proof.
  intros A B P f l. unfold count. induction l as [|a l IH]; [reflexivity|]. simpl.
  destruct (P (f a)); simpl; rewrite IH; reflexivity.
Qed.

Lemma count_flat_map : forall {A B} (P : B -> bool) (f : A -> list B) l,
  count P (flat_map f l) = list_sum (map (fun a => count P (f a)) l).
Proof.
  intros A B P f l. induction l as [|a l IH]; [reflexivity|]. simpl. rewrite count_app, IH. reflexivity.
Qed.

Lemma count_le : forall {A} (P Q : A -> bool) l, (forall a, In a l -> P a = true -> Q a = true) -> count P l <= count Q l.
Proof.
  intros A P Q l. unfold count. induction l as [|a l IH]; intros H; [reflexivity|]. simpl.
  assert (IH' := IH (fun b Hb => H b (or_intror Hb))). specialize (H a (or_introl eq_refl)).
  destruct (P a); destruct (Q a); simpl; try lia; specialize (H eq_refl); discriminate.
Qed.

Lemma count_ext : forall {A} (P Q : A -> bool) l, (forall a, In a l -> P a = Q a) -> count P l = count Q l.
Proof. intros A P Q l H. unfold count. f_equal. apply filter_ext_in. exact H. Qed.

Lemma count_length : forall {A} (P : A -> bool) l, count P l <= length l.
Proof. intros A P l. unfold count. induction l as [|a l IH]; [reflexivity|]. simpl. destruct (P a); simpl; lia. Qed.

Lemma count_false : forall {A} (P : A -> bool) l, (forall a, In a l -> P a = false) -> count P l = 0.
Proof.
  intros A P l. unfold count. induction l as [|a l IH]; intros H; [reflexivity|]. simpl.
  rewrite (H a (or_introl eq_refl)). apply IH. intros b Hb. apply H. right. exact Hb.
Qed.

Lemma count_or : forall {A} (P Q : A -> bool) l, count (fun a => P a || Q a) l <= count P l + count Q l.
Proof.
  intros A P Q l. unfold count. induction l as [|a l IH]; [reflexivity|]. simpl.
  destruct (P a); destruct (Q a); simpl; lia.
Qed.

Lemma list_sum_map_bound : forall {A} (f : A -> nat) l B, (forall a, In a l -> f a <= B) -> list_sum (map f l) <= length l * B.
Proof.
  intros A f l B. induction l as [|a l IH]; intros H; simpl; [lia|].
  pose proof (H a (or_introl eq_refl)). assert (list_sum (map f l) <= length l * B) by (apply IH; intros b Hb; apply H; right; exact Hb). lia.
Qed.

Lemma fsize_pos : 0 < fsize p. Proof. unfold fsize. lia. Qed.

Lemma allV_length : forall n, length (allV p n) = fsize p ^ n.
Proof.
  induction n as [|n IH]; [reflexivity|]. simpl.
  assert (E : forall l : list (F p), length (flat_map (fun a => map (cons a) (allV p n)) l) = length l * fsize p ^ n).
  { induction l as [|a l IHl]; [reflexivity|]. simpl. rewrite app_length, map_length, IH, IHl. reflexivity. }
  rewrite E, allF_length. reflexivity.
Qed.

Lemma allV_complete : forall n (x : list (F p)), length x = n -> In x (allV p n).
Proof.
  induction n as [|n IH]; intros x Hx.
  - destruct x; [left; reflexivity|discriminate].
  - destruct x as [|a x]; [discriminate|]. simpl. apply in_flat_map. exists a. split; [apply allF_complete|].
    apply in_map. apply IH. simpl in Hx. lia.
Qed.

Lemma allV_in_length : forall n (x : list (F p)), In x (allV p n) -> length x = n.
Proof.
  induction n as [|n IH]; intros x Hx; simpl in Hx.
  - destruct Hx as [<-|[]]. reflexivity.
  - apply in_flat_map in Hx. destruct Hx as [a [_ Hx]]. apply in_map_iff in Hx.
    destruct Hx as [y [<- Hy]]. simpl. rewrite (IH y Hy). reflexivity.
Qed.

Lemma allV_NoDup : forall n, NoDup (allV p n).
Proof.
  induction n as [|n IH]; [constructor; [simpl; auto|constructor]|]. simpl.
  assert (G : forall l : list (F p), NoDup l -> NoDup (flat_map (fun a => map (cons a) (allV p n)) l)).
  { induction l as [|a l IHl]; intros Hl; [constructor|]. simpl. inversion Hl as [|? ? Hnin Hl']; subst.

    assert (D : forall x, In x (map (cons a) (allV p n)) -> In x (flat_map (fun a => map (cons a) (allV p n)) l) -> False).
    { intros x H1 H2. apply in_map_iff in H1. destruct H1 as [y [<- _]]. apply in_flat_map in H2.
      destruct H2 as [b [Hb H2]]. apply in_map_iff in H2. destruct H2 as [z [E _]]. inversion E; subst. contradiction. }
    assert (N1 : NoDup (map (cons a) (allV p n))).
    { apply NoDup_map_inj'; [|exact IH]. intros x y _ _ E. inversion E. reflexivity. }
    specialize (IHl Hl'). revert D N1. generalize (map (cons a) (allV p n)) as l1.
    induction l1 as [|x l1 IH1]; intros D N1; simpl; [exact IHl|].
    inversion N1 as [|? ? Hx N1']; subst. constructor.
    - intros Hin. apply in_app_iff in Hin. destruct Hin as [Hin|Hin]; [contradiction|].
      apply (D x); [left; reflexivity|exact Hin].
    - apply IH1; [|exact N1']. intros y Hy. apply D. right. exact Hy. }
  apply G. apply allF_NoDup.
Qed.

Lemma count_allV_S : forall n (Q : list (F p) -> bool),
  count Q (allV p (S n)) = list_sum (map (fun a => count (fun x => Q (a :: x)) (allV p n)) (allF p)).
Proof.
  intros n Q. simpl. rewrite count_flat_map. f_equal. apply map_ext. intros a. apply count_map.
Qed.

Lemma count_allV_bound : forall n (Q : list (F p) -> bool), count Q (allV p n) <= fsize p ^ n.
Proof. intros n Q. rewrite <- allV_length. apply count_length. Qed.

(** One step of a union bound: at most d values of the first coordinate are bad, the others leave at most B vectors. *)
Lemma count_step : forall n d B (bad : F p -> bool) (Q : list (F p) -> bool),
  count bad (allF p) <= d ->
  (forall a, bad a = false -> count (fun x => Q (a :: x)) (allV p n) <= B) ->
  count Q (allV p (S n)) <= d * fsize p ^ n + fsize p * B.
Proof.
  intros n d B bad Q Hd HB. rewrite count_allV_S.
  assert (G : forall l : list (F p), list_sum (map (fun a => count (fun x => Q (a :: x)) (allV p n)) l)
     <= count bad l * fsize p ^ n + length l * B).
  { induction l as [|a l IH]; [simpl; lia|]. unfold list_sum in *. cbn [map fold_right length]. rewrite (count_cons bad a l).
    pose proof (count_allV_bound n (fun x => Q (a :: x))) as Hb.
    destruct (bad a) eqn:Eb.
    - lia.
    - specialize (HB a Eb). lia. }
  specialize (G (allF p)). rewrite allF_length in G. fold (fsize p) in G. nia.
Qed.

(** The usual arithmetic of the bound. *)
Lemma bound_step : forall n d, d * fsize p ^ n + fsize p * (n * d * fsize p ^ (n - 1)) <= S n * d * fsize p ^ n.
Proof.
  intros n d. destruct n as [|n]; [simpl; lia|]. replace (S n - 1) with n by lia.
  simpl Nat.pow. generalize (fsize p ^ n). intros q. generalize (fsize p). intros P. nia.
Qed.
End Count.

(** Schwartz-Zippel for multilinear extensions. *)
Section SZ.
Context {p : positive}.
Hypothesis Hp : prime (Zpos p).
Add Ring Fr2 : (@F_ring p).

Lemma mle_zero_count : forall n (f : nat -> F p), (exists k, k < 2 ^ n /\ f k <> F0) ->
  count (fun r => Feqb (mle_ext n f r) F0) (allV p n) <= n * fsize p ^ (n - 1).
Proof.
  induction n as [|n IH]; intros f [k [Hk Hf]].
  - simpl in Hk. replace k with 0 in Hf by lia. rewrite count_false; [lia|].
    intros r Hr. simpl in Hr. destruct Hr as [<-|[]]. rewrite mle_ext_0. apply Feqb_neq. exact Hf.
  - replace (S n - 1) with n by lia.
    eapply Nat.le_trans; [|pose proof (@bound_step p n 1) as B; rewrite !Nat.mul_1_r in B; exact B].
    set (f0 := fun j => f (2 * j)). set (f1 := fun j => f (2 * j + 1)).
    set (j := Nat.div2 k).
    assert (Hj : j < 2 ^ n).
    { unfold j. rewrite Nat.div2_div. apply Nat.div_lt_upper_bound; [lia|]. rewrite <- pow2_S. exact Hk. }
    apply (count_step n 1 (n * fsize p ^ (n - 1)) (fun a => Feqb (f0 j + (f1 j - f0 j) * a)%F F0)).
    + apply (polyfun_zero_count Hp).
      * apply (polyfun_ext 1 (fun a => f0 j + a * (f1 j - f0 j))%F); [intros x; ring|]. apply polyfun_linear.
      * destruct (even_odd_cases k) as [i [E|E]].
        -- exists F0. assert (j = i) by (unfold j; rewrite E; apply Nat.div2_double). intros C. apply Hf.
           rewrite E, <- H. unfold f0 in C. rewrite <- C at 1. ring.
        -- exists F1. assert (j = i) by (unfold j; rewrite E, Nat.add_1_r; apply Nat.div2_succ_double). intros C. apply Hf.
           rewrite E, <- H. unfold f1, f0 in C. rewrite <- C at 1. ring.
    + intros a Ha. apply Feqb_neq in Ha.
      rewrite (count_ext _ (fun x => Feqb (mle_ext n (fun i => f0 i + (f1 i - f0 i) * a)%F x) F0)).
      * apply IH. exists j. split; [exact Hj|exact Ha].
      * intros x Hx. rewrite mle_ext_cons'. reflexivity.
Qed.
End SZ.
