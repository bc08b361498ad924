(** The statements of the advice properties, derived. *)
From Coq Require Import List Arith Lia Bool ZArith Znumtheory Permutation.
Import ListNotations.
From Verif Require Import Res ResLemmas Fp FSum SpecMle MleLemmas SpecPoly PolyLemmas SpecIop SpecRel ModelMle ModelAdvice IopBasic LogDeriv BagLemmas CompSound2 AdviceProofs AdviceProofs2 AdviceProofs3 AdviceProofs4 AdviceProofs5.
Local Open Scope list_scope.
Local Open Scope nat_scope.

Section A.
Context {p : positive}.
Notation F := (F p).
Add Ring Fr : (@F_ring p).

Lemma disjoint_iff : prime (Zpos p) -> forall an bn (a sa b sb : list F), length a = 2 ^ an -> length sa = 2 ^ an -> length b = 2 ^ bn -> length sb = 2 ^ bn ->
  length a < fsize p -> length b < fsize p -> exists vals sel ma mb, disjoint_advice an bn a sa b sb = Ok (vals, sel, ma, mb) /\
    ((forall i, (nth i (evs ma) F0 * nth i (evs mb) F0)%F = F0) <-> forall x, In x (rows a sa) -> ~ In x (rows b sb)).
Proof.
  intros Hp an bn a sa b sb L1 L2 L3 L4 La Lb. destruct (disjoint_advice_ok an bn a sa b sb L1 L2 L3 L4) as [vals [_ [Hv H]]]. cbv zeta in H. destruct H as [_ H]. do 4 eexists. split; [exact H|]. cbn [evs]. apply disjoint_products; assumption.
Qed.

(** ** The partition of the join reduction *)
Lemma rows_split : @F1 p <> F0 -> forall (l s m : list F), length s = length l -> length m = length l -> boolean m -> Permutation (rows l s) (rows l (both s m) ++ rows l (both s (opposite m))).
Proof.
  intros H10. induction l as [|a l IH]; intros [|s sl] [|m ml] L1 L2 B; try discriminate; [constructor|]. inversion B as [|? ? B1 B2]; subst. injection L1 as L1. injection L2 as L2. specialize (IH sl ml L1 L2 B2).
  change (both (s :: sl) (m :: ml)) with ((s * m)%F :: both sl ml). change (both (s :: sl) (opposite (m :: ml))) with ((s * (F1 - m))%F :: both sl (opposite ml)). rewrite !rows_cons.
  destruct B1 as [-> | ->].
  - replace (s * F0)%F with (@F0 p) by ring. replace (s * (F1 - F0))%F with s by ring. rewrite (proj2 (Feqb_eq _ _) eq_refl). cbn [app]. destruct (Feqb s F0); cbn [app]; [exact IH|]. apply Permutation_cons_app. exact IH.
  - replace (s * F1)%F with s by ring. replace (s * (F1 - F1))%F with (@F0 p) by ring. rewrite (proj2 (Feqb_eq F0 F0) eq_refl). cbn [app]. destruct (Feqb s F0); cbn [app]; [exact IH|]. constructor. exact IH.
Qed.
Lemma marked_rows : @F1 p <> F0 -> forall (l s m r : list F), length s = length l -> length m = length l -> (forall i, i < length l -> nth i m F0 = if in_dec F_dec (nth i l F0) r then F0 else F1) ->
  boolean m /\ (forall x, In x (rows l (both s m)) <-> In x (rows l s) /\ ~ In x r) /\ (forall x, In x (rows l (both s (opposite m))) <-> In x (rows l s) /\ In x r).
Proof.
  intros H10 l s m r L1 L2 H. split; [|split].
  - unfold boolean. apply Forall_forall. intros y Hy. apply (In_nth _ _ F0) in Hy. destruct Hy as [i [Hi <-]]. rewrite H by lia. destruct (in_dec _ _ _); [left|right]; reflexivity.
  - intros x. rewrite !rows_In by (rewrite ?both_len; lia). split.
    + intros [k [K1 [K2 K3]]]. rewrite both_nth in K3 by lia. rewrite H in K3 by exact K1. destruct (in_dec _ _ _) as [D|D]; [exfalso; apply K3; ring|]. split; [|rewrite <- K2; exact D]. exists k. split; [exact K1|]. split; [exact K2|]. intros Q. apply K3. rewrite Q. ring.
    + intros [[k [K1 [K2 K3]]] Hx]. exists k. split; [exact K1|]. split; [exact K2|]. rewrite both_nth by lia. rewrite H by exact K1. rewrite K2. destruct (in_dec _ _ _) as [D|D]; [contradiction|]. replace (nth k s F0 * F1)%F with (nth k s F0) by ring. exact K3.
  - intros x. rewrite !rows_In by (rewrite ?both_len; rewrite ?opp_len; lia). split.
    + intros [k [K1 [K2 K3]]]. rewrite both_nth in K3 by (rewrite ?opp_len; lia). rewrite opp_nth in K3 by lia. rewrite H in K3 by exact K1. destruct (in_dec _ _ _) as [D|D]; [|exfalso; apply K3; ring]. split; [|rewrite <- K2; exact D]. exists k. split; [exact K1|]. split; [exact K2|]. intros Q. apply K3. rewrite Q. ring.
    + intros [[k [K1 [K2 K3]]] Hx]. exists k. split; [exact K1|]. split; [exact K2|]. rewrite both_nth by (rewrite ?opp_len; lia). rewrite opp_nth by lia. rewrite H by exact K1. rewrite K2. destruct (in_dec _ _ _) as [D|D]; [|contradiction]. replace (nth k s F0 * (F1 - F0))%F with (nth k s F0) by ring. exact K3.
Qed.
Lemma join_partition : @F1 p <> F0 -> forall (a sa b sb : mle p), wf_mle a -> length (evs sa) = length (evs a) -> wf_mle b -> length (evs sb) = length (evs b) ->
  exists l r, join_reduction_advice a sa b sb = Ok (l, r) /\
    (forall x, In x (rows (evs a) (both (evs sa) (opposite (evs l)))) <-> In x (rows (evs b) (both (evs sb) (opposite (evs r))))) /\
    Permutation (rows (evs a) (evs sa)) (rows (evs a) (both (evs sa) (evs l)) ++ rows (evs a) (both (evs sa) (opposite (evs l)))) /\
    Permutation (rows (evs b) (evs sb)) (rows (evs b) (both (evs sb) (evs r)) ++ rows (evs b) (both (evs sb) (opposite (evs r)))) /\
    (forall x, In x (rows (evs a) (both (evs sa) (evs l))) -> ~ In x (rows (evs b) (evs sb))) /\
    (forall x, In x (rows (evs b) (both (evs sb) (evs r))) -> ~ In x (rows (evs a) (evs sa))).
Proof.
  intros H10 a sa b sb Wa La Wb Lb. destruct (join_advice_ok a sa b sb Wa La Wb Lb) as [l [r [E1 [Ll [Lr [Hl Hr]]]]]]. do 2 eexists. split; [exact E1|]. cbn [evs].
  destruct (marked_rows H10 (evs a) (evs sa) l _ La Ll Hl) as [Bl [Ml Kl]]. destruct (marked_rows H10 (evs b) (evs sb) r _ Lb Lr Hr) as [Br [Mr Kr]].
  split; [intros x; rewrite Kl, Kr; tauto|]. split; [apply rows_split; assumption|]. split; [apply rows_split; assumption|]. split; intros x Hx; [apply Ml in Hx|apply Mr in Hx]; tauto.
Qed.

Lemma index_moved : forall debug tr (old act : list F) n, length act = 2 ^ n -> length tr = 2 ^ n -> (forall i, i < 2 ^ n -> nth i act F0 = F1 -> nth i tr 0 < length old) ->
  exists new, index_transformed debug tr old act n = Ok (mkMle n new) /\ length new = 2 ^ n /\
    forall i, i < 2 ^ n -> nth i new F0 = if F_dec (nth i act F0) F1 then nth (nth i tr 0) old F0 else F0.
Proof.
  intros debug tr old act n L1 L2 H. rewrite (index_transformed_ok debug tr old act n L1 L2 H). eexists. split; [reflexivity|]. split; [rewrite map_length, seq_length; reflexivity|]. intros i Hi.
  set (f := fun i => if Feqb (nth i act F0) F1 then nth (nth i tr 0) old F0 else F0). rewrite (nth_indep _ F0 (f 0)) by (rewrite map_length, seq_length; exact Hi). rewrite (map_nth f), seq_nth by exact Hi. unfold f. cbn [plus].
  destruct (Feqb (nth i act F0) F1) eqn:Q; [apply Feqb_eq in Q|apply Feqb_neq in Q]; destruct (F_dec _ _); congruence.
Qed.

Lemma lmrm_left : forall an bn (a sa b sb : list F) x y lv ls m r mults,
  rows (firstn (2 ^ an) a) (firstn (2 ^ an) sa) <> [] -> rows (firstn (2 ^ bn) b) (firstn (2 ^ bn) sb) <> [] -> nth_error a 0 = Some x -> nth_error b 0 = Some y -> (val x < val y)%Z ->
  lmr_multiplicity_split an bn a sa b sb = Ok ((lv, ls), m, r, mults) -> nth 0 (evs lv) F0 <> x /\ In (nth 0 (evs lv) F0) a.
Proof.
  intros an bn a sa b sb x y lv ls m r mults Ha Hb Hx Hy Hlt H. apply (lmrm_wrong an bn a sa b sb ls ((m, r), mults) x y); try assumption; match goal with |- 0 < length ?r => destruct r; [contradiction|cbn; lia] end.
Qed.
Lemma open_run_end : forall (x : F) n fuel k m, k <= n -> open_run fuel (repeat x n) k x m = Panic.
Proof.
  intros x n fuel. induction fuel as [|fuel IH]; intros k m Hk; [reflexivity|]. cbn [open_run]. unfold rnth. destruct (Nat.eq_dec k n) as [->|D].
  - rewrite (proj2 (nth_error_None _ _)) by (rewrite repeat_length; lia). reflexivity.
  - rewrite nth_error_repeat by lia. cbn [ounwrap bind]. rewrite (proj2 (Feqb_eq x x) eq_refl). apply IH. lia.
Qed.
Lemma lmrm_panic : forall an bn (sa b sb : list F) x y,
  rows (firstn (2 ^ an) (repeat x (2 ^ an))) (firstn (2 ^ an) sa) <> [] -> rows (firstn (2 ^ bn) b) (firstn (2 ^ bn) sb) <> [] -> nth_error b 0 = Some y -> (val x < val y)%Z ->
  lmr_multiplicity_split an bn (repeat x (2 ^ an)) sa b sb = Panic.
Proof.
  intros an bn sa b sb x y Ha Hb Hy Hlt. unfold lmr_multiplicity_split, rassert. destruct (_ && _); [|reflexivity]. cbn [bind]. cbv zeta.
  assert (Pn : forall l sl, length (lmr_sorted (p:=p) l sl) = length (rows l sl)) by (intros l0 sl0; unfold lmr_sorted; rewrite (Permutation_length (ssort_perm _ _)), selected_rows; reflexivity). rewrite !Pn.
  set (na := length (rows (firstn (2 ^ an) (repeat x (2 ^ an))) (firstn (2 ^ an) sa))) in *. set (nb := length (rows (firstn (2 ^ bn) b) (firstn (2 ^ bn) sb))) in *.
  assert (Na : 0 < na) by (unfold na; destruct (rows _ (firstn _ sa)); [contradiction|cbn; lia]). assert (Nb : 0 < nb) by (unfold nb; destruct (rows _ (firstn _ sb)); [contradiction|cbn; lia]).
  cbn [lmrm_loop]. cbn [mm_a mm_b]. rewrite (proj2 (Nat.ltb_lt 0 na) Na), (proj2 (Nat.ltb_lt 0 nb) Nb). cbn [andb]. unfold rnth at 1 2. rewrite nth_error_repeat by (pose proof (Nat.pow_nonzero 2 an); lia). rewrite Hy. cbn [ounwrap bind]. unfold Fltb at 1. rewrite (proj2 (Z.ltb_lt _ _) Hlt).
  rewrite open_run_end by lia. reflexivity.
Qed.
End A.

Lemma lmr_order_refuted : ~ forall an bn (a sa b sb : list (F 101)) l ls ma mb r, length a = 2 ^ an -> length sa = 2 ^ an -> length b = 2 ^ bn -> length sb = 2 ^ bn -> boolean sa -> boolean sb ->
  lmr_split an bn a sa b sb = Ok ((l, ls), ma, mb, r) -> forall x, In x (rows (evs l) (evs ls)) -> ~ In x (rows b sb).
Proof.
  intros H. pose (c := fun l : list Z => map (@ofZ 101) l).
  assert (Q : match lmr_split 2 2 (c [4; 3; 2; 1]%Z) (c [1; 1; 1; 1]%Z) (c [1; 2; 5; 5]%Z) (c [1; 1; 1; 1]%Z) with Ok ((l, ls), _, _, _) => nth 3 (rows (evs l) (evs ls)) F0 = ofZ 1 /\ 3 < length (rows (evs l) (evs ls)) | _ => False end) by (vm_compute; split; [reflexivity|lia]).
  destruct (lmr_split 2 2 (c [4; 3; 2; 1]%Z) (c [1; 1; 1; 1]%Z) (c [1; 2; 5; 5]%Z) (c [1; 1; 1; 1]%Z)) as [[[[[l ls] ma] mb] r]| |] eqn:D; try contradiction. destruct Q as [Q1 Q2].
  assert (B : boolean (c [1; 1; 1; 1]%Z)) by (repeat constructor; right; reflexivity). refine (H 2 2 _ _ _ _ l ls ma mb r _ _ _ _ B B D (ofZ 1) _ _); [reflexivity..| |].
  - rewrite <- Q1. apply nth_In. exact Q2.
  - vm_compute. left. reflexivity.
Qed.
