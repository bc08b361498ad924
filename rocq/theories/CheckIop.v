(** The comparison and the challenge of a protocol together: how often different bags pass. *)
From Coq Require Import String List Arith Lia Bool ZArith Znumtheory Permutation.
Import ListNotations.
From Verif Require Import Res ResLemmas Fp FSum SpecMle SpecPoly SpecTracker SpecIop ModelTranscript SumcheckHist PolyLemmas Pairing ModelKzg ModelBatch ModelProver ModelVerifier ModelIop
  LogDeriv BagLemmas SortSound IopClaims SessHist SessProofs CheckHist CheckProofs CheckIopHist.
Local Open Scope list_scope.
Local Open Scope nat_scope.

Section P.
Context {p : positive} {E : pairing p}.
Hypothesis Hp : prime (Zpos p).
Hypothesis H22 : 2 < fsize p.
Notation F := (F p).
Notation comm := (gcar (PG1 E)).

Definition unluckyb (a b : wbag (p:=p)) (g : F) : bool :=
  if in_dec F_dec g (map fst a) then false else if in_dec F_dec g (map fst b) then false else if F_dec (logd a g) (logd b g) then true else false.
Lemma unluckyb_iff : forall (a b : wbag (p:=p)) g, ~ same_bag a b -> (unluckyb a b g = true <-> unlucky a b g).
Proof.
  intros a b g Hs. unfold unluckyb, unlucky. destruct (in_dec F_dec g (map fst a)) as [H|H]; [split; [discriminate|intros X; exfalso; tauto]|].
  destruct (in_dec F_dec g (map fst b)) as [H1|H1]; [split; [discriminate|intros X; exfalso; tauto]|].
  destruct (F_dec (logd a g) (logd b g)) as [H2|H2]; [split; [tauto|reflexivity]|split; [discriminate|intros X; exfalso; tauto]].
Qed.
Lemma count_filter : forall {X} (P : X -> bool) l, count P l = length (filter P l).
Proof. reflexivity. Qed.
Lemma unlucky_count : forall a b : wbag (p:=p), exists bad : F -> bool, (forall g, unlucky a b g -> bad g = true) /\ count bad (allF p) <= length a + length b.
Proof.
  intros a b. destruct (same_bag_dec a b) as [Hs|Hs].
  { exists (fun _ => false). split; [|rewrite count_false; [lia|reflexivity]]. intros g H. unfold unlucky in H. tauto. }
  exists (unluckyb a b). split; [intros g H; apply unluckyb_iff; assumption|]. rewrite count_filter. set (gs := filter _ _).
  assert (N : NoDup gs) by (apply NoDup_filter; apply allF_NoDup).
  assert (U : Forall (unlucky a b) gs).
  { apply Forall_forall. intros g Hg. apply filter_In in Hg. destruct Hg as [_ Hg]. apply unluckyb_iff; assumption. }
  pose proof (unlucky_few Hp a b gs N U) as X.
  pose proof (NoDup_incl_length (l := nodup F_dec (map fst (a ++ b))) (l' := map fst (a ++ b)) (NoDup_nodup _ _) (fun x Hx => proj1 (nodup_In F_dec _ x) Hx)) as Y.
  rewrite map_length, app_length in Y. lia.
Qed.

Definition clashb (a b : list (F * F)) (g : F) : bool :=
  existsb (fun r => existsb (fun r' => if F_dec (fst r) (fst r') then (if F_dec (snd r) (snd r') then false else Feqb (fst r + g * snd r) (fst r' + g * snd r')%F) else Feqb (fst r + g * snd r) (fst r' + g * snd r')%F) (a ++ b)) (a ++ b).
Lemma clashb_iff : forall a b g, clashb a b g = true <-> clash a b g.
Proof.
  intros a b g. unfold clashb, clash. rewrite existsb_exists. split.
  - intros [r [Hr H]]. rewrite existsb_exists in H. destruct H as [r' [Hr' H]]. exists r, r'. split; [exact Hr|]. split; [exact Hr'|].
    destruct (F_dec (fst r) (fst r')) as [D|D]; [destruct (F_dec (snd r) (snd r')) as [D'|D']; [discriminate H|]|];
      (split; [intros ->; congruence|apply Feqb_eq; exact H]).
  - intros [r [r' [Hr [Hr' [Hn He]]]]]. exists r. split; [exact Hr|]. rewrite existsb_exists. exists r'. split; [exact Hr'|]. apply Feqb_eq in He.
    destruct (F_dec (fst r) (fst r')) as [D|D]; [destruct (F_dec (snd r) (snd r')) as [D'|D']|]; try exact He. destruct Hn. destruct r, r'. cbn [fst snd] in D, D'. congruence.
Qed.
Lemma clash_count : forall a b : list (F * F), exists bad : F -> bool, (forall g, clash a b g -> bad g = true) /\ count bad (allF p) <= (length a + length b) * (length a + length b).
Proof.
  intros a b. exists (clashb a b). split; [intros g H; apply clashb_iff; exact H|]. rewrite count_filter. apply (clash_few Hp); [apply NoDup_filter; apply allF_NoDup|].
  apply Forall_forall. intros g Hg. apply filter_In in Hg. apply clashb_iff. tauto.
Qed.

(** Challenges drawn one after the other, each with few bad values given those before it. *)
Lemma multi_count : forall k n C (bad : list F -> F -> Prop) (B : nat -> nat) (Q : list F -> bool), 1 <= n ->
  (forall pre, length pre < k -> exists b, (forall g, bad pre g -> b g = true) /\ count b (allF p) <= B (length pre)) ->
  (forall gs, length gs = k -> (forall i, i < k -> ~ bad (firstn i gs) (nth i gs F0)) -> count (fun x => Q (gs ++ x)) (allV p n) <= C * fsize p ^ (n - 1)) ->
  count Q (allV p (k + n)) <= (list_sum (map B (seq 0 k)) + C) * fsize p ^ (k + n - 1).
Proof.
  induction k as [|k IH]; intros n C bad B Q Hn HB HQ.
  - cbn [Nat.add seq map list_sum fold_right]. apply (HQ []); [reflexivity|]. intros i Hi. inversion Hi.
  - destruct (HB [] (Nat.lt_0_succ k)) as [b0 [H1 H2]]. cbn [length] in H2.
    eapply Nat.le_trans; [apply (count_step (k + n) (B 0) ((list_sum (map (fun i => B (S i)) (seq 0 k)) + C) * fsize p ^ (k + n - 1)) b0 Q H2)|].
    + intros a Ha. apply (IH n C (fun pre => bad (a :: pre)) (fun i => B (S i)) (fun x => Q (a :: x)) Hn).
      * intros pre Hpre. apply (HB (a :: pre)). cbn [length]. lia.
      * intros gs Hgs Hb. apply (HQ (a :: gs)); [cbn [length]; lia|]. intros [|i] Hi; cbn [firstn nth].
        -- intros X. rewrite (H1 a X) in Ha. discriminate Ha.
        -- apply Hb. lia.
    + cbn [seq map]. rewrite <- seq_shift, map_map. change (list_sum (B 0 :: ?l)) with (B 0 + list_sum l). replace (S k + n - 1) with (S (k + n - 1)) by lia.
      replace (fsize p ^ (k + n)) with (fsize p * fsize p ^ (k + n - 1)) by (change (fsize p * fsize p ^ (k + n - 1)) with (fsize p ^ S (k + n - 1)); f_equal; lia).
      cbn [Nat.pow]. generalize (fsize p * fsize p ^ (k + n - 1)) (fsize p ^ (k + n - 1)) (list_sum (map (fun x => B (S x)) (seq 0 k))). intros; nia.
Qed.

(** Whatever the call is: if the claims of a session cannot hold unless one of its challenges is bad, the session passes rarely. *)
Lemma after_count : forall k (bad : list F -> F -> Prop) (B : nat -> nat) (A : list F -> reading) N d D m st q (last : list F -> option (vtrk E)),
  1 <= d -> d < fsize p -> 1 <= m + N ->
  (forall pre, length pre < k -> exists b, (forall g, bad pre g -> b g = true) /\ count b (allF p) <= B (length pre)) ->
  (forall gs u, length gs = k -> last gs = Some u -> (exists o, in_session o u) /\ checkable (A gs) N d D m u /\ (forall ch, queries_true (A gs) (facing (st gs) (q gs) u ch)) /\
     (claims_hold (A gs) N u -> (forall i, i < k -> ~ bad (firstn i gs) (nth i gs F0)) -> False)) ->
  count (passes_after k st q last) (allV p (k + (m + N))) <= (list_sum (map B (seq 0 k)) + (N + 2 + N * Nat.max d (D + 1))) * fsize p ^ (k + (m + N) - 1).
Proof.
  intros k bad B A N d D m st q last H1 H2 Hm HB HL. apply (multi_count k (m + N) _ bad B _ Hm HB). intros gs Hk Hgood.
  rewrite (count_ext _ (fun x => match last gs with Some u => passes (st gs) (q gs) u x | None => false end)).
  - destruct (last gs) as [u|] eqn:Hu; [|rewrite count_false; [lia|reflexivity]].
    destruct (HL gs u Hk Hu) as [[o Ho] [[C1 [C2 [C3 [[f C4] [C5 C6]]]]] [Q Hc]]].
    pose proof (check_count Hp (A gs) N o u f D (st gs) (q gs) H22 Ho C1) as X. rewrite C2, C3 in X. apply X; try assumption. intros H. exact (Hc H Hgood).
  - intros x _. unfold passes_after. rewrite firstn_app, skipn_app, Hk, Nat.sub_diag, <- Hk, firstn_all, skipn_all. cbn [firstn skipn]. rewrite app_nil_r. reflexivity.
Qed.

Lemma after_session : forall call gs (v v' u : vtrk E), (forall o v v', call o v = Ok v' -> vcall o v v') -> after_call call gs v v' u -> exists o, in_session o u.
Proof.
  intros call gs v v' u Hc [o [H1 [H2 [_ H4]]]]. exists o. destruct H1 as [vk [cp H1]]. exists vk, cp. pose proof (vcs_more o _ _ _ H1 (Hc _ _ _ H2)) as X.
  clear - X H4. induction H4 as [w|w w' w'' H IH H']; [exact X|]. eapply vcs_more; [apply IH; exact X|exact H'].
Qed.
Lemma checkable_m : forall A N d D m (u : vtrk E), checkable A N d D m u -> 1 <= m.
Proof. intros A N d D m u [_ [_ [H _]]]. unfold drawn_before in H. lia. Qed.
Lemma after_count_any : forall k (bad : list F -> F -> Prop) (B : nat -> nat) (A : list F -> reading) N d D m st q (last : list F -> option (vtrk E)) K,
  1 <= d -> d < fsize p ->
  (forall pre, length pre < k -> exists b, (forall g, bad pre g -> b g = true) /\ count b (allF p) <= B (length pre)) ->
  (forall gs u, length gs = k -> last gs = Some u -> (exists o, in_session o u) /\ checkable (A gs) N d D m u /\ (forall ch, queries_true (A gs) (facing (st gs) (q gs) u ch)) /\
     (claims_hold (A gs) N u -> (forall i, i < k -> ~ bad (firstn i gs) (nth i gs F0)) -> False)) ->
  list_sum (map B (seq 0 k)) <= K ->
  count (passes_after k st q last) (allV p (k + (m + N))) <= (K + (N + 2 + N * Nat.max d (D + 1))) * fsize p ^ (k + (m + N) - 1).
Proof.
  intros k bad B A N d D m st q last K H1 H2 HB HL HK. eapply Nat.le_trans; [|apply Nat.mul_le_mono_r; apply Nat.add_le_mono_r; exact HK].
  destruct (Nat.eq_dec m 0) as [->|Hm]; [|apply (after_count k bad B A N d D m st q last); try assumption; lia].
  rewrite count_false; [lia|]. intros ch Hch. unfold passes_after. destruct (last (firstn k ch)) as [u|] eqn:Hu; [|reflexivity]. exfalso.
  apply allV_in_length in Hch. destruct (HL (firstn k ch) u) as [_ [X _]]; [rewrite firstn_length; lia|exact Hu|]. apply checkable_m in X. lia.
Qed.
Lemma selector_count : forall (A : list F -> reading) N d D m st q (last : list F -> option (vtrk E)) sel n l,
  1 <= d -> d < fsize p ->
  (forall gs u, length gs = 0 -> last gs = Some u -> checkable (A gs) N d D m u /\ (forall ch, queries_true (A gs) (facing (st gs) (q gs) u ch)) /\
     exists v v', after_call (fun _ v => selector_valid_verify v sel) gs v v' u /\ reads (A gs) N v sel n l) ->
  ~ boolean l ->
  count (passes_after 0 st q last) (allV p (m + N)) <= (N + 2 + N * Nat.max d (D + 1)) * fsize p ^ (m + N - 1).
Proof.
  intros A N d D m st q last sel n l H1 H2  HL Hno.
  pose proof (after_count_any 0 (fun _ _ => False) (fun _ => 0) A N d D m st q last 0 H1 H2) as X. cbn [Nat.add seq map list_sum fold_right] in X. apply X; clear X; [intros pre Hpre; inversion Hpre| |constructor].
  intros gs u Hk Hu. destruct (HL gs u Hk Hu) as [C [Q [v [v' [Ha R0]]]]].
    split; [apply (after_session (fun _ v => selector_valid_verify v sel) gs v v' u); [intros o0 v0 v1 H0; eapply vc_selector; exact H0|exact Ha]|]. split; [exact C|]. split; [exact Q|].
    intros Hc Hgood. destruct Ha as [o [S1 [S2 [S3 S4]]]]. pose proof (session_ready o Hp H22 v S1) as RV. pose proof (vcalls_go o Hp H22 v' u S4) as RL.
    destruct (selector_claims Hp H22 v v' u (A gs) N RV RL Hc sel n l S2 R0) as [_ X]. exact (Hno X).
Qed.
Lemma no_zeros_count : forall (A : list F -> reading) N d D m st q (last : list F -> option (vtrk E)) debug b l sl,
  1 <= d -> d < fsize p ->
  (forall gs u, length gs = 0 -> last gs = Some u -> checkable (A gs) N d D m u /\ (forall ch, queries_true (A gs) (facing (st gs) (q gs) u ch)) /\
     exists v v', after_call (fun _ v => no_zeros_verify debug v b) gs v v' u /\ reads (A gs) N v (bc_poly b) (bc_nv b) l /\ reads (A gs) N v (bc_sel b) (bc_nv b) sl) ->
  In F0 (rows l sl) ->
  count (passes_after 0 st q last) (allV p (m + N)) <= (N + 2 + N * Nat.max d (D + 1)) * fsize p ^ (m + N - 1).
Proof.
  intros A N d D m st q last debug b l sl H1 H2  HL Hno.
  pose proof (after_count_any 0 (fun _ _ => False) (fun _ => 0) A N d D m st q last 0 H1 H2) as X. cbn [Nat.add seq map list_sum fold_right] in X. apply X; clear X; [intros pre Hpre; inversion Hpre| |constructor].
  intros gs u Hk Hu. destruct (HL gs u Hk Hu) as [C [Q [v [v' [Ha [R0 R1]]]]]].
    split; [apply (after_session (fun _ v => no_zeros_verify debug v b) gs v v' u); [intros o0 v0 v1 H0; eapply vc_no_zeros; exact H0|exact Ha]|]. split; [exact C|]. split; [exact Q|].
    intros Hc Hgood. destruct Ha as [o [S1 [S2 [S3 S4]]]]. pose proof (session_ready o Hp H22 v S1) as RV. pose proof (vcalls_go o Hp H22 v' u S4) as RL.
    destruct (no_zeros_claims H22 v v' u (A gs) N RV RL Hc debug b l sl S2 R0 R1) as [_ X]. exact (X Hno).
Qed.
Lemma bag_eq_count : forall (A : list F -> reading) N d D m st q (last : list F -> option (vtrk E)) debug fx gx l sl l' sl',
  1 <= d -> d < fsize p -> boolean sl -> boolean sl' -> length l < fsize p -> length l' < fsize p ->
  (forall gs u, length gs = 1 -> last gs = Some u -> checkable (A gs) N d D m u /\ (forall ch, queries_true (A gs) (facing (st gs) (q gs) u ch)) /\
     exists v v', after_call (fun o v => bag_eq_verify o debug v fx gx) gs v v' u /\ reads (A gs) N v (bc_poly fx) (bc_nv fx) l /\ reads (A gs) N v (bc_sel fx) (bc_nv fx) sl /\
       reads (A gs) N v (bc_poly gx) (bc_nv gx) l' /\ reads (A gs) N v (bc_sel gx) (bc_nv gx) sl') ->
  ~ Permutation (rows l sl) (rows l' sl') ->
  count (passes_after 1 st q last) (allV p (1 + (m + N))) <= (length l + length l' + (N + 2 + N * Nat.max d (D + 1))) * fsize p ^ (m + N).
Proof.
  intros A N d D m st q last debug fx gx l sl l' sl' H1 H2 Y0 Y1 Y2 Y3 HL Hno.
  replace (m + N) with (1 + (m + N) - 1) at 2 by lia. apply (after_count_any 1 (fun _ g => unlucky (combine l sl) (combine l' sl') g) (fun _ => length l + length l') A N d D m st q last (length l + length l') H1 H2).
  - intros pre _; destruct (unlucky_count (combine l sl) (combine l' sl')) as [b [X1 X2]]; exists b; split; [exact X1|]; unfold wcol in X2; rewrite ?app_length, ?map_length, ?combine_length in X2; lia.
  - intros gs u Hk Hu. destruct (HL gs u Hk Hu) as [C [Q [v [v' [Ha [R0 [R1 [R2 R3]]]]]]]].
    split; [apply (after_session (fun o v => bag_eq_verify o debug v fx gx) gs v v' u); [intros o0 v0 v1 H0; eapply vc_bag_eq; exact H0|exact Ha]|]. split; [exact C|]. split; [exact Q|].
    intros Hc Hgood. destruct Ha as [o [S1 [S2 [S3 S4]]]]. pose proof (session_ready o Hp H22 v S1) as RV. pose proof (vcalls_go o Hp H22 v' u S4) as RL.
    destruct (bag_eq_claims o Hp H22 v v' u (A gs) N RV RL Hc debug fx gx l sl l' sl' S2 R0 R1 R2 R3 Y0 Y1 Y2 Y3) as [g [X1 [_ X3]]].
    rewrite S3 in X1. clear S3. subst gs. specialize (Hgood 0 Nat.lt_0_1). cbn [firstn nth] in Hgood. apply Hno. apply (X3 Hgood).
  - cbn [seq map list_sum fold_right]. lia.
Qed.
Lemma bag_sum_count : forall (A : list F -> reading) N d D m st q (last : list F -> option (vtrk E)) debug f0 f1 gx l0 sl0 l1 sl1 l sl,
  1 <= d -> d < fsize p -> boolean sl0 -> boolean sl1 -> boolean sl -> length l0 + length l1 < fsize p -> length l < fsize p ->
  (forall gs u, length gs = 1 -> last gs = Some u -> checkable (A gs) N d D m u /\ (forall ch, queries_true (A gs) (facing (st gs) (q gs) u ch)) /\
     exists v v', after_call (fun o v => bag_sum_verify o debug v f0 f1 gx) gs v v' u /\ reads (A gs) N v (bc_poly f0) (bc_nv f0) l0 /\ reads (A gs) N v (bc_sel f0) (bc_nv f0) sl0 /\
       reads (A gs) N v (bc_poly f1) (bc_nv f1) l1 /\ reads (A gs) N v (bc_sel f1) (bc_nv f1) sl1 /\
       reads (A gs) N v (bc_poly gx) (bc_nv gx) l /\ reads (A gs) N v (bc_sel gx) (bc_nv gx) sl) ->
  ~ Permutation (rows l0 sl0 ++ rows l1 sl1) (rows l sl) ->
  count (passes_after 1 st q last) (allV p (1 + (m + N))) <= (length l0 + length l1 + length l + (N + 2 + N * Nat.max d (D + 1))) * fsize p ^ (m + N).
Proof.
  intros A N d D m st q last debug f0 f1 gx l0 sl0 l1 sl1 l sl H1 H2 Y0 Y1 Y2 Y3 Y4 HL Hno.
  replace (m + N) with (1 + (m + N) - 1) at 2 by lia. apply (after_count_any 1 (fun _ g => unlucky (combine l0 sl0 ++ combine l1 sl1) (combine l sl) g) (fun _ => length l0 + length l1 + length l) A N d D m st q last (length l0 + length l1 + length l) H1 H2).
  - intros pre _; destruct (unlucky_count (combine l0 sl0 ++ combine l1 sl1) (combine l sl)) as [b [X1 X2]]; exists b; split; [exact X1|]; unfold wcol in X2; rewrite ?app_length, ?map_length, ?combine_length in X2; lia.
  - intros gs u Hk Hu. destruct (HL gs u Hk Hu) as [C [Q [v [v' [Ha [R0 [R1 [R2 [R3 [R4 R5]]]]]]]]]].
    split; [apply (after_session (fun o v => bag_sum_verify o debug v f0 f1 gx) gs v v' u); [intros o0 v0 v1 H0; eapply vc_bag_sum; exact H0|exact Ha]|]. split; [exact C|]. split; [exact Q|].
    intros Hc Hgood. destruct Ha as [o [S1 [S2 [S3 S4]]]]. pose proof (session_ready o Hp H22 v S1) as RV. pose proof (vcalls_go o Hp H22 v' u S4) as RL.
    destruct (bag_sum_claims o Hp H22 v v' u (A gs) N RV RL Hc debug f0 f1 gx l0 sl0 l1 sl1 l sl S2 R0 R1 R2 R3 R4 R5 Y0 Y1 Y2 Y3 Y4) as [g [X1 [_ X3]]].
    rewrite S3 in X1. clear S3. subst gs. specialize (Hgood 0 Nat.lt_0_1). cbn [firstn nth] in Hgood. apply Hno. apply (X3 Hgood).
  - cbn [seq map list_sum fold_right]. lia.
Qed.
Lemma inclusion_count : forall (A : list F -> reading) N d D m st q (last : list F -> option (vtrk E)) debug fx gx im l sl l' sl' ml,
  1 <= d -> d < fsize p -> boolean sl -> length l < fsize p ->
  (forall gs u, length gs = 1 -> last gs = Some u -> checkable (A gs) N d D m u /\ (forall ch, queries_true (A gs) (facing (st gs) (q gs) u ch)) /\
     exists v v', after_call (fun o v => inclusion_verify_with_advice o debug v fx gx im) gs v v' u /\ reads (A gs) N v (bc_poly fx) (bc_nv fx) l /\ reads (A gs) N v (bc_sel fx) (bc_nv fx) sl /\
       reads (A gs) N v (bc_poly gx) (bc_nv gx) l' /\ reads (A gs) N v (bc_sel gx) (bc_nv gx) sl' /\
       reads (A gs) N v im (bc_nv gx) ml) ->
  ~ incl (rows l sl) (rows l' sl') ->
  count (passes_after 1 st q last) (allV p (1 + (m + N))) <= (length l + length l' + (N + 2 + N * Nat.max d (D + 1))) * fsize p ^ (m + N).
Proof.
  intros A N d D m st q last debug fx gx im l sl l' sl' ml H1 H2 Y0 Y1 HL Hno.
  replace (m + N) with (1 + (m + N) - 1) at 2 by lia. apply (after_count_any 1 (fun _ g => unlucky (combine l sl) (wcol l' sl' ml) g) (fun _ => length l + length l') A N d D m st q last (length l + length l') H1 H2).
  - intros pre _; destruct (unlucky_count (combine l sl) (wcol l' sl' ml)) as [b [X1 X2]]; exists b; split; [exact X1|]; unfold wcol in X2; rewrite ?app_length, ?map_length, ?combine_length in X2; lia.
  - intros gs u Hk Hu. destruct (HL gs u Hk Hu) as [C [Q [v [v' [Ha [R0 [R1 [R2 [R3 R4]]]]]]]]].
    split; [apply (after_session (fun o v => inclusion_verify_with_advice o debug v fx gx im) gs v v' u); [intros o0 v0 v1 H0; eapply vc_inclusion_wa; exact H0|exact Ha]|]. split; [exact C|]. split; [exact Q|].
    intros Hc Hgood. destruct Ha as [o [S1 [S2 [S3 S4]]]]. pose proof (session_ready o Hp H22 v S1) as RV. pose proof (vcalls_go o Hp H22 v' u S4) as RL.
    destruct (inclusion_wa_claims o Hp H22 v v' u (A gs) N RV RL Hc debug fx gx im l sl l' sl' ml S2 R0 R1 R2 R3 R4 Y0 Y1) as [g [X1 [_ X3]]].
    rewrite S3 in X1. clear S3. subst gs. specialize (Hgood 0 Nat.lt_0_1). cbn [firstn nth] in Hgood. apply Hno. apply (X3 Hgood).
  - cbn [seq map list_sum fold_right]. lia.
Qed.
Lemma presc_perm_count : forall (A : list F -> reading) N d D m st q (last : list F -> option (vtrk E)) debug fx gx perm l l' pl,
  1 <= d -> d < fsize p -> bc_nv fx = bc_nv gx -> length l < fsize p ->
  (forall gs u, length gs = 2 -> last gs = Some u -> checkable (A gs) N d D m u /\ (forall ch, queries_true (A gs) (facing (st gs) (q gs) u ch)) /\
     exists v v', after_call (fun o v => presc_perm_verify o debug v fx gx perm) gs v v' u /\ reads (A gs) N v (bc_poly fx) (bc_nv fx) l /\ reads (A gs) N v (bc_poly gx) (bc_nv gx) l' /\
       reads (A gs) N v perm (bc_nv fx) pl /\ index_over (A gs) v v' (bc_nv fx)) ->
  ~ (Permutation pl (index_column (bc_nv fx)) /\ forall j, j < length l' -> exists r, r < length l /\ nth j pl F0 = ofN r /\ nth j l' F0 = nth r l F0) ->
  count (passes_after 2 st q last) (allV p (2 + (m + N))) <= (4 * length l * length l + 2 * length l + (N + 2 + N * Nat.max d (D + 1))) * fsize p ^ (1 + (m + N)).
Proof.
  intros A N d D m st q last debug fx gx perm l l' pl H1 H2 Y0 Y1 HL Hno.
  assert (Ln : forall gs u, length gs = 2 -> last gs = Some u -> length l = 2 ^ bc_nv fx /\ length l' = 2 ^ bc_nv fx /\ length pl = 2 ^ bc_nv fx).
  { intros gs u Hk Hu. destruct (HL gs u Hk Hu) as [_ [_ [v [v' [_ [R0 [R1 [R2 _]]]]]]]]. rewrite Y0. split; [rewrite <- Y0; apply R0|split; [apply R1|rewrite <- Y0; apply R2]]. }
  destruct (Nat.eq_dec (length l) (2 ^ bc_nv fx)) as [E1|E1]; [|rewrite count_false; [lia|]; intros ch Hch; apply allV_in_length in Hch; unfold passes_after; destruct (last (firstn 2 ch)) as [u|] eqn:Hu; [exfalso|reflexivity];
    destruct (Ln (firstn 2 ch) u) as [X _]; [rewrite firstn_length; lia|exact Hu|exact (E1 X)]].
  destruct (Nat.eq_dec (length l') (2 ^ bc_nv fx)) as [E2|E2]; [|rewrite count_false; [lia|]; intros ch Hch; apply allV_in_length in Hch; unfold passes_after; destruct (last (firstn 2 ch)) as [u|] eqn:Hu; [exfalso|reflexivity];
    destruct (Ln (firstn 2 ch) u) as [_ [X _]]; [rewrite firstn_length; lia|exact Hu|exact (E2 X)]].
  assert (L1 : length (combine (index_column (p:=p) (bc_nv fx)) l) <= length l) by (rewrite combine_length; lia). assert (L2 : length (combine pl l') <= length l) by (rewrite combine_length; lia).
  replace (1 + (m + N)) with (2 + (m + N) - 1) by lia. apply (after_count_any 2 (fun pre g => match pre with [] => clash (combine (index_column (bc_nv fx)) l) (combine pl l') g | g0 :: _ => unlucky (unit_bag (folded g0 (combine (index_column (bc_nv fx)) l))) (unit_bag (folded g0 (combine pl l'))) g end) (fun i => match i with 0 => 4 * length l * length l | _ => 2 * length l end) A N d D m st q last (4 * length l * length l + 2 * length l) H1 H2).
  - intros [|g0 pre] Hpre; cbn [length].
    + destruct (clash_count (combine (index_column (bc_nv fx)) l) (combine pl l')) as [b [X1 X2]]. exists b. split; [exact X1|nia].
    + destruct (unlucky_count (unit_bag (folded g0 (combine (index_column (bc_nv fx)) l))) (unit_bag (folded g0 (combine pl l')))) as [b [X1 X2]]. exists b. split; [exact X1|].
      unfold unit_bag, folded in X2. rewrite !map_length in X2. lia.
  - intros gs u Hk Hu. destruct (HL gs u Hk Hu) as [C [Q [v [v' [Ha [R0 [R1 [R2 R3]]]]]]]].
    split; [apply (after_session (fun o v => presc_perm_verify o debug v fx gx perm) gs v v' u); [intros o0 v0 v1 H0; eapply vc_presc_perm; exact H0|exact Ha]|]. split; [exact C|]. split; [exact Q|].
    intros Hc Hgood. destruct Ha as [o [S1 [S2 [S3 S4]]]]. pose proof (session_ready o Hp H22 v S1) as RV. pose proof (vcalls_go o Hp H22 v' u S4) as RL.
    destruct (presc_perm_claims o Hp H22 v v' u (A gs) N RV RL Hc debug fx gx perm l l' pl S2 Y0 R0 R1 R2 R3 Y1) as [g [g' [X1 [_ X3]]]].
    rewrite S3 in X1. clear S3. subst gs. apply Hno. apply X3; [exact (Hgood 0 Nat.lt_0_2)|exact (Hgood 1 Nat.lt_1_2)].
  - cbn [seq map list_sum fold_right]. lia.
Qed.
End P.
