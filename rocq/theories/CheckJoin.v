(** Which rows a join keeps: how often false statements pass, when the prover commits to each column before the next challenge. *)
From Coq Require Import String List Arith Lia Bool ZArith Znumtheory Permutation.
Import ListNotations.
From Verif Require Import Res ResLemmas Fp FSum SpecMle SpecPoly SpecTracker SpecIop SpecRel ModelTranscript SumcheckHist MleLemmas PolyLemmas Pairing ModelKzg ModelBatch ModelProver ModelVerifier ModelIop
  VerifierHist CompileHist IopHist LogDeriv BagLemmas IopSort IopVer IopSound IopSound2 IopGot MleExtra AdviceProofs SortSound IopClaims CompSound CompSound2 CompSound3 CompClaims SessHist SessProofs CheckHist CheckProofs CheckIopHist CheckIop CheckSort CheckDisj.
Local Open Scope list_scope.
Local Open Scope nat_scope.
#[local] Opaque track_virtual v_add_scalar.
Lemma head_n : forall {A : Type} (l : list A) i k, i < k -> forall d, nth i (firstn k l) d = nth i l d.
Proof. intros A l i k. revert l i. induction k as [|k IH]; intros l i Hi d; [lia|]. destruct l as [|x l]; [destruct i; reflexivity|]. destruct i as [|i]; [reflexivity|]. cbn [firstn nth]. apply IH. lia. Qed.
Lemma head_head : forall {A : Type} (l : list A) i k, i <= k -> firstn i (firstn k l) = firstn i l.
Proof. intros A l i k Hi. rewrite firstn_firstn, Nat.min_l by exact Hi. reflexivity. Qed.

Section P.
Context {p : positive} {E : pairing p}.
Hypothesis Hp : prime (Zpos p).
Hypothesis H22 : 2 < fsize p.
Notation F := (F p).
Notation comm := (gcar (PG1 E)).
Implicit Types (v : vtrk E).

Lemma selector_got : forall v sel v', vready v -> selector_valid_verify v sel = Ok v' -> got v v' 4 [].
Proof.
  intros v sel v' R H. pose proof (got_refl v R) as G. unfold selector_valid_verify in H. do 3 gvirt G H. injection H as <-.
  match goal with |- got _ (v_add_zerocheck_claim _ ?d) _ _ => pose proof (got_zero _ d (got_ready _ _ _ _ G)) as X; gjoin G X end. exact G.
Qed.
Lemma one_minus_got : forall v a i v', vready v -> one_minus_verify v a = (i, v') -> got v v' 3 [].
Proof.
  intros v a i v' R H. pose proof (got_refl v R) as G. unfold one_minus_verify in H. gvirt G H. pose proof (got_adds _ _ _ _ _ (got_ready _ _ _ _ G) H) as X. gjoin G X. exact G.
Qed.
Definition dj_ids (b : nat) : list nat := map (Nat.add b) [0; 1; 2; 3; 6; 9; 10; 18; 26; 41; 43; 51; 59; 65; 73; 82; 90].
Lemma join_got : forall o debug v a b ls rs rx v', vready v -> join_reduction_verify o debug v a b ls rs rx = Ok v' ->
  got v v' 348 (dj_ids 18 ++ dj_ids 116 ++ dj_ids 214 ++ [312; 314; 322; 330; 332; 340]).
Proof.
  intros o debug v a b ls rs rx v' R H. pose proof (got_refl v R) as G. unfold join_reduction_verify in H.
  destruct (one_minus_verify v ls) as [i1 w1] eqn:E1. pose proof (one_minus_got _ _ _ _ (got_ready _ _ _ _ G) E1) as X. clear E1. gjoin G X.
  destruct (one_minus_verify w1 rs) as [i2 w2] eqn:E1. pose proof (one_minus_got _ _ _ _ (got_ready _ _ _ _ G) E1) as X. clear E1. gjoin G X. do 4 gvirt G H.
  do 2 (match type of H with context [selector_valid_verify ?v ?a] => let w := fresh "w" in destruct (selector_valid_verify v a) as [w| |] eqn:E1; cbn [bind] in H; [|discriminate H|discriminate H] end;
    pose proof (selector_got _ _ _ (got_ready _ _ _ _ G) E1) as X; clear E1; gjoin G X).
  do 3 (match type of H with context [bag_disjoint_verify ?o ?d ?v ?a ?b ?c] => let w := fresh "w" in destruct (bag_disjoint_verify o d v a b c) as [w| |] eqn:E1; cbn [bind] in H; [|discriminate H|discriminate H] end;
    pose proof (disjoint_got o _ _ _ _ _ _ (got_ready _ _ _ _ G) E1) as X; clear E1; gjoin G X).
  match type of H with context [inclusion_verify ?o ?d ?v ?a ?b] => destruct (inclusion_verify o d v a b) as [w9| |] eqn:E1; cbn [bind] in H; [|discriminate H|discriminate H] end.
  pose proof (inclusion_got o _ _ _ _ _ (got_ready _ _ _ _ G) E1) as X. clear E1. gjoin G X. pose proof (inclusion_got o _ _ _ _ _ (got_ready _ _ _ _ G) H) as X. gjoin G X. exact G.
Qed.
Lemma incl_says_at : forall o debug v v' fx gx, vready v -> inclusion_verify o debug v fx gx = Ok v' ->
  exists h, sound v v' [h] (fun A N V => forall l sl l' sl', plist_bag A V N fx l sl -> plist_bag A V N gx l' sl' ->
    ~ unlucky (combine l sl) (wcol l' sl' (averaged A N (vt_next v) (bc_nv gx))) h -> same_bag (combine l sl) (wcol l' sl' (averaged A N (vt_next v) (bc_nv gx)))).
Proof.
  intros o debug v v' fx gx R H. destruct (inclusion_sound o Hp H22 debug v v' fx gx R H) as [g [Hm S]]. exists g. eapply sound_imp; [exact S|]. cbv beta. intros A N V _ Q l sl l' sl' B1 B3 Hu.
  destruct (Q l sl l' sl' B1 B3) as [Q1 [Q2 Q3]]. assert (La : length (averaged A N (vt_next v) (bc_nv gx)) = 2 ^ bc_nv gx) by (unfold averaged; rewrite map_length, seq_length; reflexivity).
  destruct B1 as [[_ [L1 _]] [_ [L2 _]]], B3 as [[_ [L3 _]] [_ [L4 _]]]. rewrite wcol_one in Q3 by congruence.
  eapply avoid_same; [| |exact Q3|exact Hu]; [rewrite fst_combine by congruence|rewrite wcol_fst by congruence]; assumption.
Qed.

(** Luck in one disjointness check whose columns start at [q] and whose challenges start at [s]. *)
Definition dj_lucky (A : reading) N n nr K q (l sl l' sl' rl cs : list F) s : Prop := let cl := column A n q in let csl := column A n (q + 1) in
  sort_lucky_at A N n nr K (q + 6) (q + 41) cl rl (nth s cs F0) (nth (s + 1) cs F0) (nth (s + 2) cs F0) /\
  ~ unlucky (combine l sl) (wcol cl csl (column A n (q + 2))) (nth (s + 3) cs F0) /\ ~ unlucky (combine l' sl') (wcol cl csl (column A n (q + 3))) (nth (s + 4) cs F0).

Lemma join_says_at : forall o debug v v' a b ls rs rx, vready v -> join_reduction_verify o debug v a b ls rs rx = Ok v' ->
  let na := bc_nv a in let nb := bc_nv b in let n := Nat.max na nb + 1 in let b0 := vt_next v in
  exists cs k1 k2 k3, length cs = 17 /\ Forall (fun k => mget (vt_virt v') k = Some (VFun ordered_fun)) [k1; k2; k3] /\ sound v v' cs (fun A N V => 2 ^ N < fsize p -> n <= N ->
    Forall (fun i => fst (A i) <= n) [b0 + 18; b0 + 18 + 1; b0 + 18 + 2; b0 + 18 + 3] -> Forall (fun i => fst (A i) <= na + 1) [b0 + 116; b0 + 116 + 1; b0 + 116 + 2; b0 + 116 + 3] ->
    Forall (fun i => fst (A i) <= nb + 1) [b0 + 214; b0 + 214 + 1; b0 + 214 + 2; b0 + 214 + 3] ->
    forall al asl bl bsl lsl rsl rl, plist_bag A V N a al asl -> plist_bag A V N b bl bsl -> plist A V N ls na lsl -> plist A V N rs nb rsl -> plist A V N (bc_poly rx) (bc_nv rx) rl ->
    boolean asl -> boolean bsl -> small_range rl n ->
    let al' := both asl lsl in let bl' := both bsl rsl in let am := both asl (opposite lsl) in let bm := both bsl (opposite rsl) in
    dj_lucky A N n (bc_nv rx) (Nat.min (fst (A k1)) N) (b0 + 18) al al' bl bl' rl cs 0 -> dj_lucky A N (na + 1) (bc_nv rx) (Nat.min (fst (A k2)) N) (b0 + 116) al al' al am rl cs 5 ->
    dj_lucky A N (nb + 1) (bc_nv rx) (Nat.min (fst (A k3)) N) (b0 + 214) bl bl' bl bm rl cs 10 ->
    ~ unlucky (combine al am) (wcol bl bm (averaged A N (b0 + 312) nb)) (nth 15 cs F0) -> ~ unlucky (combine bl bm) (wcol al am (averaged A N (b0 + 330) na)) (nth 16 cs F0) ->
    boolean lsl /\ boolean rsl /\ marks al asl lsl bl bsl /\ marks bl bsl rsl al asl).
Proof.
  intros o debug v v' a b ls rs rx R H na nb n b0. unfold join_reduction_verify, one_minus_verify in H. pose proof (vgo_refl v R) as G.
  match type of H with context [v_mul_scalar v ls ?c] => vone G (v_mul_scalar v ls c) (VMulS ls c) end. vadds G H.
  match type of H with context [v_mul_scalar ?u rs ?c] => vone G (v_mul_scalar u rs c) (VMulS rs c) end. vadds G H. do 4 vvirt G H.
  match goal with X : vgo v ?w [] |- _ => set (v0 := w) in *; rename X into G0 end. pose proof (y_ready _ _ _ G0) as R0.
  assert (N0 : vt_next v0 = b0 + 10) by (subst v0 b0; lia).
  destruct (selector_valid_verify _ _) as [v1| |] eqn:E1 in H; cbn [bind] in H; try discriminate. pose proof (sel_says Hp H22 _ _ _ R0 E1) as S1. pose proof (selector_got _ _ _ R0 E1) as N1.
  destruct (selector_valid_verify _ _) as [v2| |] eqn:E2 in H; cbn [bind] in H; try discriminate. pose proof (sel_says Hp H22 _ _ _ (sound_ready _ _ _ _ S1) E2) as S2. pose proof (selector_got _ _ _ (sound_ready _ _ _ _ S1) E2) as N2.
  destruct (bag_disjoint_verify _ _ _ _ _ _) as [v3| |] eqn:E3 in H; cbn [bind] in H; try discriminate. destruct (disjoint_says_at Hp H22 o _ _ _ _ _ _ (sound_ready _ _ _ _ S2) E3) as [c0 [c1 [c2 [c3 [c4 [k1 [M1 S3]]]]]]]. pose proof (disjoint_got o _ _ _ _ _ _ (sound_ready _ _ _ _ S2) E3) as N3.
  destruct (bag_disjoint_verify _ _ _ _ _ _) as [v4| |] eqn:E4 in H; cbn [bind] in H; try discriminate. destruct (disjoint_says_at Hp H22 o _ _ _ _ _ _ (sound_ready _ _ _ _ S3) E4) as [c5 [c6 [c7 [c8 [c9 [k2 [M2 S4]]]]]]]. pose proof (disjoint_got o _ _ _ _ _ _ (sound_ready _ _ _ _ S3) E4) as N4.
  destruct (bag_disjoint_verify _ _ _ _ _ _) as [v5| |] eqn:E5 in H; cbn [bind] in H; try discriminate. destruct (disjoint_says_at Hp H22 o _ _ _ _ _ _ (sound_ready _ _ _ _ S4) E5) as [c10 [c11 [c12 [c13 [c14 [k3 [M3 S5]]]]]]]. pose proof (disjoint_got o _ _ _ _ _ _ (sound_ready _ _ _ _ S4) E5) as N5.
  destruct (inclusion_verify _ _ _ _ _) as [v6| |] eqn:E6 in H; cbn [bind] in H; try discriminate. destruct (incl_says_at o _ _ _ _ _ (sound_ready _ _ _ _ S5) E6) as [h1 S6]. pose proof (inclusion_got o _ _ _ _ _ (sound_ready _ _ _ _ S5) E6) as N6.
  destruct (incl_says_at o _ _ _ _ _ (sound_ready _ _ _ _ S6) H) as [h2 S7]. cbn [bc_nv] in S3, S4, S5, S6, S7. fold na nb in S3, S4, S5, S6, S7. fold n in S3. rewrite Nat.max_id in S4, S5.
  assert (Y2 : vt_next v2 = b0 + 18) by (destruct N1 as [_ [? _]]; destruct N2 as [_ [? _]]; lia). assert (Y3 : vt_next v3 = b0 + 116) by (destruct N3 as [_ [? _]]; lia).
  assert (Y4 : vt_next v4 = b0 + 214) by (destruct N4 as [_ [? _]]; lia). assert (Y5 : vt_next v5 = b0 + 312) by (destruct N5 as [_ [? _]]; lia). assert (Y6 : vt_next v6 = b0 + 330) by (destruct N6 as [_ [? _]]; lia).
  rewrite Y2 in S3. rewrite Y3 in S4. rewrite Y4 in S5. rewrite Y5 in S6. rewrite Y6 in S7. clear N1 N2 N3 N4 N5 N6 E1 E2 E3 E4 E5 E6 H.
  pose proof (sound_seq _ _ _ _ _ _ _ S6 S7) as S67. pose proof (sound_seq _ _ _ _ _ _ _ S5 S67) as S57. pose proof (sound_seq _ _ _ _ _ _ _ S4 S57) as S47. pose proof (sound_seq _ _ _ _ _ _ _ S3 S47) as S37.
  pose proof (sound_seq _ _ _ _ _ _ _ S2 S37) as S27. pose proof (sound_seq _ _ _ _ _ _ _ S1 S27) as S17. pose proof (go_sound _ _ _ G0) as S0. pose proof (sound_seq _ _ _ _ _ _ _ S0 S17) as S07.
  cbn [app] in S07. exists [c0; c1; c2; c3; c4; c5; c6; c7; c8; c9; c10; c11; c12; c13; c14; h1; h2], k1, k2, k3. split; [reflexivity|]. split.
  { constructor; [apply (y_sub _ _ _ (proj1 S47)); exact M1|]. constructor; [apply (y_sub _ _ _ (proj1 S57)); exact M2|]. constructor; [apply (y_sub _ _ _ (proj1 S67)); exact M3|]. constructor. }
  eapply sound_imp; [exact S07|]. cbv beta. intros A N V Sv [_ [Q1 [Q2 [Q3 [Q4 [Q5 [Q6 Q7]]]]]]] HN Hn Z1 Z2 Z3 al asl bl bsl lsl rsl rl Ba Bb Pl Pr Px Ha Hb Hr. cbv zeta. unfold dj_lucky. cbv zeta. cbn [nth Nat.add].
  intros [K1 [K1a K1b]] [K2 [K2a K2b]] [K3 [K3a K3b]] U1 U2.
  destruct S17 as [G17 _]. pose proof (sub_trans _ _ _ (y_sub _ _ _ G17) Sv) as Sv0. lift Sv0. pose proof (Q1 _ _ Pl) as Bl. pose proof (Q2 _ _ Pr) as Br.
  destruct (bag_lens _ _ _ _ _ _ Ba) as [La1 La2]. destruct (bag_lens _ _ _ _ _ _ Bb) as [Lb1 Lb2]. pose proof (pl_len _ _ _ _ _ _ Pl) as Ll. pose proof (pl_len _ _ _ _ _ _ Pr) as Lr. fold na in La1, La2. fold nb in Lb1, Lb2.
  destruct Ba as [Ba1 Ba2], Bb as [Bb1 Bb2].
  pose proof (plist_not _ _ _ _ _ _ _ _ Im Im0 Pl) as Pnl. pose proof (plist_not _ _ _ _ _ _ _ _ Im1 Im2 Pr) as Pnr.
  pose proof (plist_mul _ _ _ _ _ _ _ _ _ Im3 Ba2 Pl) as P1. pose proof (plist_mul _ _ _ _ _ _ _ _ _ Im4 Bb2 Pr) as P2. pose proof (plist_mul _ _ _ _ _ _ _ _ _ Im5 Ba2 Pnl) as P3. pose proof (plist_mul _ _ _ _ _ _ _ _ _ Im6 Bb2 Pnr) as P4.
  assert (bl1 : boolean (both asl lsl)) by (apply bool_both; [congruence|assumption|assumption]). assert (bl2 : boolean (both bsl rsl)) by (apply bool_both; [congruence|assumption|assumption]).
  assert (bl3 : boolean (both asl (opposite lsl))) by (apply bool_both; [rewrite opp_len; congruence|assumption|apply bool_opp; assumption]). assert (bl4 : boolean (both bsl (opposite rsl))) by (apply bool_both; [rewrite opp_len; congruence|assumption|apply bool_opp; assumption]).
  assert (sr : forall m, m <= n -> small_range rl m).
  { intros m Hm. destruct Hr as [B [B1 B3]]. exists B. split; [exact B1|]. eapply Z.le_lt_trans; [|exact B3]. apply inj_le. apply Nat.mul_le_mono_r. pose proof (Nat.pow_le_mono_r 2 m n ltac:(lia) Hm). lia. }
  pose proof (Q3 HN Hn Z1 al (both asl lsl) bl (both bsl rsl) rl (conj Ba1 P1) (conj Bb1 P2) Px bl1 bl2 Hr K1 K1a K1b) as D1.
  pose proof (Q4 HN ltac:(lia) Z2 al (both asl lsl) al (both asl (opposite lsl)) rl (conj Ba1 P1) (conj Ba1 P3) Px bl1 bl3 (sr (na + 1) ltac:(lia)) K2 K2a K2b) as D2.
  pose proof (Q5 HN ltac:(lia) Z3 bl (both bsl rsl) bl (both bsl (opposite rsl)) rl (conj Bb1 P2) (conj Bb1 P4) Px bl2 bl4 (sr (nb + 1) ltac:(lia)) K3 K3a K3b) as D3.
  pose proof (Q6 al (both asl (opposite lsl)) bl (both bsl (opposite rsl)) (conj Ba1 P3) (conj Bb1 P4) U1) as I1. pose proof (Q7 bl (both bsl (opposite rsl)) al (both asl (opposite lsl)) (conj Bb1 P4) (conj Ba1 P3) U2) as I2.
  assert (Lm : forall j k, length (averaged A N j k) = 2 ^ k) by (intros; unfold averaged; rewrite map_length, seq_length; reflexivity).
  assert (J1 : incl (rows al (both asl (opposite lsl))) (rows bl (both bsl (opposite rsl)))).
  { rewrite <- wcol_one in I1 by (rewrite both_len; rewrite ?opp_len; congruence). refine (inclusion_rows Hp _ _ _ _ _ _ _ _ _ _ I1); try assumption; rewrite ?both_len, ?Lm by (rewrite ?opp_len; congruence); try congruence. eapply (pl_fits H22); [exact HN|exact Ba1]. }
  assert (J2 : incl (rows bl (both bsl (opposite rsl))) (rows al (both asl (opposite lsl)))).
  { rewrite <- wcol_one in I2 by (rewrite both_len; rewrite ?opp_len; congruence). refine (inclusion_rows Hp _ _ _ _ _ _ _ _ _ _ I2); try assumption; rewrite ?both_len, ?Lm by (rewrite ?opp_len; congruence); try congruence. eapply (pl_fits H22); [exact HN|exact Bb1]. }
  split; [exact Bl|]. split; [exact Br|]. split.
  - apply (join_marks Hp H22 al asl lsl bl bsl rsl); try assumption; congruence.
  - apply (join_marks Hp H22 bl bsl rsl al asl lsl); try assumption; try congruence. intros x X1 X2. exact (D1 x X2 X1).
Qed.

(** The challenges that fool one disjointness check. [sent i] is the [i]-th received column, as a function of the challenges that precede it; the check's columns start at [c], its challenges at [s]. *)
Definition dj_bad N n nr c s (sent : nat -> list F -> list F) (l sl l' sl' rl : list F) (k : nat) (pre : list F) (g : F) : Prop :=
  let fs := firstn s pre in let cl := firstn (2 ^ n) (sent c fs) in let csl := sent (c + 1) fs in
  let a := combine (spread N N (index_column (p:=p) N)) (spread N n cl) in let b := combine (spread N n (next_column (p:=p) n)) (sent (c + 4) fs) in
  match k with
  | 0 => clash a b g
  | 1 => unlucky (unit_bag (folded (nth s pre F0) a)) (unit_bag (folded (nth s pre F0) b)) g
  | 2 => unlucky (unit_bag (steps cl)) (combine rl (mean_of N nr (sent (c + 9) (firstn (s + 2) pre)))) g
  | 3 => unlucky (combine l sl) (wcol cl csl (sent (c + 2) fs)) g
  | _ => unlucky (combine l' sl') (wcol cl csl (sent (c + 3) fs)) g
  end.
Definition dj_most N n (l l' rl : list F) (k : nat) : nat :=
  match k with 0 => 4 * 2 ^ N * 2 ^ N | 1 => 2 * 2 ^ N | 2 => 2 ^ n + length rl | 3 => length l + 2 ^ n | _ => length l' + 2 ^ n end.
Lemma dj_bad_count : forall N n nr c s sent l sl l' sl' rl k pre, exists b, (forall g, dj_bad N n nr c s sent l sl l' sl' rl k pre g -> b g = true) /\ count b (allF p) <= dj_most N n l l' rl k.
Proof.
  intros N n nr c s sent l sl l' sl' rl k pre. unfold dj_bad, dj_most. cbv zeta. set (cl := firstn (2 ^ n) (sent c (firstn s pre))). assert (Lc : length cl <= 2 ^ n) by apply firstn_le_length.
  set (a := combine (spread N N (index_column (p:=p) N)) (spread N n cl)). set (b := combine (spread N n (next_column (p:=p) n)) (sent (c + 4) (firstn s pre))).
  assert (La : length a <= 2 ^ N) by (unfold a; rewrite combine_length, spread_len; lia). assert (Lb : length b <= 2 ^ N) by (unfold b; rewrite combine_length, spread_len; lia).
  destruct k as [|[|[|[|k]]]].
  - destruct (clash_count Hp a b) as [e [X1 X2]]. exists e. split; [exact X1|]. nia.
  - destruct (unlucky_count Hp H22 (unit_bag (folded (nth s pre F0) a)) (unit_bag (folded (nth s pre F0) b))) as [e [X1 X2]]. exists e. split; [exact X1|]. unfold unit_bag, folded in X2. rewrite !map_length in X2. lia.
  - destruct (unlucky_count Hp H22 (unit_bag (steps cl)) (combine rl (mean_of N nr (sent (c + 9) (firstn (s + 2) pre))))) as [e [X1 X2]]. exists e. split; [exact X1|]. unfold unit_bag, steps in X2. rewrite !map_length, seq_length, combine_length in X2. lia.
  - destruct (unlucky_count Hp H22 (combine l sl) (wcol cl (sent (c + 1) (firstn s pre)) (sent (c + 2) (firstn s pre)))) as [e [X1 X2]]. exists e. split; [exact X1|]. unfold wcol in X2. rewrite ?app_length, ?map_length, ?combine_length in X2. lia.
  - destruct (unlucky_count Hp H22 (combine l' sl') (wcol cl (sent (c + 1) (firstn s pre)) (sent (c + 3) (firstn s pre)))) as [e [X1 X2]]. exists e. split; [exact X1|]. unfold wcol in X2. rewrite ?app_length, ?map_length, ?combine_length in X2. lia.
Qed.
Lemma dj_good : forall (A : reading) N n nr c s (sent : nat -> list F -> list F) l sl l' sl' rl gs q, nr <= N ->
  column A n q = sent c (firstn s gs) -> column A n (q + 1) = sent (c + 1) (firstn s gs) -> column A n (q + 2) = sent (c + 2) (firstn s gs) -> column A n (q + 3) = sent (c + 3) (firstn s gs) ->
  column A N (q + 6) = sent (c + 4) (firstn s gs) -> column A N (q + 41) = sent (c + 9) (firstn (s + 2) gs) ->
  (forall k, k < 5 -> ~ dj_bad N n nr c s sent l sl l' sl' rl k (firstn (s + k) gs) (nth (s + k) gs F0)) ->
  dj_lucky A N n nr N q l sl l' sl' rl gs s.
Proof.
  intros A N n nr c s sent l sl l' sl' rl gs q Hnr E0 E1 E2 E3 E4 E5 HG. pose proof (HG 0 ltac:(lia)) as G0. pose proof (HG 1 ltac:(lia)) as G1. pose proof (HG 2 ltac:(lia)) as G2. pose proof (HG 3 ltac:(lia)) as G3. pose proof (HG 4 ltac:(lia)) as G4. clear HG.
  unfold dj_bad in G0, G1, G2, G3, G4. cbv zeta in G0, G1, G2, G3, G4. rewrite !head_head in G0, G1, G2, G3, G4 by lia. rewrite !head_n in G1 by lia. rewrite Nat.add_0_r in G0.
  assert (Ec : firstn (2 ^ n) (sent c (firstn s gs)) = sent c (firstn s gs)) by (rewrite <- E0; apply firstn_all2; rewrite column_len; lia). rewrite Ec in G0, G1, G2, G3, G4. rewrite <- E0 in G0, G1, G2, G3, G4. rewrite <- E1 in G3, G4. rewrite <- E2 in G3. rewrite <- E3 in G4. rewrite <- E4 in G0, G1. rewrite (head_head gs (s + 2) (s + 2)) in G2 by lia. rewrite <- E5 in G2.
  unfold dj_lucky. cbv zeta. split; [|split; assumption]. unfold sort_lucky_at. cbv zeta. rewrite (averaged_mean H22) by exact Hnr. split; [split; [exact G0|exact G1]|exact G2].
Qed.

Lemma join_count : forall (A : list F -> reading) N d D m st q (last : list F -> option (vtrk E)) debug a b ls rs rx al asl bl bsl lsl rsl rl (sent : nat -> list F -> list F),
  let na := bc_nv a in let nb := bc_nv b in let n := Nat.max na nb + 1 in
  1 <= d -> d < fsize p -> 2 ^ N < fsize p -> n <= N -> boolean asl -> boolean bsl -> small_range rl n ->
  (forall gs u, length gs = 17 -> last gs = Some u -> checkable (A gs) N d D m u /\ (forall ch, queries_true (A gs) (facing (st gs) (q gs) u ch)) /\
     exists v v', after_call (fun o v => join_reduction_verify o debug v a b ls rs rx) gs v v' u /\ bag_reads (A gs) N v a al asl /\ bag_reads (A gs) N v b bl bsl /\
       reads (A gs) N v ls na lsl /\ reads (A gs) N v rs nb rsl /\ reads (A gs) N v (bc_poly rx) (bc_nv rx) rl /\
       let got := fun i => nth i (received_ids v v') 0 in
       let fixed := fun w i k => column (A gs) w (got i) = sent i (firstn k gs) in
       let block := fun w c s => Forall (fun i => fst (A gs (got i)) <= w /\ fixed w i s) [c; c + 1; c + 2; c + 3] /\ fixed N (c + 4) s /\ fixed N (c + 9) (s + 2) in
       block n 0 0 /\ block (na + 1) 17 5 /\ block (nb + 1) 34 10 /\ fixed N 51 15 /\ fixed N 54 16) ->
  ~ (boolean lsl /\ boolean rsl /\ marks al asl lsl bl bsl /\ marks bl bsl rsl al asl) ->
  count (passes_after 17 st q last) (allV p (17 + (m + N))) <=
    (12 * 2 ^ N * 2 ^ N + 6 * 2 ^ N + 9 * 2 ^ n + (5 * length al + 5 * length bl + 3 * length rl) + (N + 2 + N * Nat.max d (D + 1))) * fsize p ^ (16 + (m + N)).
Proof.
  intros A N d D m st q last debug aa bb ls rs rx al asl bl bsl lsl rsl rl sent na nb n H1 H2 HN Hn Y1 Y2 Y3 HL Hno.
  replace (16 + (m + N)) with (17 + (m + N) - 1) by lia. set (al' := both asl lsl) in *. set (bl' := both bsl rsl) in *. set (am := both asl (opposite lsl)) in *. set (bm := both bsl (opposite rsl)) in *.
  set (B1 := dj_bad N n (bc_nv rx) 0 0 sent al al' bl bl' rl). set (B2 := dj_bad N (na + 1) (bc_nv rx) 17 5 sent al al' al am rl). set (B3 := dj_bad N (nb + 1) (bc_nv rx) 34 10 sent bl bl' bl bm rl).
  set (T1 := fun pre g => unlucky (combine al am) (wcol bl bm (mean_of N nb (sent 51 pre))) g). set (T2 := fun pre g => unlucky (combine bl bm) (wcol al am (mean_of N na (sent 54 pre))) g).
  apply (after_count_any Hp H22 17 (fun pre => nth (length pre) [B1 0 pre; B1 1 pre; B1 2 pre; B1 3 pre; B1 4 pre; B2 0 pre; B2 1 pre; B2 2 pre; B2 3 pre; B2 4 pre; B3 0 pre; B3 1 pre; B3 2 pre; B3 3 pre; B3 4 pre; T1 pre] (T2 pre))
    (fun i => nth i (map (dj_most N n al bl rl) [0; 1; 2; 3; 4] ++ map (dj_most N (na + 1) al al rl) [0; 1; 2; 3; 4] ++ map (dj_most N (nb + 1) bl bl rl) [0; 1; 2; 3; 4] ++ [length al + length bl]) (length bl + length al)) A N d D m st q last
    (12 * 2 ^ N * 2 ^ N + 6 * 2 ^ N + 9 * 2 ^ n + (5 * length al + 5 * length bl + 3 * length rl)) H1 H2).
  - intros pre Hpre. assert (HT1 : exists b, (forall g, T1 pre g -> b g = true) /\ count b (allF p) <= length al + length bl).
    { destruct (unlucky_count Hp H22 (combine al am) (wcol bl bm (mean_of N nb (sent 51 pre)))) as [e [X1 X2]]. exists e. split; [exact X1|]. unfold wcol in X2. rewrite ?app_length, ?map_length, ?combine_length in X2. lia. }
    assert (HT2 : exists b, (forall g, T2 pre g -> b g = true) /\ count b (allF p) <= length bl + length al).
    { destruct (unlucky_count Hp H22 (combine bl bm) (wcol al am (mean_of N na (sent 54 pre)))) as [e [X1 X2]]. exists e. split; [exact X1|]. unfold wcol in X2. rewrite ?app_length, ?map_length, ?combine_length in X2. lia. }
    generalize (length pre). intros i. do 15 (destruct i as [|i]; [apply dj_bad_count|]). destruct i as [|i]; [exact HT1|]. destruct i; exact HT2.
  - intros gs u Hk Hu. destruct (HL gs u Hk Hu) as [C [Q [v [v' [Ha [R0 [R1 [R1a [R1b [R2 R3]]]]]]]]]]. clear HL.
    split; [apply (after_session (fun o v => join_reduction_verify o debug v aa bb ls rs rx) gs v v' u); [intros o0 v0 v1 H0; eapply vc_join_reduction; exact H0|exact Ha]|]. split; [exact C|]. split; [exact Q|].
    intros Hc Hgood. destruct Ha as [o [S1 [S2 [S3 S4]]]]. pose proof (session_ready o Hp H22 v S1) as RV. pose proof (vcalls_go o Hp H22 v' u S4) as RL.
    destruct (join_says_at o debug v v' aa bb ls rs rx RV S2) as [cs [k1 [k2 [k3 [Lcs [X2 S]]]]]]. destruct (use v v' u (A gs) N RL Hc _ _ S) as [X1 X3]. cbv zeta in X3. fold na nb in X3. fold n in X3.
    assert (HK : Forall (fun k => N <= fst (A gs k)) [k1; k2; k3]).
    { eapply Forall_impl; [|exact X2]. cbv beta. intros k Mk. assert (X4 : mget (vt_virt u) k = Some (VFun ordered_fun)) by (destruct (RL (sound_ready _ _ _ _ S)) as [ds GD]; apply (y_sub _ _ _ GD); exact Mk).
      exact (index_wide H22 (A gs) N u k (proj2 (proj2 (proj2 (proj2 (proj2 C))))) X4 HN). }
    pose proof (Forall_inv HK) as HK1. pose proof (Forall_inv (Forall_inv_tail HK)) as HK2. pose proof (Forall_inv (Forall_inv_tail (Forall_inv_tail HK))) as HK3. cbv beta in HK1, HK2, HK3. clear HK. rewrite !Nat.min_r in X3 by assumption.
    cbv zeta in R3. rewrite (got_received H22 _ _ _ _ (join_got o _ _ _ _ _ _ _ _ RV S2)) in R3. unfold dj_ids in R3. cbn [map app nth Nat.add] in R3. set (b0 := vt_next v) in *.
    assert (Hnr : bc_nv rx <= N) by exact (proj1 R2). assert (Hna : na <= N) by (subst n; lia). assert (Hnb : nb <= N) by (subst n; lia).
    destruct R3 as [W1 [W2 [W3 [V1 V2]]]]. rewrite S3 in X1. subst cs.
    assert (GB : forall i, i < 17 -> ~ nth i [B1 0 (firstn i gs); B1 1 (firstn i gs); B1 2 (firstn i gs); B1 3 (firstn i gs); B1 4 (firstn i gs); B2 0 (firstn i gs); B2 1 (firstn i gs); B2 2 (firstn i gs); B2 3 (firstn i gs); B2 4 (firstn i gs);
       B3 0 (firstn i gs); B3 1 (firstn i gs); B3 2 (firstn i gs); B3 3 (firstn i gs); B3 4 (firstn i gs); T1 (firstn i gs)] (T2 (firstn i gs)) (nth i gs F0)).
    { intros i Hi. pose proof (Hgood i Hi) as G. rewrite firstn_length_le in G by lia. exact G. } clear Hgood.
    apply Hno.
    assert (SP : forall (P : nat -> Prop) x y z w, Forall P [x; y; z; w] -> P x /\ P y /\ P z /\ P w) by (intros P x y z w HF; inversion_clear HF as [|? ? P1 HF1]; inversion_clear HF1 as [|? ? P2 HF2]; inversion_clear HF2 as [|? ? P3 HF3]; inversion_clear HF3 as [|? ? P4 HF4]; tauto).
    destruct W1 as [W1 [W1a W1b]]. apply SP in W1. cbv beta in W1. destruct W1 as [[F1 E1] [[F2 E2] [[F3 E3] [F4 E4]]]].
    destruct W2 as [W2 [W2a W2b]]. apply SP in W2. cbv beta in W2. destruct W2 as [[F5 E5] [[F6 E6] [[F7 E7] [F8 E8]]]].
    destruct W3 as [W3 [W3a W3b]]. apply SP in W3. cbv beta in W3. destruct W3 as [[F9 E9] [[F10 E10] [[F11 E11] [F12 E12]]]]. cbn [nth Nat.add] in *.
    refine (X3 HN Hn _ _ _ al asl bl bsl lsl rsl rl (bag_in v v' u (A gs) N RL _ _ _ _ _ S R0) (bag_in v v' u (A gs) N RL _ _ _ _ _ S R1) (id_in v v' u (A gs) N RL _ _ _ _ _ S R1a) (id_in v v' u (A gs) N RL _ _ _ _ _ S R1b)
      (id_in v v' u (A gs) N RL _ _ _ _ _ S R2) Y1 Y2 Y3 _ _ _ _ _); cbv beta.
    + rewrite <- !Nat.add_assoc. cbn [Nat.add]. repeat constructor; assumption.
    + rewrite <- !Nat.add_assoc. cbn [Nat.add]. repeat constructor; assumption.
    + rewrite <- !Nat.add_assoc. cbn [Nat.add]. repeat constructor; assumption.
    + apply (dj_good (A gs) N n (bc_nv rx) 0 0 sent); rewrite <- ?Nat.add_assoc; cbn [Nat.add]; try assumption. intros k Hk5. pose proof (GB k ltac:(lia)) as G. do 5 (destruct k as [|k]; [exact G|]). lia.
    + apply (dj_good (A gs) N (na + 1) (bc_nv rx) 17 5 sent); rewrite <- ?Nat.add_assoc; cbn [Nat.add]; try assumption. intros k Hk5. pose proof (GB (5 + k) ltac:(lia)) as G. do 5 (destruct k as [|k]; [exact G|]). lia.
    + apply (dj_good (A gs) N (nb + 1) (bc_nv rx) 34 10 sent); rewrite <- ?Nat.add_assoc; cbn [Nat.add]; try assumption. intros k Hk5. pose proof (GB (10 + k) ltac:(lia)) as G. do 5 (destruct k as [|k]; [exact G|]). lia.
    + rewrite (averaged_mean H22) by exact Hnb. rewrite V1. exact (GB 15 ltac:(lia)).
    + rewrite (averaged_mean H22) by exact Hna. rewrite V2. exact (GB 16 ltac:(lia)).
  - assert (2 ^ (na + 1) <= 2 ^ n) by (apply Nat.pow_le_mono_r; subst n; lia). assert (2 ^ (nb + 1) <= 2 ^ n) by (apply Nat.pow_le_mono_r; subst n; lia).
    cbn [seq map app nth list_sum fold_right dj_most]. lia.
Qed.
End P.
