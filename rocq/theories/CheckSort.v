(** The sort check: how often bags that are not sorted pass, when the prover commits to each column before the next challenge. *)
From Coq Require Import String List Arith Lia Bool ZArith Znumtheory Permutation.
Import ListNotations.
From Verif Require Import Res ResLemmas Fp FSum SpecMle SpecPoly SpecTracker SpecIop ModelTranscript SumcheckHist MleLemmas PolyLemmas Pairing ModelKzg ModelBatch ModelProver ModelVerifier ModelIop
  LogDeriv BagLemmas IopSort IopVer IopGot MleExtra SortSound IopClaims SessHist SessProofs CheckHist CheckProofs CheckIopHist CheckIop.
Local Open Scope list_scope.
Local Open Scope nat_scope.

Section P.
Context {p : positive} {E : pairing p}.
Hypothesis Hp : prime (Zpos p).
Hypothesis H22 : 2 < fsize p.
Notation F := (F p).
Notation comm := (gcar (PG1 E)).

Lemma got_received : forall (v v' : vtrk E) n l, got v v' n l -> received_ids v v' = map (Nat.add (vt_next v)) l.
Proof. intros v v' n l [_ [H1 [_ H2]]]. unfold received_ids. rewrite H1. replace (vt_next v + n - vt_next v) with n by lia. exact H2. Qed.

(** A closure for the column of indices is true over [N] variables only. *)
Lemma low_coords : forall K N k k', K <= N -> k mod 2 ^ K = k' mod 2 ^ K -> firstn K (bpoint (p:=p) N k) = firstn K (bpoint N k').
Proof. intros K N k k' HK H. replace N with (K + (N - K)) by lia. rewrite !bpoint_firstn, H. reflexivity. Qed.
Lemma index_wide : forall (A : reading (p:=p)) N (u : vtrk E) k, closures_true A N u -> mget (vt_virt u) k = Some (VFun ordered_fun) -> 2 ^ N < fsize p -> N <= fst (A k).
Proof.
  intros A N u k HC Hk HN. destruct (Nat.le_gt_cases N (fst (A k))) as [H|H]; [exact H|exfalso]. set (K := fst (A k)) in *.
  pose proof (HC k _ (bpoint N (2 ^ K)) _ Hk (ordered_bpoint N (2 ^ K))) as X. pose proof (HC k _ (bpoint N 0) _ Hk (ordered_bpoint N 0)) as Y. rewrite !bpoint_length in X, Y. fold K in X, Y.
  specialize (X ltac:(lia)). specialize (Y ltac:(lia)). unfold extension in X, Y. fold K in X, Y.
  rewrite (low_coords K N (2 ^ K) 0) in X by (rewrite ?Nat.mod_same, ?Nat.mod_0_l by (apply Nat.pow_nonzero; lia); lia). rewrite <- Y in X.
  pose proof (Nat.pow_lt_mono_r 2 K N ltac:(lia) H) as L. rewrite Nat.mod_small, Nat.mod_0_l in X by lia. apply ofN_inj in X; [|unfold fsize in *; lia|unfold fsize in *; lia]. pose proof (Nat.pow_nonzero 2 K). lia.
Qed.

Definition mean_of (N n : nat) (c : list F) : list F := map (fun r => (Fsum (map (fun t => nth (r + t * 2 ^ n) c F0) (seq 0 (2 ^ (N - n)))) / ofN (2 ^ (N - n)))%F) (seq 0 (2 ^ n)).
Lemma averaged_mean : forall (A : reading (p:=p)) N i n, n <= N -> averaged A N i n = mean_of N n (column A N i).
Proof.
  intros A N i n Hn. unfold averaged, mean_of. apply map_ext_in. intros r Hr. apply in_seq in Hr. f_equal. f_equal. apply map_ext_in. intros t Ht. apply in_seq in Ht. unfold column.
  assert (L : r + t * 2 ^ n < 2 ^ N). { replace N with (N - n + n) at 1 by lia. rewrite Nat.pow_add_r. nia. }
  symmetry. rewrite (nth_indep _ _ (snd (A i) (0 mod 2 ^ fst (A i)))) by (rewrite map_length, seq_length; exact L). rewrite (map_nth (fun j => snd (A i) (j mod 2 ^ fst (A i)))), seq_nth by exact L. reflexivity.
Qed.
Lemma spread_len : forall N n (l : list F), length (spread N n l) = 2 ^ N. Proof. intros. unfold spread. rewrite map_length, seq_length. reflexivity. Qed.

Lemma sort_count : forall (A : list F -> reading) N d D m st q (last : list F -> option (vtrk E)) debug fx rx l sl rl shifted (counts : list F -> list F),
  1 <= d -> d < fsize p -> 2 ^ N < fsize p ->
  (forall gs u, length gs = 3 -> last gs = Some u -> checkable (A gs) N d D m u /\ (forall ch, queries_true (A gs) (facing (st gs) (q gs) u ch)) /\
     exists v v', after_call (fun o v => strict_sort_verify o debug v fx rx) gs v v' u /\ reads (A gs) N v (bc_poly fx) (bc_nv fx) l /\ reads (A gs) N v (bc_sel fx) (bc_nv fx) sl /\
       reads (A gs) N v (bc_poly rx) (bc_nv rx) rl /\
       column (A gs) N (nth 0 (received_ids v v') 0) = shifted /\ column (A gs) N (nth 5 (received_ids v v') 0) = counts (firstn 2 gs)) ->
  ~ sorted_by rl l sl ->
  count (passes_after 3 st q last) (allV p (3 + (m + N))) <= (4 * 2 ^ N * 2 ^ N + 2 * 2 ^ N + (length l + length rl) + (N + 2 + N * Nat.max d (D + 1))) * fsize p ^ (2 + (m + N)).
Proof.
  intros A N d D m st q last debug fx rx l sl rl shifted counts H1 H2 HN HL Hno.
  set (a := combine (spread N N (index_column (p:=p) N)) (spread N (bc_nv fx) l)). set (b := combine (spread N (bc_nv fx) (next_column (p:=p) (bc_nv fx))) shifted).
  assert (La : length a <= 2 ^ N) by (unfold a; rewrite combine_length, spread_len; lia). assert (Lb : length b <= 2 ^ N) by (unfold b; rewrite combine_length, spread_len; lia).
  replace (2 + (m + N)) with (3 + (m + N) - 1) by lia.
  apply (after_count_any Hp H22 3 (fun pre g => match pre with [] => clash a b g | [g0] => unlucky (unit_bag (folded g0 a)) (unit_bag (folded g0 b)) g | _ => unlucky (unit_bag (steps l)) (combine rl (mean_of N (bc_nv rx) (counts pre))) g end)
    (fun i => match i with 0 => 4 * 2 ^ N * 2 ^ N | 1 => 2 * 2 ^ N | _ => length l + length rl end) A N d D m st q last (4 * 2 ^ N * 2 ^ N + 2 * 2 ^ N + (length l + length rl)) H1 H2).
  - intros [|g0 [|g1 pre]] Hpre; cbn [length].
    + destruct (clash_count Hp a b) as [c [X1 X2]]. exists c. split; [exact X1|nia].
    + destruct (unlucky_count Hp H22 (unit_bag (folded g0 a)) (unit_bag (folded g0 b))) as [c [X1 X2]]. exists c. split; [exact X1|]. unfold unit_bag, folded in X2. rewrite !map_length in X2. lia.
    + destruct (unlucky_count Hp H22 (unit_bag (steps l)) (combine rl (mean_of N (bc_nv rx) (counts (g0 :: g1 :: pre))))) as [c [X1 X2]]. exists c. split; [exact X1|]. unfold unit_bag, steps in X2. rewrite !map_length, seq_length, combine_length in X2. lia.
  - intros gs u Hk Hu. destruct (HL gs u Hk Hu) as [C [Q [v [v' [Ha [R0 [R1 [R2 [R3 R4]]]]]]]]].
    split; [apply (after_session (fun o v => strict_sort_verify o debug v fx rx) gs v v' u); [intros o0 v0 v1 H0; eapply vc_sort; exact H0|exact Ha]|]. split; [exact C|]. split; [exact Q|].
    intros Hc Hgood. destruct Ha as [o [S1 [S2 [S3 S4]]]]. pose proof (session_ready o Hp H22 v S1) as RV. pose proof (vcalls_go o Hp H22 v' u S4) as RL.
    destruct (strict_sort_claims_at o Hp H22 v v' u (A gs) N RV RL Hc debug fx rx l sl rl S2 HN R0 R1 R2) as [g [g1 [g2 [k [X1 [X2 X3]]]]]].
    assert (X4 : mget (vt_virt u) k = Some (VFun ordered_fun)) by (destruct (RL (got_ready _ _ _ _ (strict_sort_got o _ _ _ _ _ RV S2))) as [ds GD]; apply (y_sub _ _ _ GD); exact X2).
    pose proof (index_wide (A gs) N u k (proj2 (proj2 (proj2 (proj2 (proj2 C))))) X4 HN) as HK. rewrite Nat.min_r in X3 by exact HK.
    rewrite (got_received _ _ _ _ (strict_sort_got o _ _ _ _ _ RV S2)) in R3, R4. cbn [map nth] in R3, R4. pose proof (proj1 R2) as Hnr.
    rewrite S3 in X1. apply Hno. apply X3. pose proof (Hgood 0 ltac:(lia)) as G0. pose proof (Hgood 1 ltac:(lia)) as G1. pose proof (Hgood 2 ltac:(lia)) as G2. rewrite X1 in G0, G1, G2. cbn [firstn nth] in G0, G1, G2.
    unfold sort_lucky_at. cbv zeta. rewrite R3. split; [split; [exact G0|exact G1]|]. rewrite averaged_mean by exact Hnr. rewrite R4, X1. cbn [firstn]. exact G2.
  - cbn [seq map list_sum fold_right]. lia.
Qed.
End P.
