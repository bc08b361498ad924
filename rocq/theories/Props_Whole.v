(** C67: with the comparison of C60, false statements about columns pass rarely, the challenges of the protocol counted with those of the check. *)
From Coq Require Import String List Arith Bool ZArith Znumtheory Permutation.
Import ListNotations.
From Verif Require Import Res Fp FSum SpecMle SpecPoly SpecSumcheck SpecTracker SpecIop ModelMle ModelTranscript ModelSumcheck Pairing ModelKzg ModelBatch ModelProver ModelVerifier ModelIop
  ProverHist VerifierHist CompileHist IopHist SessHist CheckHist CheckIopHist CheckIop CheckSort CheckSupp CheckDisj CheckSet WholeEx.
Local Open Scope string_scope.
Local Open Scope list_scope.
Local Open Scope nat_scope.

(** The protocol draws the [k] challenges [gs]. The columns are fixed before them; the commitments made after them, the claimed sums,
    the later calls of the verifier, the sum-check messages and the query results may all depend on [gs], and the last two on the
    challenges of the check drawn so far. [last gs] is the verifier at the end. *)

(** ** C67: a column of zeros and ones *)
Theorem C67_boolean : forall (p : positive) (E : pairing p), prime (Zpos p) -> 2 < fsize p ->
  forall (A : list (F p) -> reading) N d D m st q (last : list (F p) -> option (vtrk E)) sel n l,
  1 <= d -> d < fsize p ->
  (forall gs u, length gs = 0 -> last gs = Some u -> checkable (A gs) N d D m u /\ (forall ch, queries_true (A gs) (facing (st gs) (q gs) u ch)) /\
     exists v v', after_call (fun _ v => selector_valid_verify v sel) gs v v' u /\ reads (A gs) N v sel n l) ->
  ~ boolean l ->
  count (passes_after 0 st q last) (allV p (m + N)) <= (N + 2 + N * Nat.max d (D + 1)) * fsize p ^ (m + N - 1).
Proof. intros p E Hp H2. exact (selector_count Hp H2). Qed.
Print Assumptions C67_boolean.

(** ** C67: a bag without the value zero *)
Theorem C67_no_zeros : forall (p : positive) (E : pairing p), prime (Zpos p) -> 2 < fsize p ->
  forall (A : list (F p) -> reading) N d D m st q (last : list (F p) -> option (vtrk E)) debug b l sl,
  1 <= d -> d < fsize p ->
  (forall gs u, length gs = 0 -> last gs = Some u -> checkable (A gs) N d D m u /\ (forall ch, queries_true (A gs) (facing (st gs) (q gs) u ch)) /\
     exists v v', after_call (fun _ v => no_zeros_verify debug v b) gs v v' u /\ reads (A gs) N v (bc_poly b) (bc_nv b) l /\ reads (A gs) N v (bc_sel b) (bc_nv b) sl) ->
  In F0 (rows l sl) ->
  count (passes_after 0 st q last) (allV p (m + N)) <= (N + 2 + N * Nat.max d (D + 1)) * fsize p ^ (m + N - 1).
Proof. intros p E Hp H2. exact (no_zeros_count Hp H2). Qed.
Print Assumptions C67_no_zeros.

(** ** C67: equality of bags *)
Theorem C67_bags_equal : forall (p : positive) (E : pairing p), prime (Zpos p) -> 2 < fsize p ->
  forall (A : list (F p) -> reading) N d D m st q (last : list (F p) -> option (vtrk E)) debug fx gx l sl l' sl',
  1 <= d -> d < fsize p -> boolean sl -> boolean sl' -> length l < fsize p -> length l' < fsize p ->
  (forall gs u, length gs = 1 -> last gs = Some u -> checkable (A gs) N d D m u /\ (forall ch, queries_true (A gs) (facing (st gs) (q gs) u ch)) /\
     exists v v', after_call (fun o v => bag_eq_verify o debug v fx gx) gs v v' u /\ reads (A gs) N v (bc_poly fx) (bc_nv fx) l /\ reads (A gs) N v (bc_sel fx) (bc_nv fx) sl /\
       reads (A gs) N v (bc_poly gx) (bc_nv gx) l' /\ reads (A gs) N v (bc_sel gx) (bc_nv gx) sl') ->
  ~ Permutation (rows l sl) (rows l' sl') ->
  count (passes_after 1 st q last) (allV p (1 + (m + N))) <= (length l + length l' + (N + 2 + N * Nat.max d (D + 1))) * fsize p ^ (m + N).
Proof. intros p E Hp H2. exact (bag_eq_count Hp H2). Qed.
Print Assumptions C67_bags_equal.

(** ** C67: a bag that is the union of two *)
Theorem C67_bags_sum : forall (p : positive) (E : pairing p), prime (Zpos p) -> 2 < fsize p ->
  forall (A : list (F p) -> reading) N d D m st q (last : list (F p) -> option (vtrk E)) debug f0 f1 gx l0 sl0 l1 sl1 l sl,
  1 <= d -> d < fsize p -> boolean sl0 -> boolean sl1 -> boolean sl -> length l0 + length l1 < fsize p -> length l < fsize p ->
  (forall gs u, length gs = 1 -> last gs = Some u -> checkable (A gs) N d D m u /\ (forall ch, queries_true (A gs) (facing (st gs) (q gs) u ch)) /\
     exists v v', after_call (fun o v => bag_sum_verify o debug v f0 f1 gx) gs v v' u /\ reads (A gs) N v (bc_poly f0) (bc_nv f0) l0 /\ reads (A gs) N v (bc_sel f0) (bc_nv f0) sl0 /\
       reads (A gs) N v (bc_poly f1) (bc_nv f1) l1 /\ reads (A gs) N v (bc_sel f1) (bc_nv f1) sl1 /\
       reads (A gs) N v (bc_poly gx) (bc_nv gx) l /\ reads (A gs) N v (bc_sel gx) (bc_nv gx) sl) ->
  ~ Permutation (rows l0 sl0 ++ rows l1 sl1) (rows l sl) ->
  count (passes_after 1 st q last) (allV p (1 + (m + N))) <= (length l0 + length l1 + length l + (N + 2 + N * Nat.max d (D + 1))) * fsize p ^ (m + N).
Proof. intros p E Hp H2. exact (bag_sum_count Hp H2). Qed.
Print Assumptions C67_bags_sum.

(** ** C67: a bag whose values occur in another, with any multiplicities [ml] *)
Theorem C67_included : forall (p : positive) (E : pairing p), prime (Zpos p) -> 2 < fsize p ->
  forall (A : list (F p) -> reading) N d D m st q (last : list (F p) -> option (vtrk E)) debug fx gx im l sl l' sl' ml,
  1 <= d -> d < fsize p -> boolean sl -> length l < fsize p ->
  (forall gs u, length gs = 1 -> last gs = Some u -> checkable (A gs) N d D m u /\ (forall ch, queries_true (A gs) (facing (st gs) (q gs) u ch)) /\
     exists v v', after_call (fun o v => inclusion_verify_with_advice o debug v fx gx im) gs v v' u /\ reads (A gs) N v (bc_poly fx) (bc_nv fx) l /\ reads (A gs) N v (bc_sel fx) (bc_nv fx) sl /\
       reads (A gs) N v (bc_poly gx) (bc_nv gx) l' /\ reads (A gs) N v (bc_sel gx) (bc_nv gx) sl' /\
       reads (A gs) N v im (bc_nv gx) ml) ->
  ~ incl (rows l sl) (rows l' sl') ->
  count (passes_after 1 st q last) (allV p (1 + (m + N))) <= (length l + length l' + (N + 2 + N * Nat.max d (D + 1))) * fsize p ^ (m + N).
Proof. intros p E Hp H2. exact (inclusion_count Hp H2). Qed.
Print Assumptions C67_included.

(** ** C67: a column permuted as prescribed; the first challenge joins each value to its index, the second compares the bags *)
Theorem C67_permuted : forall (p : positive) (E : pairing p), prime (Zpos p) -> 2 < fsize p ->
  forall (A : list (F p) -> reading) N d D m st q (last : list (F p) -> option (vtrk E)) debug fx gx perm l l' pl,
  1 <= d -> d < fsize p -> bc_nv fx = bc_nv gx -> length l < fsize p ->
  (forall gs u, length gs = 2 -> last gs = Some u -> checkable (A gs) N d D m u /\ (forall ch, queries_true (A gs) (facing (st gs) (q gs) u ch)) /\
     exists v v', after_call (fun o v => presc_perm_verify o debug v fx gx perm) gs v v' u /\ reads (A gs) N v (bc_poly fx) (bc_nv fx) l /\ reads (A gs) N v (bc_poly gx) (bc_nv gx) l' /\
       reads (A gs) N v perm (bc_nv fx) pl /\ index_over (A gs) v v' (bc_nv fx)) ->
  ~ (Permutation pl (index_column (bc_nv fx)) /\ forall j, j < length l' -> exists r, r < length l /\ nth j pl F0 = ofN r /\ nth j l' F0 = nth r l F0) ->
  count (passes_after 2 st q last) (allV p (2 + (m + N))) <= (4 * length l * length l + 2 * length l + (N + 2 + N * Nat.max d (D + 1))) * fsize p ^ (1 + (m + N)).
Proof. intros p E Hp H2. exact (presc_perm_count Hp H2). Qed.
Print Assumptions C67_permuted.
(** The sort check, whose prover commits to two columns that matter: the shifted column before the first challenge (the first
    polynomial received in the call), and the multiplicities of the range before the third challenge, so that they may depend on
    the first two (the sixth polynomial received). *)
Theorem C67_sorted : forall (p : positive) (E : pairing p), prime (Zpos p) -> 2 < fsize p ->
  forall (A : list (F p) -> reading) N d D m st q (last : list (F p) -> option (vtrk E)) debug fx rx l sl rl shifted (counts : list (F p) -> list (F p)),
  1 <= d -> d < fsize p -> 2 ^ N < fsize p ->
  (forall gs u, length gs = 3 -> last gs = Some u -> checkable (A gs) N d D m u /\ (forall ch, queries_true (A gs) (facing (st gs) (q gs) u ch)) /\
     exists v v', after_call (fun o v => strict_sort_verify o debug v fx rx) gs v v' u /\ reads (A gs) N v (bc_poly fx) (bc_nv fx) l /\ reads (A gs) N v (bc_sel fx) (bc_nv fx) sl /\
       reads (A gs) N v (bc_poly rx) (bc_nv rx) rl /\
       column (A gs) N (nth 0 (received_ids v v') 0) = shifted /\ column (A gs) N (nth 5 (received_ids v v') 0) = counts (firstn 2 gs)) ->
  ~ sorted_by rl l sl ->
  count (passes_after 3 st q last) (allV p (3 + (m + N))) <= (4 * 2 ^ N * 2 ^ N + 2 * 2 ^ N + (length l + length rl) + (N + 2 + N * Nat.max d (D + 1))) * fsize p ^ (2 + (m + N)).
Proof. intros p E Hp H2. exact (sort_count Hp H2). Qed.
Print Assumptions C67_sorted.

(** ** C67: the support of a bag *)
(** As for sorted bags, with one challenge more. The prover commits to the multiplicities before the first challenge (the first
    polynomial received in the call), to the shifted column before the second (the fifth polynomial received), and to the
    multiplicities of the range before the fourth (the tenth). *)
Theorem C67_supported : forall (p : positive) (E : pairing p), prime (Zpos p) -> 2 < fsize p ->
  forall (A : list (F p) -> reading) N d D m st q (last : list (F p) -> option (vtrk E)) debug b sup rx l sl l' sl' rl mults (shifted counts : list (F p) -> list (F p)),
  1 <= d -> d < fsize p -> 2 ^ N < fsize p -> boolean sl -> boolean sl' -> small_range rl (bc_nv sup) ->
  (forall gs u, length gs = 4 -> last gs = Some u -> checkable (A gs) N d D m u /\ (forall ch, queries_true (A gs) (facing (st gs) (q gs) u ch)) /\
     exists v v', after_call (fun o v => supp_verify o debug v b sup rx) gs v v' u /\ bag_reads (A gs) N v b l sl /\ bag_reads (A gs) N v sup l' sl' /\
       reads (A gs) N v (bc_poly rx) (bc_nv rx) rl /\
       let got := received_ids v v' in
       fst (A gs (nth 0 got 0)) <= bc_nv sup /\ column (A gs) (bc_nv sup) (nth 0 got 0) = mults /\
       column (A gs) N (nth 4 got 0) = shifted (firstn 1 gs) /\ column (A gs) N (nth 9 got 0) = counts (firstn 3 gs)) ->
  ~ (NoDup (rows l' sl') /\ forall x, In x (rows l' sl') <-> In x (rows l sl)) ->
  count (passes_after 4 st q last) (allV p (4 + (m + N))) <=
    (4 * 2 ^ N * 2 ^ N + 2 * 2 ^ N + (length l + 2 * length l' + length rl) + (N + 2 + N * Nat.max d (D + 1))) * fsize p ^ (3 + (m + N)).
Proof. intros p E Hp H2. exact (supp_count Hp H2). Qed.
Print Assumptions C67_supported.

(** ** C67: bags without a common value *)
(** The prover commits to the sorted union of the bags, its selector and its two columns of multiplicities first (the first four
    polynomials received in the call), then to the shifted union (the fifth), both before the first challenge, and to the
    multiplicities of the range before the third (the tenth). *)
Theorem C67_disjoint : forall (p : positive) (E : pairing p), prime (Zpos p) -> 2 < fsize p ->
  forall (A : list (F p) -> reading) N d D m st q (last : list (F p) -> option (vtrk E)) debug a b rx l sl l' sl' rl union sel ml ml' shifted (counts : list (F p) -> list (F p)),
  let n := Nat.max (bc_nv a) (bc_nv b) + 1 in
  1 <= d -> d < fsize p -> 2 ^ N < fsize p -> n <= N -> boolean sl -> boolean sl' -> small_range rl n ->
  (forall gs u, length gs = 5 -> last gs = Some u -> checkable (A gs) N d D m u /\ (forall ch, queries_true (A gs) (facing (st gs) (q gs) u ch)) /\
     exists v v', after_call (fun o v => bag_disjoint_verify o debug v a b rx) gs v v' u /\ bag_reads (A gs) N v a l sl /\ bag_reads (A gs) N v b l' sl' /\
       reads (A gs) N v (bc_poly rx) (bc_nv rx) rl /\
       let got := received_ids v v' in
       Forall (fun id => fst (A gs id) <= n) (firstn 4 got) /\ map (column (A gs) n) (firstn 4 got) = [union; sel; ml; ml'] /\
       column (A gs) N (nth 4 got 0) = shifted /\ column (A gs) N (nth 9 got 0) = counts (firstn 2 gs)) ->
  ~ (forall x, In x (rows l sl) -> ~ In x (rows l' sl')) ->
  count (passes_after 5 st q last) (allV p (5 + (m + N))) <=
    (4 * 2 ^ N * 2 ^ N + 2 * 2 ^ N + (length l + length l' + 3 * length union + length rl) + (N + 2 + N * Nat.max d (D + 1))) * fsize p ^ (4 + (m + N)).
Proof. intros p E Hp H2. exact (disjoint_count Hp H2). Qed.
Print Assumptions C67_disjoint.

(** ** C67: sets without a common row *)
(** The prover commits to the sorted sum of the sets and its selector before the first challenge (the first two polynomials received in
    the call), to the shifted sum before the second (the sixth), and to the multiplicities of the range before the fourth (the
    eleventh). *)
Theorem C67_sets_disjoint : forall (p : positive) (E : pairing p), prime (Zpos p) -> 2 < fsize p ->
  forall (A : list (F p) -> reading) N d D m st q (last : list (F p) -> option (vtrk E)) debug a b rx l sl l' sl' rl sum sel (shifted counts : list (F p) -> list (F p)),
  let n := Nat.max (bc_nv a) (bc_nv b) + 1 in
  1 <= d -> d < fsize p -> 2 ^ N < fsize p -> n <= N -> boolean sl -> boolean sl' -> boolean sel -> small_range rl n ->
  (forall gs u, length gs = 4 -> last gs = Some u -> checkable (A gs) N d D m u /\ (forall ch, queries_true (A gs) (facing (st gs) (q gs) u ch)) /\
     exists v v', after_call (fun o v => set_disjoint_verify o debug v a b rx) gs v v' u /\ bag_reads (A gs) N v a l sl /\ bag_reads (A gs) N v b l' sl' /\
       reads (A gs) N v (bc_poly rx) (bc_nv rx) rl /\
       let got := received_ids v v' in
       Forall (fun id => fst (A gs id) <= n) (firstn 2 got) /\ map (column (A gs) n) (firstn 2 got) = [sum; sel] /\
       column (A gs) N (nth 5 got 0) = shifted (firstn 1 gs) /\ column (A gs) N (nth 10 got 0) = counts (firstn 3 gs)) ->
  ~ NoDup (rows l sl ++ rows l' sl') ->
  count (passes_after 4 st q last) (allV p (4 + (m + N))) <=
    (4 * 2 ^ N * 2 ^ N + 2 * 2 ^ N + (length l + length l' + 2 * length sum + length rl) + (N + 2 + N * Nat.max d (D + 1))) * fsize p ^ (3 + (m + N)).
Proof. intros p E Hp H2. exact (set_disjoint_count Hp H2). Qed.
Print Assumptions C67_sets_disjoint.

(** ** C67: the union of two sets *)
(** The prover commits to the sum of the sets and its selector before the first challenge, to the multiplicities of the union before
    the second (the sixth polynomial received), to the shifted union before the third (the tenth), and to the multiplicities of the
    range before the fifth (the fifteenth). *)
Theorem C67_union : forall (p : positive) (E : pairing p), prime (Zpos p) -> 2 < fsize p ->
  forall (A : list (F p) -> reading) N d D m st q (last : list (F p) -> option (vtrk E)) debug a b un rx l sl l' sl' ul usl rl sum sel (mults shifted counts : list (F p) -> list (F p)),
  let n := Nat.max (bc_nv a) (bc_nv b) + 1 in
  1 <= d -> d < fsize p -> 2 ^ N < fsize p -> n <= N -> boolean sl -> boolean sl' -> boolean usl -> small_range rl (bc_nv un) ->
  (forall gs u, length gs = 5 -> last gs = Some u -> checkable (A gs) N d D m u /\ (forall ch, queries_true (A gs) (facing (st gs) (q gs) u ch)) /\
     exists v v', after_call (fun o v => set_union_verify o debug v a b un rx) gs v v' u /\ bag_reads (A gs) N v a l sl /\ bag_reads (A gs) N v b l' sl' /\ bag_reads (A gs) N v un ul usl /\
       reads (A gs) N v (bc_poly rx) (bc_nv rx) rl /\
       let got := received_ids v v' in
       Forall (fun id => fst (A gs id) <= n) (firstn 2 got) /\ map (column (A gs) n) (firstn 2 got) = [sum; sel] /\
       fst (A gs (nth 5 got 0)) <= bc_nv un /\ column (A gs) (bc_nv un) (nth 5 got 0) = mults (firstn 1 gs) /\
       column (A gs) N (nth 9 got 0) = shifted (firstn 2 gs) /\ column (A gs) N (nth 14 got 0) = counts (firstn 4 gs)) ->
  ~ (NoDup (rows ul usl) /\ forall x, In x (rows ul usl) <-> In x (rows l sl) \/ In x (rows l' sl')) ->
  count (passes_after 5 st q last) (allV p (5 + (m + N))) <=
    (4 * 2 ^ N * 2 ^ N + 2 * 2 ^ N + (length l + length l' + 2 * length sum + 2 * length ul + length rl) + (N + 2 + N * Nat.max d (D + 1))) * fsize p ^ (4 + (m + N)).
Proof. intros p E Hp H2. exact (set_union_count Hp H2). Qed.
Print Assumptions C67_union.

(** The hypotheses are met over F 101, with columns of two rows. The verifier receives the first [n] commitments and makes the call;
    its oracle gives the challenges [gs], whatever they are. The prover sends the inverses of the right differences, claims that all
    sums are zero, answers the queries truthfully, and sends any sum-check messages [st]. *)
Notation E101 := (exp_pairing 101).
Definition i101 (z : Z) : F 101 := ofZ z.
Definition wx_cp (comms sums : list nat) : cproof E101 := mkCproof (E:=E101) (map (fun i => (i, i101 7)) comms) (map (fun i => (i, F0)) sums) (mkProof [] []) 3 1 [] [].
Definition wx_vk : vparam E101 := mkVpar (E:=E101) 1 F1 F1 [].
Definition wx_inv (l : list (F 101)) (g : F 101) : list (F 101) := map (fun x => F1 / (x - g))%F l.
Definition l2 (a b : Z) : list (F 101) := [i101 a; i101 b].
Ltac wclos := repeat first [apply Forall_nil|apply Forall_cons; [first [exact I|apply closure_one; reflexivity|apply closure_index; reflexivity|eapply closure_mle; reflexivity]|]].
Notation g0 gs := (hd F0 gs).
Notation g1 gs := (hd F0 (tl gs)).
Notation g2 gs := (hd F0 (tl (tl gs))).
Notation g3 gs := (hd F0 (tl (tl (tl gs)))).
Notation g4 gs := (hd F0 (tl (tl (tl (tl gs))))).

(** The column (1, 2) is not boolean. *)
Definition wb_tab (gs : list (F 101)) (i : nat) : list (F 101) := match i with _ => l2 1 2 end.
Definition wb_run (vk : vparam E101) (gs : list (F 101)) : option (vtrk E101 * vtrk E101) := session (script 0 gs) vk (wx_cp [0] []) 1 (fun _ v => selector_valid_verify v 0).
Lemma wb_is : forall vk gs, wb_run vk gs = session (script 0 gs) vk (wx_cp [0] []) 1 (fun _ v => selector_valid_verify v 0).
Proof. reflexivity. Qed.
Definition wb_virt : tmap (vexp 101) := Eval vm_compute in match wb_run wx_vk [] with Some (_, u) => vt_virt u | None => [] end.
Lemma wb_seen : forall vk, option_map seen (wb_run vk []) = Some ([(0, VQuery 0)], wb_virt, [4], [], wx_cp [0] [], []).
Proof. intros. match goal with |- _ = ?b => vm_cast_no_check (eq_refl b) end. Qed.
Example C67_ex_boolean : forall vk st, (forall gs, length gs = 0 -> exists u, final (wb_run vk gs) = Some u) /\ ~ boolean (l2 1 2) /\
  count (passes_after 0 st (fun gs => truthful 3 [0] (wb_tab gs)) (fun gs => final (wb_run vk gs))) (allV 101 (3 + 1)) <= 6 * fsize 101 ^ 3.
Proof.
  intros vk st. assert (Hno : ~ boolean (l2 1 2)).
  { intros H. inversion H as [|? ? _ H']. inversion H' as [|? ? [X|X] _]; discriminate X. }
  split; [|split; [exact Hno|]].
  - intros [|? ?] Hk; try discriminate Hk. clear Hk. pose proof (wb_seen vk) as S. destruct (wb_run vk []) as [[v u]|]; [exists u; reflexivity|discriminate S].
  - refine (C67_boolean 101 E101 prime_101 _ (fun gs => rd (wb_tab gs)) 1 3 2 3 st (fun gs => truthful 3 [0] (wb_tab gs)) (fun gs => final (wb_run vk gs)) 0 1 (l2 1 2) _ _ _ Hno);
      [vm_compute; repeat constructor|repeat constructor|apply Nat.ltb_lt; reflexivity|].
    intros [|? ?] u Hk; try discriminate Hk. clear Hk. intros Hu. destruct (session_meets 40 (wb_tab []) _ _ _ _ _ 3 2 3 [0] _ _ _ _ _ _ _ (wb_is vk []) (wb_seen vk) Hu) as [C [Q [v [Ha [V0 V1]]]]];
      [reflexivity|reflexivity|reflexivity|vm_compute; reflexivity|wclos|].
    split; [exact C|]. split; [intros ch; apply Q|]. exists v, u. split; [exact Ha|].
    exact (rd_reads (wb_tab []) v 0 ltac:(rewrite V0; reflexivity) eq_refl).
Qed.
Print Assumptions C67_ex_boolean.

(** The bag (0, 5) contains zero. *)
Definition wz_tab (gs : list (F 101)) (i : nat) : list (F 101) := match i with 0 => l2 0 5 | 1 => l2 1 1 | _ => wx_inv (l2 0 5) F0 end.
Definition wz_run (vk : vparam E101) (gs : list (F 101)) : option (vtrk E101 * vtrk E101) := session (script 0 gs) vk (wx_cp [0; 1; 2] []) 2 (fun _ v => no_zeros_verify true v (mkBagc 0 1 1)).
Lemma wz_is : forall vk gs, wz_run vk gs = session (script 0 gs) vk (wx_cp [0; 1; 2] []) 2 (fun _ v => no_zeros_verify true v (mkBagc 0 1 1)).
Proof. reflexivity. Qed.
Definition wz_virt : tmap (vexp 101) := Eval vm_compute in match wz_run wx_vk [] with Some (_, u) => vt_virt u | None => [] end.
Lemma wz_seen : forall vk, option_map seen (wz_run vk []) = Some ([(1, VQuery 1); (0, VQuery 0)], wz_virt, [5], [], wx_cp [0; 1; 2] [], []).
Proof. intros. match goal with |- _ = ?b => vm_cast_no_check (eq_refl b) end. Qed.
Example C67_ex_no_zeros : forall vk st, (forall gs, length gs = 0 -> exists u, final (wz_run vk gs) = Some u) /\ In F0 (rows (l2 0 5) (l2 1 1)) /\
  count (passes_after 0 st (fun gs => truthful 3 [0; 1; 2] (wz_tab gs)) (fun gs => final (wz_run vk gs))) (allV 101 (3 + 1)) <= 7 * fsize 101 ^ 3.
Proof.
  intros vk st. assert (Hno : In F0 (rows (l2 0 5) (l2 1 1))).
  { vm_compute. left. reflexivity. }
  split; [|split; [exact Hno|]].
  - intros [|? ?] Hk; try discriminate Hk. clear Hk. pose proof (wz_seen vk) as S. destruct (wz_run vk []) as [[v u]|]; [exists u; reflexivity|discriminate S].
  - refine (C67_no_zeros 101 E101 prime_101 _ (fun gs => rd (wz_tab gs)) 1 3 3 3 st (fun gs => truthful 3 [0; 1; 2] (wz_tab gs)) (fun gs => final (wz_run vk gs)) true (mkBagc 0 1 1) (l2 0 5) (l2 1 1) _ _ _ Hno);
      [vm_compute; repeat constructor|repeat constructor|apply Nat.ltb_lt; reflexivity|].
    intros [|? ?] u Hk; try discriminate Hk. clear Hk. intros Hu. destruct (session_meets 40 (wz_tab []) _ _ _ _ _ 3 3 3 [0; 1; 2] _ _ _ _ _ _ _ (wz_is vk []) (wz_seen vk) Hu) as [C [Q [v [Ha [V0 V1]]]]];
      [reflexivity|reflexivity|reflexivity|vm_compute; reflexivity|wclos|].
    split; [exact C|]. split; [intros ch; apply Q|]. exists v, u. split; [exact Ha|].
    split; [exact (rd_reads (wz_tab []) v 0 ltac:(rewrite V0; reflexivity) eq_refl)|].
    exact (rd_reads (wz_tab []) v 1 ltac:(rewrite V0; reflexivity) eq_refl).
Qed.
Print Assumptions C67_ex_no_zeros.

(** The bags (3, 5) and (3, 6) differ. *)
Definition we_tab (gs : list (F 101)) (i : nat) : list (F 101) :=
  match i with 0 => l2 3 5 | 2 => l2 3 6 | 5 => wx_inv (l2 3 5) (g0 gs) | 13 => wx_inv (l2 3 6) (g0 gs) | _ => l2 1 1 end.
Definition we_run (vk : vparam E101) (gs : list (F 101)) : option (vtrk E101 * vtrk E101) := session (script 0 gs) vk (wx_cp [0; 1; 2; 3; 5; 13] [7; 15]) 4 (fun o v => bag_eq_verify o true v (mkBagc 0 1 1) (mkBagc 2 3 1)).
Lemma we_is : forall vk gs, we_run vk gs = session (script 0 gs) vk (wx_cp [0; 1; 2; 3; 5; 13] [7; 15]) 4 (fun o v => bag_eq_verify o true v (mkBagc 0 1 1) (mkBagc 2 3 1)).
Proof. reflexivity. Qed.
Definition we_virt (g : F 101) : tmap (vexp 101) := Eval vm_compute in match we_run wx_vk [g] with Some (_, u) => vt_virt u | None => [] end.
Lemma we_seen : forall vk g, option_map seen (we_run vk [g]) = Some ([(3, VQuery 3); (2, VQuery 2); (1, VQuery 1); (0, VQuery 0)], we_virt g, [12; 20], [7; 15], wx_cp [0; 1; 2; 3; 5; 13] [7; 15], [g]).
Proof. intros. match goal with |- _ = ?b => vm_cast_no_check (eq_refl b) end. Qed.
Example C67_ex_equal : forall vk st, (forall gs, length gs = 1 -> exists u, final (we_run vk gs) = Some u) /\ ~ Permutation (rows (l2 3 5) (l2 1 1)) (rows (l2 3 6) (l2 1 1)) /\
  count (passes_after 1 st (fun gs => truthful 6 [0; 1; 2; 3; 5; 13] (we_tab gs)) (fun gs => final (we_run vk gs))) (allV 101 (1 + (6 + 1))) <= 11 * fsize 101 ^ 7.
Proof.
  intros vk st. assert (Hno : ~ Permutation (rows (l2 3 5) (l2 1 1)) (rows (l2 3 6) (l2 1 1))).
  { intros H. assert (I : In (i101 5) (rows (l2 3 6) (l2 1 1))) by (eapply Permutation_in; [exact H|vm_compute; auto]). vm_compute in I. destruct I as [I|[I|[]]]; discriminate I. }
  split; [|split; [exact Hno|]].
  - intros [|g [|? ?]] Hk; try discriminate Hk. clear Hk. pose proof (we_seen vk g) as S. destruct (we_run vk [g]) as [[v u]|]; [exists u; reflexivity|discriminate S].
  - refine (C67_bags_equal 101 E101 prime_101 _ (fun gs => rd (we_tab gs)) 1 3 3 6 st (fun gs => truthful 6 [0; 1; 2; 3; 5; 13] (we_tab gs)) (fun gs => final (we_run vk gs)) true (mkBagc 0 1 1) (mkBagc 2 3 1) (l2 3 5) (l2 1 1) (l2 3 6) (l2 1 1) _ _ _ _ _ _ _ Hno);
      [vm_compute; repeat constructor|repeat constructor|apply Nat.ltb_lt; reflexivity|repeat constructor; ((left; reflexivity) || (right; reflexivity))|repeat constructor; ((left; reflexivity) || (right; reflexivity))|apply Nat.ltb_lt; reflexivity|apply Nat.ltb_lt; reflexivity|].
    intros [|g [|? ?]] u Hk; try discriminate Hk. clear Hk. intros Hu. destruct (session_meets 40 (we_tab [g]) _ _ _ _ _ 3 3 6 [0; 1; 2; 3; 5; 13] _ _ _ _ _ _ _ (we_is vk [g]) (we_seen vk g) Hu) as [C [Q [v [Ha [V0 V1]]]]];
      [reflexivity|reflexivity|reflexivity|vm_compute; reflexivity|wclos|].
    split; [exact C|]. split; [intros ch; apply Q|]. exists v, u. split; [exact Ha|].
    split; [exact (rd_reads (we_tab [g]) v 0 ltac:(rewrite V0; reflexivity) eq_refl)|].
    split; [exact (rd_reads (we_tab [g]) v 1 ltac:(rewrite V0; reflexivity) eq_refl)|].
    split; [exact (rd_reads (we_tab [g]) v 2 ltac:(rewrite V0; reflexivity) eq_refl)|].
    exact (rd_reads (we_tab [g]) v 3 ltac:(rewrite V0; reflexivity) eq_refl).
Qed.
Print Assumptions C67_ex_equal.

(** The union of (3) and (6) is not (3, 7). *)
Definition ws_tab (gs : list (F 101)) (i : nat) : list (F 101) :=
  match i with 0 => l2 3 5 | 1 => l2 1 0 | 2 => l2 6 5 | 3 => l2 1 0 | 4 => l2 3 7 | 9 => wx_inv (l2 3 5) (g0 gs) | 17 => wx_inv (l2 6 5) (g0 gs) | 25 => wx_inv (l2 3 7) (g0 gs) | _ => l2 1 1 end.
Definition ws_run (vk : vparam E101) (gs : list (F 101)) : option (vtrk E101 * vtrk E101) := session (script 0 gs) vk (wx_cp [0; 1; 2; 3; 4; 5; 9; 17; 25] [11; 19; 27]) 6 (fun o v => bag_sum_verify o true v (mkBagc 0 1 1) (mkBagc 2 3 1) (mkBagc 4 5 1)).
Lemma ws_is : forall vk gs, ws_run vk gs = session (script 0 gs) vk (wx_cp [0; 1; 2; 3; 4; 5; 9; 17; 25] [11; 19; 27]) 6 (fun o v => bag_sum_verify o true v (mkBagc 0 1 1) (mkBagc 2 3 1) (mkBagc 4 5 1)).
Proof. reflexivity. Qed.
Definition ws_virt (g : F 101) : tmap (vexp 101) := Eval vm_compute in match ws_run wx_vk [g] with Some (_, u) => vt_virt u | None => [] end.
Lemma ws_seen : forall vk g, option_map seen (ws_run vk [g]) = Some ([(5, VQuery 5); (4, VQuery 4); (3, VQuery 3); (2, VQuery 2); (1, VQuery 1); (0, VQuery 0)], ws_virt g, [16; 24; 32], [11; 19; 27], wx_cp [0; 1; 2; 3; 4; 5; 9; 17; 25] [11; 19; 27], [g]).
Proof. intros. match goal with |- _ = ?b => vm_cast_no_check (eq_refl b) end. Qed.
Example C67_ex_sum : forall vk st, (forall gs, length gs = 1 -> exists u, final (ws_run vk gs) = Some u) /\ ~ Permutation (rows (l2 3 5) (l2 1 0) ++ rows (l2 6 5) (l2 1 0)) (rows (l2 3 7) (l2 1 1)) /\
  count (passes_after 1 st (fun gs => truthful 8 [0; 1; 2; 3; 4; 5; 9; 17; 25] (ws_tab gs)) (fun gs => final (ws_run vk gs))) (allV 101 (1 + (8 + 1))) <= 13 * fsize 101 ^ 9.
Proof.
  intros vk st. assert (Hno : ~ Permutation (rows (l2 3 5) (l2 1 0) ++ rows (l2 6 5) (l2 1 0)) (rows (l2 3 7) (l2 1 1))).
  { intros H. assert (I : In (i101 6) (rows (l2 3 7) (l2 1 1))) by (eapply Permutation_in; [exact H|vm_compute; auto]). vm_compute in I. destruct I as [I|[I|[]]]; discriminate I. }
  split; [|split; [exact Hno|]].
  - intros [|g [|? ?]] Hk; try discriminate Hk. clear Hk. pose proof (ws_seen vk g) as S. destruct (ws_run vk [g]) as [[v u]|]; [exists u; reflexivity|discriminate S].
  - refine (C67_bags_sum 101 E101 prime_101 _ (fun gs => rd (ws_tab gs)) 1 3 3 8 st (fun gs => truthful 8 [0; 1; 2; 3; 4; 5; 9; 17; 25] (ws_tab gs)) (fun gs => final (ws_run vk gs)) true (mkBagc 0 1 1) (mkBagc 2 3 1) (mkBagc 4 5 1) (l2 3 5) (l2 1 0) (l2 6 5) (l2 1 0) (l2 3 7) (l2 1 1) _ _ _ _ _ _ _ _ Hno);
      [vm_compute; repeat constructor|repeat constructor|apply Nat.ltb_lt; reflexivity|repeat constructor; ((left; reflexivity) || (right; reflexivity))|repeat constructor; ((left; reflexivity) || (right; reflexivity))|repeat constructor; ((left; reflexivity) || (right; reflexivity))|apply Nat.ltb_lt; reflexivity|apply Nat.ltb_lt; reflexivity|].
    intros [|g [|? ?]] u Hk; try discriminate Hk. clear Hk. intros Hu. destruct (session_meets 40 (ws_tab [g]) _ _ _ _ _ 3 3 8 [0; 1; 2; 3; 4; 5; 9; 17; 25] _ _ _ _ _ _ _ (ws_is vk [g]) (ws_seen vk g) Hu) as [C [Q [v [Ha [V0 V1]]]]];
      [reflexivity|reflexivity|reflexivity|vm_compute; reflexivity|wclos|].
    split; [exact C|]. split; [intros ch; apply Q|]. exists v, u. split; [exact Ha|].
    split; [exact (rd_reads (ws_tab [g]) v 0 ltac:(rewrite V0; reflexivity) eq_refl)|].
    split; [exact (rd_reads (ws_tab [g]) v 1 ltac:(rewrite V0; reflexivity) eq_refl)|].
    split; [exact (rd_reads (ws_tab [g]) v 2 ltac:(rewrite V0; reflexivity) eq_refl)|].
    split; [exact (rd_reads (ws_tab [g]) v 3 ltac:(rewrite V0; reflexivity) eq_refl)|].
    split; [exact (rd_reads (ws_tab [g]) v 4 ltac:(rewrite V0; reflexivity) eq_refl)|].
    exact (rd_reads (ws_tab [g]) v 5 ltac:(rewrite V0; reflexivity) eq_refl).
Qed.
Print Assumptions C67_ex_sum.

(** 6 of the bag (3, 6) does not occur in (3, 5). *)
Definition wi_tab (gs : list (F 101)) (i : nat) : list (F 101) :=
  match i with 0 => l2 3 6 | 2 => l2 3 5 | 6 => wx_inv (l2 3 6) (g0 gs) | 14 => wx_inv (l2 3 5) (g0 gs) | _ => l2 1 1 end.
Definition wi_run (vk : vparam E101) (gs : list (F 101)) : option (vtrk E101 * vtrk E101) := session (script 0 gs) vk (wx_cp [0; 1; 2; 3; 4; 6; 14] [8; 16]) 5 (fun o v => inclusion_verify_with_advice o true v (mkBagc 0 1 1) (mkBagc 2 3 1) 4).
Lemma wi_is : forall vk gs, wi_run vk gs = session (script 0 gs) vk (wx_cp [0; 1; 2; 3; 4; 6; 14] [8; 16]) 5 (fun o v => inclusion_verify_with_advice o true v (mkBagc 0 1 1) (mkBagc 2 3 1) 4).
Proof. reflexivity. Qed.
Definition wi_virt (g : F 101) : tmap (vexp 101) := Eval vm_compute in match wi_run wx_vk [g] with Some (_, u) => vt_virt u | None => [] end.
Lemma wi_seen : forall vk g, option_map seen (wi_run vk [g]) = Some ([(4, VQuery 4); (3, VQuery 3); (2, VQuery 2); (1, VQuery 1); (0, VQuery 0)], wi_virt g, [13; 21], [8; 16], wx_cp [0; 1; 2; 3; 4; 6; 14] [8; 16], [g]).
Proof. intros. match goal with |- _ = ?b => vm_cast_no_check (eq_refl b) end. Qed.
Example C67_ex_included : forall vk st, (forall gs, length gs = 1 -> exists u, final (wi_run vk gs) = Some u) /\ ~ incl (rows (l2 3 6) (l2 1 1)) (rows (l2 3 5) (l2 1 1)) /\
  count (passes_after 1 st (fun gs => truthful 6 [0; 1; 2; 3; 4; 6; 14] (wi_tab gs)) (fun gs => final (wi_run vk gs))) (allV 101 (1 + (6 + 1))) <= 11 * fsize 101 ^ 7.
Proof.
  intros vk st. assert (Hno : ~ incl (rows (l2 3 6) (l2 1 1)) (rows (l2 3 5) (l2 1 1))).
  { intros H. assert (I : In (i101 6) (rows (l2 3 5) (l2 1 1))) by (apply H; vm_compute; auto). vm_compute in I. destruct I as [I|[I|[]]]; discriminate I. }
  split; [|split; [exact Hno|]].
  - intros [|g [|? ?]] Hk; try discriminate Hk. clear Hk. pose proof (wi_seen vk g) as S. destruct (wi_run vk [g]) as [[v u]|]; [exists u; reflexivity|discriminate S].
  - refine (C67_included 101 E101 prime_101 _ (fun gs => rd (wi_tab gs)) 1 3 3 6 st (fun gs => truthful 6 [0; 1; 2; 3; 4; 6; 14] (wi_tab gs)) (fun gs => final (wi_run vk gs)) true (mkBagc 0 1 1) (mkBagc 2 3 1) 4 (l2 3 6) (l2 1 1) (l2 3 5) (l2 1 1) (l2 1 1) _ _ _ _ _ Hno);
      [vm_compute; repeat constructor|repeat constructor|apply Nat.ltb_lt; reflexivity|repeat constructor; ((left; reflexivity) || (right; reflexivity))|apply Nat.ltb_lt; reflexivity|].
    intros [|g [|? ?]] u Hk; try discriminate Hk. clear Hk. intros Hu. destruct (session_meets 40 (wi_tab [g]) _ _ _ _ _ 3 3 6 [0; 1; 2; 3; 4; 6; 14] _ _ _ _ _ _ _ (wi_is vk [g]) (wi_seen vk g) Hu) as [C [Q [v [Ha [V0 V1]]]]];
      [reflexivity|reflexivity|reflexivity|vm_compute; reflexivity|wclos|].
    split; [exact C|]. split; [intros ch; apply Q|]. exists v, u. split; [exact Ha|].
    split; [exact (rd_reads (wi_tab [g]) v 0 ltac:(rewrite V0; reflexivity) eq_refl)|].
    split; [exact (rd_reads (wi_tab [g]) v 1 ltac:(rewrite V0; reflexivity) eq_refl)|].
    split; [exact (rd_reads (wi_tab [g]) v 2 ltac:(rewrite V0; reflexivity) eq_refl)|].
    split; [exact (rd_reads (wi_tab [g]) v 3 ltac:(rewrite V0; reflexivity) eq_refl)|].
    exact (rd_reads (wi_tab [g]) v 4 ltac:(rewrite V0; reflexivity) eq_refl).
Qed.
Print Assumptions C67_ex_included.

(** (5, 3) is not (3, 5) permuted by (0, 1). *)
Definition wp_tab (gs : list (F 101)) (i : nat) : list (F 101) :=
  let f := [i101 0 + g0 gs * i101 3; i101 1 + g0 gs * i101 5]%F in let g := [i101 0 + g0 gs * i101 5; i101 1 + g0 gs * i101 3]%F in
  match i with 0 => l2 3 5 | 2 => l2 5 3 | 4 => l2 0 1 | 6 => [F0; F1] | 7 => f | 8 => g | 16 => wx_inv f (g1 gs) | 24 => wx_inv g (g1 gs) | _ => l2 1 1 end.
Definition wp_run (vk : vparam E101) (gs : list (F 101)) : option (vtrk E101 * vtrk E101) := session (script 0 gs) vk (wx_cp [0; 1; 2; 3; 4; 7; 8; 16; 24] [18; 26]) 5 (fun o v => presc_perm_verify o true v (mkBagc 0 1 1) (mkBagc 2 3 1) 4).
Lemma wp_is : forall vk gs, wp_run vk gs = session (script 0 gs) vk (wx_cp [0; 1; 2; 3; 4; 7; 8; 16; 24] [18; 26]) 5 (fun o v => presc_perm_verify o true v (mkBagc 0 1 1) (mkBagc 2 3 1) 4).
Proof. reflexivity. Qed.
Definition wp_virt (g g' : F 101) : tmap (vexp 101) :=
  [(31, VAddS 29 (Fopp F1)); (29, VSub 27 28); (28, VMulS 24 g'); (27, VMul 8 24); (26, VMul 25 5); (25, VMul 24 15); (24, VQuery 24);
   (23, VAddS 21 (Fopp F1)); (21, VSub 19 20); (20, VMulS 16 g'); (19, VMul 7 16); (18, VMul 17 5); (17, VMul 16 15); (16, VQuery 16); (15, VFun one_fun);
   (14, VSub 13 8); (13, VAdd 4 12); (12, VMulS 2 g); (11, VSub 10 7); (10, VAdd 6 9); (9, VMulS 0 g); (8, VQuery 8); (7, VQuery 7); (6, VFun ordered_fun); (5, VFun one_fun);
   (4, VQuery 4); (3, VQuery 3); (2, VQuery 2); (1, VQuery 1); (0, VQuery 0)].
Lemma wp_seen : forall vk g g', option_map seen (wp_run vk [g; g']) = Some ([(4, VQuery 4); (3, VQuery 3); (2, VQuery 2); (1, VQuery 1); (0, VQuery 0)], wp_virt g g', [23; 31; 11; 14], [18; 26], wx_cp [0; 1; 2; 3; 4; 7; 8; 16; 24] [18; 26], [g; g']).
Proof. intros. match goal with |- _ = ?b => vm_cast_no_check (eq_refl b) end. Qed.
Example C67_ex_permuted : forall vk st, (forall gs, length gs = 2 -> exists u, final (wp_run vk gs) = Some u) /\ ~ (Permutation (l2 0 1) (index_column 1) /\ forall j, j < 2 -> exists r, r < 2 /\ nth j (l2 0 1) F0 = ofN r /\ nth j (l2 5 3) F0 = nth r (l2 3 5) F0) /\
  count (passes_after 2 st (fun gs => truthful 8 [0; 1; 2; 3; 4; 7; 8; 16; 24] (wp_tab gs)) (fun gs => final (wp_run vk gs))) (allV 101 (2 + (8 + 1))) <= 27 * fsize 101 ^ 10.
Proof.
  intros vk st. assert (Hno : ~ (Permutation (l2 0 1) (index_column 1) /\ forall j, j < 2 -> exists r, r < 2 /\ nth j (l2 0 1) F0 = ofN r /\ nth j (l2 5 3) F0 = nth r (l2 3 5) F0)).
  { intros [_ H]. destruct (H 0 Nat.lt_0_2) as [[|[|r]] [R1 [R2 R3]]]; [discriminate R3|discriminate R2|]. do 2 apply Nat.succ_lt_mono in R1. inversion R1. }
  split; [|split; [exact Hno|]].
  - intros [|g [|g' [|? ?]]] Hk; try discriminate Hk. clear Hk. pose proof (wp_seen vk g g') as S. destruct (wp_run vk [g; g']) as [[v u]|]; [exists u; reflexivity|discriminate S].
  - refine (C67_permuted 101 E101 prime_101 _ (fun gs => rd (wp_tab gs)) 1 3 3 8 st (fun gs => truthful 8 [0; 1; 2; 3; 4; 7; 8; 16; 24] (wp_tab gs)) (fun gs => final (wp_run vk gs)) true (mkBagc 0 1 1) (mkBagc 2 3 1) 4 (l2 3 5) (l2 5 3) (l2 0 1) _ _ _ _ _ Hno);
      [vm_compute; repeat constructor|repeat constructor|apply Nat.ltb_lt; reflexivity|reflexivity|apply Nat.ltb_lt; reflexivity|].
    intros [|g [|g' [|? ?]]] u Hk; try discriminate Hk. clear Hk. intros Hu. destruct (session_meets 40 (wp_tab [g; g']) _ _ _ _ _ 3 3 8 [0; 1; 2; 3; 4; 7; 8; 16; 24] _ _ _ _ _ _ _ (wp_is vk [g; g']) (wp_seen vk g g') Hu) as [C [Q [v [Ha [V0 V1]]]]];
      [reflexivity|reflexivity|reflexivity|vm_compute; reflexivity|wclos|].
    split; [exact C|]. split; [intros ch; apply Q|]. exists v, u. split; [exact Ha|].
    split; [exact (rd_reads (wp_tab [g; g']) v 0 ltac:(rewrite V0; reflexivity) eq_refl)|].
    split; [exact (rd_reads (wp_tab [g; g']) v 2 ltac:(rewrite V0; reflexivity) eq_refl)|].
    split; [exact (rd_reads (wp_tab [g; g']) v 4 ltac:(rewrite V0; reflexivity) eq_refl)|].
    intros id f _ _ _. reflexivity.
Qed.
Print Assumptions C67_ex_permuted.


(** The bag (3, 5) is not sorted over the range (0, 1): its step is 2. *)
Definition wo_tab (gs : list (F 101)) (i : nat) : list (F 101) :=
  let f := [i101 0 + g0 gs * i101 3; i101 1 + g0 gs * i101 5]%F in let g := [i101 1 + g0 gs * i101 5; i101 0 + g0 gs * i101 3]%F in
  match i with 0 => l2 3 5 | 2 => l2 0 1 | 4 => [F1; F0] | 5 => l2 5 3 | 7 => [F0; F1] | 8 => f | 9 => g | 17 => wx_inv f (g1 gs) | 25 => wx_inv g (g1 gs) | 33 => [F1; F0] | 40 => l2 0 0
  | 42 => wx_inv (l2 2 1) (g2 gs) | 50 => wx_inv (l2 0 1) (g2 gs) | _ => l2 1 1 end.
Definition wo_run (vk : vparam E101) (gs : list (F 101)) : option (vtrk E101 * vtrk E101) := session (script 0 gs) vk (wx_cp [0; 1; 2; 5; 8; 9; 17; 25; 40; 42; 50; 58] [19; 27; 44; 52]) 3 (fun o v => strict_sort_verify o true v (mkBagc 0 1 1) (mkBagc 2 1 1)).
Lemma wo_is : forall vk gs, wo_run vk gs = session (script 0 gs) vk (wx_cp [0; 1; 2; 5; 8; 9; 17; 25; 40; 42; 50; 58] [19; 27; 44; 52]) 3 (fun o v => strict_sort_verify o true v (mkBagc 0 1 1) (mkBagc 2 1 1)).
Proof. reflexivity. Qed.
Definition wo_virt (g g' g'' : F 101) : tmap (vexp 101) :=
  [(61, VSub 60 1); (60, VMul 59 58); (59, VMul 38 1); (58, VQuery 58);
   (57, VAddS 55 (Fopp F1)); (55, VSub 53 54); (54, VMulS 50 g''); (53, VMul 2 50); (52, VMul 51 39); (51, VMul 50 40); (50, VQuery 50);
   (49, VAddS 47 (Fopp F1)); (47, VSub 45 46); (46, VMulS 42 g''); (45, VMul 38 42); (44, VMul 43 33); (43, VMul 42 41); (42, VQuery 42); (41, VFun one_fun); (40, VQuery 40);
   (39, VFun one_fun); (38, VSub 37 33); (37, VAddS 35 F1); (35, VMul 33 34); (34, VSub 5 0); (33, VFun (mle_fun (mkMle 1 [F1; F0])));
   (32, VAddS 30 (Fopp F1)); (30, VSub 28 29); (29, VMulS 25 g'); (28, VMul 9 25); (27, VMul 26 6); (26, VMul 25 16); (25, VQuery 25);
   (24, VAddS 22 (Fopp F1)); (22, VSub 20 21); (21, VMulS 17 g'); (20, VMul 8 17); (19, VMul 18 6); (18, VMul 17 16); (17, VQuery 17); (16, VFun one_fun);
   (15, VSub 14 9); (14, VAdd 4 13); (13, VMulS 5 g); (12, VSub 11 8); (11, VAdd 7 10); (10, VMulS 0 g); (9, VQuery 9); (8, VQuery 8); (7, VFun ordered_fun); (6, VFun one_fun);
   (5, VQuery 5); (4, VFun (mle_fun (mkMle 1 [F1; F0]))); (3, VFun one_fun); (2, VQuery 2); (1, VQuery 1); (0, VQuery 0)].
Lemma wo_seen : forall vk g g' g'', option_map seen (wo_run vk [g; g'; g'']) =
  Some ([(2, VQuery 2); (1, VQuery 1); (0, VQuery 0)], wo_virt g g' g'', [24; 32; 12; 15; 49; 57; 61], [19; 27; 44; 52], wx_cp [0; 1; 2; 5; 8; 9; 17; 25; 40; 42; 50; 58] [19; 27; 44; 52], [g; g'; g'']).
Proof. intros. match goal with |- _ = ?b => vm_cast_no_check (eq_refl b) end. Qed.
Lemma wo_got : forall vk g g' g'', option_map (fun r => received_ids (fst r) (snd r)) (wo_run vk [g; g'; g'']) = Some [5; 8; 9; 17; 25; 40; 42; 50; 58].
Proof. intros. match goal with |- _ = ?b => vm_cast_no_check (eq_refl b) end. Qed.
Example C67_ex_sorted : forall vk st, (forall gs, length gs = 3 -> exists u, final (wo_run vk gs) = Some u) /\ ~ sorted_by (l2 0 1) (l2 3 5) (l2 1 1) /\
  count (passes_after 3 st (fun gs => truthful 13 [0; 1; 2; 5; 8; 9; 17; 25; 40; 42; 50; 58] (wo_tab gs)) (fun gs => final (wo_run vk gs))) (allV 101 (3 + (13 + 1))) <= 32 * fsize 101 ^ 16.
Proof.
  intros vk st. assert (Hno : ~ sorted_by (l2 0 1) (l2 3 5) (l2 1 1)).
  { intros H. destruct (H 0 (le_n 2)) as [X _]. vm_compute in X. destruct X as [X|[X|[]]]; discriminate X. }
  split; [|split; [exact Hno|]].
  - intros [|g [|g' [|g'' [|? ?]]]] Hk; try discriminate Hk. clear Hk. pose proof (wo_seen vk g g' g'') as S. destruct (wo_run vk [g; g'; g'']) as [[v u]|]; [exists u; reflexivity|discriminate S].
  - refine (C67_sorted 101 E101 prime_101 _ (fun gs => rd (wo_tab gs)) 1 3 4 13 st (fun gs => truthful 13 [0; 1; 2; 5; 8; 9; 17; 25; 40; 42; 50; 58] (wo_tab gs)) (fun gs => final (wo_run vk gs)) true (mkBagc 0 1 1) (mkBagc 2 1 1) (l2 3 5) (l2 1 1) (l2 0 1) (l2 5 3) (fun _ => l2 0 0) _ _ _ _ Hno);
      [vm_compute; repeat constructor|repeat constructor|apply Nat.ltb_lt; reflexivity|apply Nat.ltb_lt; reflexivity|].
    intros [|g [|g' [|g'' [|? ?]]]] u Hk; try discriminate Hk. clear Hk. intros Hu.
    destruct (session_meets 40 (wo_tab [g; g'; g'']) _ _ _ _ _ 3 4 13 [0; 1; 2; 5; 8; 9; 17; 25; 40; 42; 50; 58] _ _ _ _ _ _ _ (wo_is vk [g; g'; g'']) (wo_seen vk g g' g'') Hu) as [C [Q [v [Ha [V0 [_ V2]]]]]];
      [reflexivity|reflexivity|reflexivity|vm_compute; reflexivity|wclos|].
    pose proof (wo_got vk g g' g'') as V3. rewrite V2 in V3. cbn [option_map fst snd] in V3. injection V3 as V3.
    split; [exact C|]. split; [intros ch; apply Q|]. exists v, u. split; [exact Ha|].
    split; [exact (rd_reads (wo_tab [g; g'; g'']) v 0 ltac:(rewrite V0; reflexivity) eq_refl)|].
    split; [exact (rd_reads (wo_tab [g; g'; g'']) v 1 ltac:(rewrite V0; reflexivity) eq_refl)|].
    split; [exact (rd_reads (wo_tab [g; g'; g'']) v 2 ltac:(rewrite V0; reflexivity) eq_refl)|].
    rewrite V3. split; reflexivity.
Qed.
Print Assumptions C67_ex_sorted.

(** The bag (3, 4), which is sorted over the range (0, 1), is not the support of the bag (3, 3). *)
Definition wq_tab (gs : list (F 101)) (i : nat) : list (F 101) :=
  let f := [i101 0 + g1 gs * i101 3; i101 1 + g1 gs * i101 4]%F in let g := [i101 1 + g1 gs * i101 4; i101 0 + g1 gs * i101 3]%F in
  match i with 0 => l2 3 3 | 2 => l2 3 4 | 4 => l2 0 1 | 5 => l2 2 0 | 7 => wx_inv (l2 3 3) (g0 gs) | 15 => wx_inv (l2 3 4) (g0 gs) | 23 => l2 51 0 | 28 => [F1; F0] | 29 => l2 4 3 | 31 => [F0; F1] | 32 => f | 33 => g
  | 41 => wx_inv f (g2 gs) | 49 => wx_inv g (g2 gs) | 57 => [F1; F0] | 64 => l2 0 2 | 66 => wx_inv (l2 1 1) (g3 gs) | 74 => wx_inv (l2 0 1) (g3 gs) | _ => l2 1 1 end.
Definition wq_run (vk : vparam E101) (gs : list (F 101)) : option (vtrk E101 * vtrk E101) := session (script 0 gs) vk (wx_cp [0; 1; 2; 3; 4; 5; 7; 15; 23; 29; 32; 33; 41; 49; 64; 66; 74; 82] [9; 17; 43; 51; 68; 76]) 5 (fun o v => supp_verify o true v (mkBagc 0 1 1) (mkBagc 2 3 1) (mkBagc 4 1 1)).
Lemma wq_is : forall vk gs, wq_run vk gs = session (script 0 gs) vk (wx_cp [0; 1; 2; 3; 4; 5; 7; 15; 23; 29; 32; 33; 41; 49; 64; 66; 74; 82] [9; 17; 43; 51; 68; 76]) 5 (fun o v => supp_verify o true v (mkBagc 0 1 1) (mkBagc 2 3 1) (mkBagc 4 1 1)).
Proof. reflexivity. Qed.
Definition wq_virt (h g g' g'' : F 101) : tmap (vexp 101) :=
  [(85, VSub 84 3); (84, VMul 83 82); (83, VMul 62 3); (82, VQuery 82); (81, VAddS 79 (Fopp F1)); (79, VSub 77 78); (78, VMulS 74 g''); (77, VMul 4 74); (76, VMul 75 63); (75, VMul 74 64);
   (74, VQuery 74); (73, VAddS 71 (Fopp F1)); (71, VSub 69 70); (70, VMulS 66 g''); (69, VMul 62 66); (68, VMul 67 57); (67, VMul 66 65); (66, VQuery 66); (65, VFun one_fun); (64, VQuery 64);
   (63, VFun one_fun); (62, VSub 61 57); (61, VAddS 59 F1); (59, VMul 57 58); (58, VSub 29 2); (57, VFun (mle_fun (mkMle 1 [F1; F0]))); (56, VAddS 54 (Fopp F1)); (54, VSub 52 53); (53, VMulS 49 g'); (52, VMul 33 49);
   (51, VMul 50 30); (50, VMul 49 40); (49, VQuery 49); (48, VAddS 46 (Fopp F1)); (46, VSub 44 45); (45, VMulS 41 g'); (44, VMul 32 41); (43, VMul 42 30); (42, VMul 41 40); (41, VQuery 41);
   (40, VFun one_fun); (39, VSub 38 33); (38, VAdd 28 37); (37, VMulS 29 g); (36, VSub 35 32); (35, VAdd 31 34); (34, VMulS 2 g); (33, VQuery 33); (32, VQuery 32); (31, VFun ordered_fun);
   (30, VFun one_fun); (29, VQuery 29); (28, VFun (mle_fun (mkMle 1 [F1; F0]))); (27, VFun one_fun); (26, VSub 25 3); (25, VMul 24 23); (24, VMul 5 3); (23, VQuery 23); (22, VAddS 20 (Fopp F1)); (20, VSub 18 19);
   (19, VMulS 15 h); (18, VMul 2 15); (17, VMul 16 3); (16, VMul 15 5); (15, VQuery 15); (14, VAddS 12 (Fopp F1)); (12, VSub 10 11); (11, VMulS 7 h); (10, VMul 0 7); (9, VMul 8 1);
   (8, VMul 7 6); (7, VQuery 7); (6, VFun one_fun); (5, VQuery 5); (4, VQuery 4); (3, VQuery 3); (2, VQuery 2); (1, VQuery 1); (0, VQuery 0)].
Lemma wq_seen : forall vk h g g' g'', option_map seen (wq_run vk [h; g; g'; g'']) =
  Some ([(4, VQuery 4); (3, VQuery 3); (2, VQuery 2); (1, VQuery 1); (0, VQuery 0)], wq_virt h g g' g'', [14; 22; 26; 48; 56; 36; 39; 73; 81; 85], [9; 17; 43; 51; 68; 76], wx_cp [0; 1; 2; 3; 4; 5; 7; 15; 23; 29; 32; 33; 41; 49; 64; 66; 74; 82] [9; 17; 43; 51; 68; 76], [h; g; g'; g'']).
Proof. intros. match goal with |- _ = ?b => vm_cast_no_check (eq_refl b) end. Qed.
Lemma wq_got : forall vk h g g' g'', option_map (fun r => received_ids (fst r) (snd r)) (wq_run vk [h; g; g'; g'']) = Some [5; 7; 15; 23; 29; 32; 33; 41; 49; 64; 66; 74; 82].
Proof. intros. match goal with |- _ = ?b => vm_cast_no_check (eq_refl b) end. Qed.
Example C67_ex_supported : forall vk st, (forall gs, length gs = 4 -> exists u, final (wq_run vk gs) = Some u) /\
  ~ (NoDup (rows (l2 3 4) (l2 1 1)) /\ forall x, In x (rows (l2 3 4) (l2 1 1)) <-> In x (rows (l2 3 3) (l2 1 1))) /\
  count (passes_after 4 st (fun gs => truthful 18 [0; 1; 2; 3; 4; 5; 7; 15; 23; 29; 32; 33; 41; 49; 64; 66; 74; 82] (wq_tab gs)) (fun gs => final (wq_run vk gs))) (allV 101 (4 + (18 + 1))) <= 36 * fsize 101 ^ 22.
Proof.
  intros vk st. assert (Hno : ~ (NoDup (rows (l2 3 4) (l2 1 1)) /\ forall x, In x (rows (l2 3 4) (l2 1 1)) <-> In x (rows (l2 3 3) (l2 1 1)))).
  { intros [_ H]. destruct (H (i101 4)) as [X _]. vm_compute in X. destruct X as [X|[X|[]]]; [right; left; reflexivity|discriminate X|discriminate X]. }
  split; [|split; [exact Hno|]].
  - intros [|h [|g [|g' [|g'' [|? ?]]]]] Hk; try discriminate Hk. clear Hk. pose proof (wq_seen vk h g g' g'') as S. destruct (wq_run vk [h; g; g'; g'']) as [[v u]|]; [exists u; reflexivity|discriminate S].
  - refine (C67_supported 101 E101 prime_101 _ (fun gs => rd (wq_tab gs)) 1 3 4 18 st (fun gs => truthful 18 [0; 1; 2; 3; 4; 5; 7; 15; 23; 29; 32; 33; 41; 49; 64; 66; 74; 82] (wq_tab gs)) (fun gs => final (wq_run vk gs)) true (mkBagc 0 1 1) (mkBagc 2 3 1) (mkBagc 4 1 1) (l2 3 3) (l2 1 1) (l2 3 4) (l2 1 1) (l2 0 1) (l2 2 0) (fun _ => l2 4 3) (fun _ => l2 0 2) _ _ _ _ _ _ _ Hno);
      [vm_compute; repeat constructor|repeat constructor|apply Nat.ltb_lt; reflexivity|apply Nat.ltb_lt; reflexivity|constructor; [right; reflexivity|constructor; [right; reflexivity|constructor]]|constructor; [right; reflexivity|constructor; [right; reflexivity|constructor]]|
       exists 1; split; [constructor; [exists 0; split; [repeat constructor|reflexivity]|constructor; [exists 1; split; [repeat constructor|reflexivity]|constructor]]|reflexivity]|].
    intros [|h [|g [|g' [|g'' [|? ?]]]]] u Hk; try discriminate Hk. clear Hk. intros Hu.
    destruct (session_meets 50 (wq_tab [h; g; g'; g'']) _ _ _ _ _ 3 4 18 [0; 1; 2; 3; 4; 5; 7; 15; 23; 29; 32; 33; 41; 49; 64; 66; 74; 82] _ _ _ _ _ _ _ (wq_is vk [h; g; g'; g'']) (wq_seen vk h g g' g'') Hu) as [C [Q [v [Ha [V0 [_ V2]]]]]];
      [reflexivity|reflexivity|reflexivity|vm_compute; reflexivity|wclos|].
    pose proof (wq_got vk h g g' g'') as V3. rewrite V2 in V3. cbn [option_map fst snd] in V3. injection V3 as V3.
    split; [exact C|]. split; [intros ch; apply Q|]. exists v, u. split; [exact Ha|].
    split; [split; [exact (rd_reads (wq_tab [h; g; g'; g'']) v 0 ltac:(rewrite V0; reflexivity) eq_refl)|exact (rd_reads (wq_tab [h; g; g'; g'']) v 1 ltac:(rewrite V0; reflexivity) eq_refl)]|].
    split; [split; [exact (rd_reads (wq_tab [h; g; g'; g'']) v 2 ltac:(rewrite V0; reflexivity) eq_refl)|exact (rd_reads (wq_tab [h; g; g'; g'']) v 3 ltac:(rewrite V0; reflexivity) eq_refl)]|].
    split; [exact (rd_reads (wq_tab [h; g; g'; g'']) v 4 ltac:(rewrite V0; reflexivity) eq_refl)|].
    rewrite V3. split; [constructor|]. split; [reflexivity|]. split; reflexivity.
Qed.
Print Assumptions C67_ex_supported.

(** The bags (3) and (3) have a common value. *)
Definition wd_tab (gs : list (F 101)) (i : nat) : list (F 101) :=
  let f := [i101 0 + g0 gs * i101 3; i101 1 + g0 gs * i101 4]%F in let g := [i101 1 + g0 gs * i101 4; i101 0 + g0 gs * i101 3]%F in
  match i with 0 => l2 3 3 | 2 => l2 3 3 | 4 => l2 0 1 | 5 => l2 3 4 | 7 => l2 1 0 | 8 => l2 1 0 | 10 => [F1; F0] | 11 => l2 4 3 | 13 => [F0; F1] | 14 => f | 15 => g | 23 => wx_inv f (g1 gs) | 31 => wx_inv g (g1 gs)
  | 39 => [F1; F0] | 46 => l2 0 2 | 48 => wx_inv (l2 1 1) (g2 gs) | 56 => wx_inv (l2 0 1) (g2 gs) | 70 => wx_inv (l2 3 3) (g3 gs) | 78 => wx_inv (l2 3 4) (g3 gs) | 87 => wx_inv (l2 3 3) (g4 gs) | 95 => wx_inv (l2 3 4) (g4 gs) | _ => l2 1 1 end.
Definition wd_run (vk : vparam E101) (gs : list (F 101)) : option (vtrk E101 * vtrk E101) := session (script 0 gs) vk (wx_cp [0; 1; 2; 3; 4; 5; 6; 7; 8; 11; 14; 15; 23; 31; 46; 48; 56; 64; 70; 78; 87; 95] [25; 33; 50; 58; 72; 80; 89; 97]) 5 (fun o v => bag_disjoint_verify o true v (mkBagc 0 1 0) (mkBagc 2 3 0) (mkBagc 4 1 1)).
Lemma wd_is : forall vk gs, wd_run vk gs = session (script 0 gs) vk (wx_cp [0; 1; 2; 3; 4; 5; 6; 7; 8; 11; 14; 15; 23; 31; 46; 48; 56; 64; 70; 78; 87; 95] [25; 33; 50; 58; 72; 80; 89; 97]) 5 (fun o v => bag_disjoint_verify o true v (mkBagc 0 1 0) (mkBagc 2 3 0) (mkBagc 4 1 1)).
Proof. reflexivity. Qed.
Definition wd_virt (g g' g'' h h' : F 101) : tmap (vexp 101) :=
  [(102, VAddS 100 (Fopp F1)); (100, VSub 98 99); (99, VMulS 95 h'); (98, VMul 5 95); (97, VMul 96 6); (96, VMul 95 8); (95, VQuery 95); (94, VAddS 92 (Fopp F1)); (92, VSub 90 91); (91, VMulS 87 h');
   (90, VMul 2 87); (89, VMul 88 3); (88, VMul 87 86); (87, VQuery 87); (86, VFun one_fun); (85, VAddS 83 (Fopp F1)); (83, VSub 81 82); (82, VMulS 78 h); (81, VMul 5 78); (80, VMul 79 6);
   (79, VMul 78 7); (78, VQuery 78); (77, VAddS 75 (Fopp F1)); (75, VSub 73 74); (74, VMulS 70 h); (73, VMul 0 70); (72, VMul 71 1); (71, VMul 70 69); (70, VQuery 70); (69, VFun one_fun);
   (68, VMul 7 8); (67, VSub 66 6); (66, VMul 65 64); (65, VMul 44 6); (64, VQuery 64); (63, VAddS 61 (Fopp F1)); (61, VSub 59 60); (60, VMulS 56 g''); (59, VMul 4 56); (58, VMul 57 45);
   (57, VMul 56 46); (56, VQuery 56); (55, VAddS 53 (Fopp F1)); (53, VSub 51 52); (52, VMulS 48 g''); (51, VMul 44 48); (50, VMul 49 39); (49, VMul 48 47); (48, VQuery 48); (47, VFun one_fun);
   (46, VQuery 46); (45, VFun one_fun); (44, VSub 43 39); (43, VAddS 41 F1); (41, VMul 39 40); (40, VSub 11 5); (39, VFun (mle_fun (mkMle 1 [F1; F0]))); (38, VAddS 36 (Fopp F1)); (36, VSub 34 35); (35, VMulS 31 g');
   (34, VMul 15 31); (33, VMul 32 12); (32, VMul 31 22); (31, VQuery 31); (30, VAddS 28 (Fopp F1)); (28, VSub 26 27); (27, VMulS 23 g'); (26, VMul 14 23); (25, VMul 24 12); (24, VMul 23 22);
   (23, VQuery 23); (22, VFun one_fun); (21, VSub 20 15); (20, VAdd 10 19); (19, VMulS 11 g); (18, VSub 17 14); (17, VAdd 13 16); (16, VMulS 5 g); (15, VQuery 15); (14, VQuery 14);
   (13, VFun ordered_fun); (12, VFun one_fun); (11, VQuery 11); (10, VFun (mle_fun (mkMle 1 [F1; F0]))); (9, VFun one_fun); (8, VQuery 8); (7, VQuery 7); (6, VQuery 6); (5, VQuery 5); (4, VQuery 4);
   (3, VQuery 3); (2, VQuery 2); (1, VQuery 1); (0, VQuery 0)].
Lemma wd_seen : forall vk g g' g'' h h', option_map seen (wd_run vk [g; g'; g''; h; h']) =
  Some ([(4, VQuery 4); (3, VQuery 3); (2, VQuery 2); (1, VQuery 1); (0, VQuery 0)], wd_virt g g' g'' h h', [30; 38; 18; 21; 55; 63; 67; 68; 77; 85; 94; 102], [25; 33; 50; 58; 72; 80; 89; 97], wx_cp [0; 1; 2; 3; 4; 5; 6; 7; 8; 11; 14; 15; 23; 31; 46; 48; 56; 64; 70; 78; 87; 95] [25; 33; 50; 58; 72; 80; 89; 97], [g; g'; g''; h; h']).
Proof. intros. match goal with |- _ = ?b => vm_cast_no_check (eq_refl b) end. Qed.
Lemma wd_got : forall vk g g' g'' h h', option_map (fun r => received_ids (fst r) (snd r)) (wd_run vk [g; g'; g''; h; h']) = Some [5; 6; 7; 8; 11; 14; 15; 23; 31; 46; 48; 56; 64; 70; 78; 87; 95].
Proof. intros. match goal with |- _ = ?b => vm_cast_no_check (eq_refl b) end. Qed.
Example C67_ex_disjoint : forall vk st, (forall gs, length gs = 5 -> exists u, final (wd_run vk gs) = Some u) /\
  ~ (forall x, In x (rows [i101 3] [i101 1]) -> ~ In x (rows [i101 3] [i101 1])) /\
  count (passes_after 5 st (fun gs => truthful 22 [0; 1; 2; 3; 4; 5; 6; 7; 8; 11; 14; 15; 23; 31; 46; 48; 56; 64; 70; 78; 87; 95] (wd_tab gs)) (fun gs => final (wd_run vk gs))) (allV 101 (5 + (22 + 1))) <= 38 * fsize 101 ^ 27.
Proof.
  intros vk st. assert (Hno : ~ (forall x, In x (rows [i101 3] [i101 1]) -> ~ In x (rows [i101 3] [i101 1]))).
  { intros H. apply (H (i101 3)); vm_compute; left; reflexivity. }
  split; [|split; [exact Hno|]].
  - intros [|g [|g' [|g'' [|h [|h' [|? ?]]]]]] Hk; try discriminate Hk. clear Hk. pose proof (wd_seen vk g g' g'' h h') as S. destruct (wd_run vk [g; g'; g''; h; h']) as [[v u]|]; [exists u; reflexivity|discriminate S].
  - refine (C67_disjoint 101 E101 prime_101 _ (fun gs => rd (wd_tab gs)) 1 3 4 22 st (fun gs => truthful 22 [0; 1; 2; 3; 4; 5; 6; 7; 8; 11; 14; 15; 23; 31; 46; 48; 56; 64; 70; 78; 87; 95] (wd_tab gs)) (fun gs => final (wd_run vk gs)) true (mkBagc 0 1 0) (mkBagc 2 3 0) (mkBagc 4 1 1) [i101 3] [i101 1] [i101 3] [i101 1] (l2 0 1) (l2 3 4) (l2 1 1) (l2 1 0) (l2 1 0) (l2 4 3) (fun _ => l2 0 2) _ _ _ _ _ _ _ _ Hno);
      [vm_compute; repeat constructor|repeat constructor|apply Nat.ltb_lt; reflexivity|apply Nat.ltb_lt; reflexivity|constructor|constructor; [right; reflexivity|constructor]|constructor; [right; reflexivity|constructor]|
       exists 1; split; [constructor; [exists 0; split; [repeat constructor|reflexivity]|constructor; [exists 1; split; [repeat constructor|reflexivity]|constructor]]|reflexivity]|].
    intros [|g [|g' [|g'' [|h [|h' [|? ?]]]]]] u Hk; try discriminate Hk. clear Hk. intros Hu.
    destruct (session_meets 50 (wd_tab [g; g'; g''; h; h']) _ _ _ _ _ 3 4 22 [0; 1; 2; 3; 4; 5; 6; 7; 8; 11; 14; 15; 23; 31; 46; 48; 56; 64; 70; 78; 87; 95] _ _ _ _ _ _ _ (wd_is vk [g; g'; g''; h; h']) (wd_seen vk g g' g'' h h') Hu) as [C [Q [v [Ha [V0 [_ V2]]]]]];
      [reflexivity|reflexivity|reflexivity|vm_compute; reflexivity|wclos|].
    pose proof (wd_got vk g g' g'' h h') as V3. rewrite V2 in V3. cbn [option_map fst snd] in V3. injection V3 as V3.
    split; [exact C|]. split; [intros ch; apply Q|]. exists v, u. split; [exact Ha|].
    split; [split; [exact (rd_const (wd_tab [g; g'; g''; h; h']) v 0 (i101 3) ltac:(rewrite V0; reflexivity) eq_refl)|exact (rd_const (wd_tab [g; g'; g''; h; h']) v 1 (i101 1) ltac:(rewrite V0; reflexivity) eq_refl)]|].
    split; [split; [exact (rd_const (wd_tab [g; g'; g''; h; h']) v 2 (i101 3) ltac:(rewrite V0; reflexivity) eq_refl)|exact (rd_const (wd_tab [g; g'; g''; h; h']) v 3 (i101 1) ltac:(rewrite V0; reflexivity) eq_refl)]|].
    split; [exact (rd_reads (wd_tab [g; g'; g''; h; h']) v 4 ltac:(rewrite V0; reflexivity) eq_refl)|].
    rewrite V3. split; [repeat constructor|]. split; [reflexivity|]. split; reflexivity.
Qed.
Print Assumptions C67_ex_disjoint.

(** The sets (3) and (3) have a common row. *)
Definition wr_tab (gs : list (F 101)) (i : nat) : list (F 101) :=
  let f := [i101 0 + g1 gs * i101 3; i101 1 + g1 gs * i101 4]%F in let g := [i101 1 + g1 gs * i101 4; i101 0 + g1 gs * i101 3]%F in
  match i with 0 => l2 3 3 | 2 => l2 3 3 | 4 => l2 0 1 | 5 => l2 3 4 | 10 => wx_inv (l2 3 3) (g0 gs) | 18 => wx_inv (l2 3 3) (g0 gs) | 26 => wx_inv (l2 3 4) (g0 gs) | 35 => [F1; F0] | 36 => l2 4 3 | 38 => [F0; F1] | 39 => f | 40 => g
  | 48 => wx_inv f (g2 gs) | 56 => wx_inv g (g2 gs) | 64 => [F1; F0] | 71 => l2 0 2 | 73 => wx_inv (l2 1 1) (g3 gs) | 81 => wx_inv (l2 0 1) (g3 gs) | _ => l2 1 1 end.
Definition wr_run (vk : vparam E101) (gs : list (F 101)) : option (vtrk E101 * vtrk E101) := session (script 0 gs) vk (wx_cp [0; 1; 2; 3; 4; 5; 6; 10; 18; 26; 36; 39; 40; 48; 56; 71; 73; 81; 89] [12; 20; 28; 50; 58; 75; 83]) 5 (fun o v => set_disjoint_verify o true v (mkBagc 0 1 0) (mkBagc 2 3 0) (mkBagc 4 1 1)).
Lemma wr_is : forall vk gs, wr_run vk gs = session (script 0 gs) vk (wx_cp [0; 1; 2; 3; 4; 5; 6; 10; 18; 26; 36; 39; 40; 48; 56; 71; 73; 81; 89] [12; 20; 28; 50; 58; 75; 83]) 5 (fun o v => set_disjoint_verify o true v (mkBagc 0 1 0) (mkBagc 2 3 0) (mkBagc 4 1 1)).
Proof. reflexivity. Qed.
Definition wr_virt (h g g' g'' : F 101) : tmap (vexp 101) :=
  [(92, VSub 91 6); (91, VMul 90 89); (90, VMul 69 6); (89, VQuery 89); (88, VAddS 86 (Fopp F1)); (86, VSub 84 85); (85, VMulS 81 g''); (84, VMul 4 81); (83, VMul 82 70); (82, VMul 81 71);
   (81, VQuery 81); (80, VAddS 78 (Fopp F1)); (78, VSub 76 77); (77, VMulS 73 g''); (76, VMul 69 73); (75, VMul 74 64); (74, VMul 73 72); (73, VQuery 73); (72, VFun one_fun); (71, VQuery 71);
   (70, VFun one_fun); (69, VSub 68 64); (68, VAddS 66 F1); (66, VMul 64 65); (65, VSub 36 5); (64, VFun (mle_fun (mkMle 1 [F1; F0]))); (63, VAddS 61 (Fopp F1)); (61, VSub 59 60); (60, VMulS 56 g'); (59, VMul 40 56);
   (58, VMul 57 37); (57, VMul 56 47); (56, VQuery 56); (55, VAddS 53 (Fopp F1)); (53, VSub 51 52); (52, VMulS 48 g'); (51, VMul 39 48); (50, VMul 49 37); (49, VMul 48 47); (48, VQuery 48);
   (47, VFun one_fun); (46, VSub 45 40); (45, VAdd 35 44); (44, VMulS 36 g); (43, VSub 42 39); (42, VAdd 38 41); (41, VMulS 5 g); (40, VQuery 40); (39, VQuery 39); (38, VFun ordered_fun);
   (37, VFun one_fun); (36, VQuery 36); (35, VFun (mle_fun (mkMle 1 [F1; F0]))); (34, VFun one_fun); (33, VAddS 31 (Fopp F1)); (31, VSub 29 30); (30, VMulS 26 h); (29, VMul 5 26); (28, VMul 27 6); (27, VMul 26 7);
   (26, VQuery 26); (25, VAddS 23 (Fopp F1)); (23, VSub 21 22); (22, VMulS 18 h); (21, VMul 2 18); (20, VMul 19 3); (19, VMul 18 7); (18, VQuery 18); (17, VAddS 15 (Fopp F1)); (15, VSub 13 14);
   (14, VMulS 10 h); (13, VMul 0 10); (12, VMul 11 1); (11, VMul 10 7); (10, VQuery 10); (9, VFun one_fun); (8, VFun one_fun); (7, VFun one_fun); (6, VQuery 6); (5, VQuery 5);
   (4, VQuery 4); (3, VQuery 3); (2, VQuery 2); (1, VQuery 1); (0, VQuery 0)].
Lemma wr_seen : forall vk h g g' g'', option_map seen (wr_run vk [h; g; g'; g'']) =
  Some ([(4, VQuery 4); (3, VQuery 3); (2, VQuery 2); (1, VQuery 1); (0, VQuery 0)], wr_virt h g g' g'', [17; 25; 33; 55; 63; 43; 46; 80; 88; 92], [12; 20; 28; 50; 58; 75; 83], wx_cp [0; 1; 2; 3; 4; 5; 6; 10; 18; 26; 36; 39; 40; 48; 56; 71; 73; 81; 89] [12; 20; 28; 50; 58; 75; 83], [h; g; g'; g'']).
Proof. intros. match goal with |- _ = ?b => vm_cast_no_check (eq_refl b) end. Qed.
Lemma wr_got : forall vk h g g' g'', option_map (fun r => received_ids (fst r) (snd r)) (wr_run vk [h; g; g'; g'']) = Some [5; 6; 10; 18; 26; 36; 39; 40; 48; 56; 71; 73; 81; 89].
Proof. intros. match goal with |- _ = ?b => vm_cast_no_check (eq_refl b) end. Qed.
Example C67_ex_sets_disjoint : forall vk st, (forall gs, length gs = 4 -> exists u, final (wr_run vk gs) = Some u) /\
  ~ NoDup (rows [i101 3] [i101 1] ++ rows [i101 3] [i101 1]) /\
  count (passes_after 4 st (fun gs => truthful 19 [0; 1; 2; 3; 4; 5; 6; 10; 18; 26; 36; 39; 40; 48; 56; 71; 73; 81; 89] (wr_tab gs)) (fun gs => final (wr_run vk gs))) (allV 101 (4 + (19 + 1))) <= 36 * fsize 101 ^ 23.
Proof.
  intros vk st. assert (Hno : ~ NoDup (rows [i101 3] [i101 1] ++ rows [i101 3] [i101 1])).
  { intros H. vm_compute in H. inversion H as [|? ? H1 _]. apply H1. left. reflexivity. }
  split; [|split; [exact Hno|]].
  - intros [|h [|g [|g' [|g'' [|? ?]]]]] Hk; try discriminate Hk. clear Hk. pose proof (wr_seen vk h g g' g'') as S. destruct (wr_run vk [h; g; g'; g'']) as [[v u]|]; [exists u; reflexivity|discriminate S].
  - refine (C67_sets_disjoint 101 E101 prime_101 _ (fun gs => rd (wr_tab gs)) 1 3 4 19 st (fun gs => truthful 19 [0; 1; 2; 3; 4; 5; 6; 10; 18; 26; 36; 39; 40; 48; 56; 71; 73; 81; 89] (wr_tab gs)) (fun gs => final (wr_run vk gs)) true (mkBagc 0 1 0) (mkBagc 2 3 0) (mkBagc 4 1 1) [i101 3] [i101 1] [i101 3] [i101 1] (l2 0 1) (l2 3 4) (l2 1 1) (fun _ => l2 4 3) (fun _ => l2 0 2) _ _ _ _ _ _ _ _ _ Hno);
      [vm_compute; repeat constructor|repeat constructor|apply Nat.ltb_lt; reflexivity|apply Nat.ltb_lt; reflexivity|constructor|constructor; [right; reflexivity|constructor]|constructor; [right; reflexivity|constructor]|constructor; [right; reflexivity|constructor; [right; reflexivity|constructor]]|
       exists 1; split; [constructor; [exists 0; split; [repeat constructor|reflexivity]|constructor; [exists 1; split; [repeat constructor|reflexivity]|constructor]]|reflexivity]|].
    intros [|h [|g [|g' [|g'' [|? ?]]]]] u Hk; try discriminate Hk. clear Hk. intros Hu.
    destruct (session_meets 60 (wr_tab [h; g; g'; g'']) _ _ _ _ _ 3 4 19 [0; 1; 2; 3; 4; 5; 6; 10; 18; 26; 36; 39; 40; 48; 56; 71; 73; 81; 89] _ _ _ _ _ _ _ (wr_is vk [h; g; g'; g'']) (wr_seen vk h g g' g'') Hu) as [C [Q [v [Ha [V0 [_ V2]]]]]];
      [reflexivity|reflexivity|reflexivity|vm_compute; reflexivity|wclos|].
    pose proof (wr_got vk h g g' g'') as V3. rewrite V2 in V3. cbn [option_map fst snd] in V3. injection V3 as V3.
    split; [exact C|]. split; [intros ch; apply Q|]. exists v, u. split; [exact Ha|].
    split; [split; [exact (rd_const (wr_tab [h; g; g'; g'']) v 0 (i101 3) ltac:(rewrite V0; reflexivity) eq_refl)|exact (rd_const (wr_tab [h; g; g'; g'']) v 1 (i101 1) ltac:(rewrite V0; reflexivity) eq_refl)]|].
    split; [split; [exact (rd_const (wr_tab [h; g; g'; g'']) v 2 (i101 3) ltac:(rewrite V0; reflexivity) eq_refl)|exact (rd_const (wr_tab [h; g; g'; g'']) v 3 (i101 1) ltac:(rewrite V0; reflexivity) eq_refl)]|].
    split; [exact (rd_reads (wr_tab [h; g; g'; g'']) v 4 ltac:(rewrite V0; reflexivity) eq_refl)|].
    rewrite V3. split; [repeat constructor|]. split; [reflexivity|]. split; reflexivity.
Qed.
Print Assumptions C67_ex_sets_disjoint.

(** The set (3, 4) is not the union of the sets (3) and (3). *)
Definition wu_tab (gs : list (F 101)) (i : nat) : list (F 101) :=
  let f := [i101 0 + g2 gs * i101 3; i101 1 + g2 gs * i101 4]%F in let g := [i101 1 + g2 gs * i101 4; i101 0 + g2 gs * i101 3]%F in
  match i with 0 => l2 3 3 | 2 => l2 3 3 | 4 => l2 3 4 | 6 => l2 0 1 | 7 => l2 3 3 | 12 => wx_inv (l2 3 3) (g0 gs) | 20 => wx_inv (l2 3 3) (g0 gs) | 28 => wx_inv (l2 3 3) (g0 gs) | 36 => l2 2 0 | 38 => wx_inv (l2 3 3) (g1 gs)
  | 46 => wx_inv (l2 3 4) (g1 gs) | 54 => l2 51 0 | 59 => [F1; F0] | 60 => l2 4 3 | 62 => [F0; F1] | 63 => f | 64 => g
  | 72 => wx_inv f (g3 gs) | 80 => wx_inv g (g3 gs) | 88 => [F1; F0] | 95 => l2 0 2 | 97 => wx_inv (l2 1 1) (g4 gs) | 105 => wx_inv (l2 0 1) (g4 gs) | _ => l2 1 1 end.
Definition wu_run (vk : vparam E101) (gs : list (F 101)) : option (vtrk E101 * vtrk E101) := session (script 0 gs) vk (wx_cp [0; 1; 2; 3; 4; 5; 6; 7; 8; 12; 20; 28; 36; 38; 46; 54; 60; 63; 64; 72; 80; 95; 97; 105; 113] [14; 22; 30; 40; 48; 74; 82; 99; 107]) 7 (fun o v => set_union_verify o true v (mkBagc 0 1 0) (mkBagc 2 3 0) (mkBagc 4 5 1) (mkBagc 6 1 1)).
Lemma wu_is : forall vk gs, wu_run vk gs = session (script 0 gs) vk (wx_cp [0; 1; 2; 3; 4; 5; 6; 7; 8; 12; 20; 28; 36; 38; 46; 54; 60; 63; 64; 72; 80; 95; 97; 105; 113] [14; 22; 30; 40; 48; 74; 82; 99; 107]) 7 (fun o v => set_union_verify o true v (mkBagc 0 1 0) (mkBagc 2 3 0) (mkBagc 4 5 1) (mkBagc 6 1 1)).
Proof. reflexivity. Qed.
Definition wu_virt (h' h g g' g'' : F 101) : tmap (vexp 101) :=
  [(116, VSub 115 5); (115, VMul 114 113); (114, VMul 93 5); (113, VQuery 113); (112, VAddS 110 (Fopp F1)); (110, VSub 108 109); (109, VMulS 105 g''); (108, VMul 6 105); (107, VMul 106 94); (106, VMul 105 95);
   (105, VQuery 105); (104, VAddS 102 (Fopp F1)); (102, VSub 100 101); (101, VMulS 97 g''); (100, VMul 93 97); (99, VMul 98 88); (98, VMul 97 96); (97, VQuery 97); (96, VFun one_fun); (95, VQuery 95);
   (94, VFun one_fun); (93, VSub 92 88); (92, VAddS 90 F1); (90, VMul 88 89); (89, VSub 60 4); (88, VFun (mle_fun (mkMle 1 [F1; F0]))); (87, VAddS 85 (Fopp F1)); (85, VSub 83 84); (84, VMulS 80 g'); (83, VMul 64 80);
   (82, VMul 81 61); (81, VMul 80 71); (80, VQuery 80); (79, VAddS 77 (Fopp F1)); (77, VSub 75 76); (76, VMulS 72 g'); (75, VMul 63 72); (74, VMul 73 61); (73, VMul 72 71); (72, VQuery 72);
   (71, VFun one_fun); (70, VSub 69 64); (69, VAdd 59 68); (68, VMulS 60 g); (67, VSub 66 63); (66, VAdd 62 65); (65, VMulS 4 g); (64, VQuery 64); (63, VQuery 63); (62, VFun ordered_fun);
   (61, VFun one_fun); (60, VQuery 60); (59, VFun (mle_fun (mkMle 1 [F1; F0]))); (58, VFun one_fun); (57, VSub 56 5); (56, VMul 55 54); (55, VMul 36 5); (54, VQuery 54); (53, VAddS 51 (Fopp F1)); (51, VSub 49 50);
   (50, VMulS 46 h); (49, VMul 4 46); (48, VMul 47 5); (47, VMul 46 36); (46, VQuery 46); (45, VAddS 43 (Fopp F1)); (43, VSub 41 42); (42, VMulS 38 h); (41, VMul 7 38); (40, VMul 39 8);
   (39, VMul 38 37); (38, VQuery 38); (37, VFun one_fun); (36, VQuery 36); (35, VAddS 33 (Fopp F1)); (33, VSub 31 32); (32, VMulS 28 h'); (31, VMul 7 28); (30, VMul 29 8); (29, VMul 28 9);
   (28, VQuery 28); (27, VAddS 25 (Fopp F1)); (25, VSub 23 24); (24, VMulS 20 h'); (23, VMul 2 20); (22, VMul 21 3); (21, VMul 20 9); (20, VQuery 20); (19, VAddS 17 (Fopp F1)); (17, VSub 15 16);
   (16, VMulS 12 h'); (15, VMul 0 12); (14, VMul 13 1); (13, VMul 12 9); (12, VQuery 12); (11, VFun one_fun); (10, VFun one_fun); (9, VFun one_fun); (8, VQuery 8); (7, VQuery 7);
   (6, VQuery 6); (5, VQuery 5); (4, VQuery 4); (3, VQuery 3); (2, VQuery 2); (1, VQuery 1); (0, VQuery 0)].
Lemma wu_seen : forall vk h' h g g' g'', option_map seen (wu_run vk [h'; h; g; g'; g'']) =
  Some ([(6, VQuery 6); (5, VQuery 5); (4, VQuery 4); (3, VQuery 3); (2, VQuery 2); (1, VQuery 1); (0, VQuery 0)], wu_virt h' h g g' g'', [19; 27; 35; 45; 53; 57; 79; 87; 67; 70; 104; 112; 116], [14; 22; 30; 40; 48; 74; 82; 99; 107], wx_cp [0; 1; 2; 3; 4; 5; 6; 7; 8; 12; 20; 28; 36; 38; 46; 54; 60; 63; 64; 72; 80; 95; 97; 105; 113] [14; 22; 30; 40; 48; 74; 82; 99; 107], [h'; h; g; g'; g'']).
Proof. intros. match goal with |- _ = ?b => vm_cast_no_check (eq_refl b) end. Qed.
Lemma wu_got : forall vk h' h g g' g'', option_map (fun r => received_ids (fst r) (snd r)) (wu_run vk [h'; h; g; g'; g'']) = Some [7; 8; 12; 20; 28; 36; 38; 46; 54; 60; 63; 64; 72; 80; 95; 97; 105; 113].
Proof. intros. match goal with |- _ = ?b => vm_cast_no_check (eq_refl b) end. Qed.
Example C67_ex_union : forall vk st, (forall gs, length gs = 5 -> exists u, final (wu_run vk gs) = Some u) /\
  ~ (NoDup (rows (l2 3 4) (l2 1 1)) /\ forall x, In x (rows (l2 3 4) (l2 1 1)) <-> In x (rows [i101 3] [i101 1]) \/ In x (rows [i101 3] [i101 1])) /\
  count (passes_after 5 st (fun gs => truthful 24 [0; 1; 2; 3; 4; 5; 6; 7; 8; 12; 20; 28; 36; 38; 46; 54; 60; 63; 64; 72; 80; 95; 97; 105; 113] (wu_tab gs)) (fun gs => final (wu_run vk gs))) (allV 101 (5 + (24 + 1))) <= 40 * fsize 101 ^ 29.
Proof.
  intros vk st. assert (Hno : ~ (NoDup (rows (l2 3 4) (l2 1 1)) /\ forall x, In x (rows (l2 3 4) (l2 1 1)) <-> In x (rows [i101 3] [i101 1]) \/ In x (rows [i101 3] [i101 1]))).
  { intros [_ H]. destruct (H (i101 4)) as [X _]. vm_compute in X. destruct X as [[X|[]]|[X|[]]]; [right; left; reflexivity|discriminate X|discriminate X]. }
  split; [|split; [exact Hno|]].
  - intros [|h' [|h [|g [|g' [|g'' [|? ?]]]]]] Hk; try discriminate Hk. clear Hk. pose proof (wu_seen vk h' h g g' g'') as S. destruct (wu_run vk [h'; h; g; g'; g'']) as [[v u]|]; [exists u; reflexivity|discriminate S].
  - refine (C67_union 101 E101 prime_101 _ (fun gs => rd (wu_tab gs)) 1 3 4 24 st (fun gs => truthful 24 [0; 1; 2; 3; 4; 5; 6; 7; 8; 12; 20; 28; 36; 38; 46; 54; 60; 63; 64; 72; 80; 95; 97; 105; 113] (wu_tab gs)) (fun gs => final (wu_run vk gs)) true (mkBagc 0 1 0) (mkBagc 2 3 0) (mkBagc 4 5 1) (mkBagc 6 1 1) [i101 3] [i101 1] [i101 3] [i101 1] (l2 3 4) (l2 1 1) (l2 0 1) (l2 3 3) (l2 1 1) (fun _ => l2 2 0) (fun _ => l2 4 3) (fun _ => l2 0 2) _ _ _ _ _ _ _ _ _ Hno);
      [vm_compute; repeat constructor|repeat constructor|apply Nat.ltb_lt; reflexivity|apply Nat.ltb_lt; reflexivity|constructor|constructor; [right; reflexivity|constructor]|constructor; [right; reflexivity|constructor]|constructor; [right; reflexivity|constructor; [right; reflexivity|constructor]]|
       exists 1; split; [constructor; [exists 0; split; [repeat constructor|reflexivity]|constructor; [exists 1; split; [repeat constructor|reflexivity]|constructor]]|reflexivity]|].
    intros [|h' [|h [|g [|g' [|g'' [|? ?]]]]]] u Hk; try discriminate Hk. clear Hk. intros Hu.
    destruct (session_meets 60 (wu_tab [h'; h; g; g'; g'']) _ _ _ _ _ 3 4 24 [0; 1; 2; 3; 4; 5; 6; 7; 8; 12; 20; 28; 36; 38; 46; 54; 60; 63; 64; 72; 80; 95; 97; 105; 113] _ _ _ _ _ _ _ (wu_is vk [h'; h; g; g'; g'']) (wu_seen vk h' h g g' g'') Hu) as [C [Q [v [Ha [V0 [_ V2]]]]]];
      [reflexivity|reflexivity|reflexivity|vm_compute; reflexivity|wclos|].
    pose proof (wu_got vk h' h g g' g'') as V3. rewrite V2 in V3. cbn [option_map fst snd] in V3. injection V3 as V3.
    split; [exact C|]. split; [intros ch; apply Q|]. exists v, u. split; [exact Ha|].
    split; [split; [exact (rd_const (wu_tab [h'; h; g; g'; g'']) v 0 (i101 3) ltac:(rewrite V0; reflexivity) eq_refl)|exact (rd_const (wu_tab [h'; h; g; g'; g'']) v 1 (i101 1) ltac:(rewrite V0; reflexivity) eq_refl)]|].
    split; [split; [exact (rd_const (wu_tab [h'; h; g; g'; g'']) v 2 (i101 3) ltac:(rewrite V0; reflexivity) eq_refl)|exact (rd_const (wu_tab [h'; h; g; g'; g'']) v 3 (i101 1) ltac:(rewrite V0; reflexivity) eq_refl)]|].
    split; [split; [exact (rd_reads (wu_tab [h'; h; g; g'; g'']) v 4 ltac:(rewrite V0; reflexivity) eq_refl)|exact (rd_reads (wu_tab [h'; h; g; g'; g'']) v 5 ltac:(rewrite V0; reflexivity) eq_refl)]|].
    split; [exact (rd_reads (wu_tab [h'; h; g; g'; g'']) v 6 ltac:(rewrite V0; reflexivity) eq_refl)|].
    rewrite V3. split; [repeat constructor|]. split; [reflexivity|]. split; [constructor|]. split; [reflexivity|]. split; reflexivity.
Qed.
Print Assumptions C67_ex_union.
