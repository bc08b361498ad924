(** C67, continued: tables whose rows come from another table, groups, and bags with weights. The setting is the one of Props_Whole. *)
From Coq Require Import String List Arith Bool Lia ZArith Znumtheory Permutation.
Import ListNotations.
From Verif Require Import Res Fp FSum SpecMle SpecPoly SpecSumcheck SpecTracker SpecIop SpecRel ModelMle ModelTranscript ModelSumcheck Pairing ModelKzg ModelBatch ModelProver ModelVerifier ModelIop
  ProverHist VerifierHist CompileHist IopHist SessHist CheckHist CheckIopHist CheckIop CheckSort CheckSupp CheckDisj CheckTransform CheckGroup CheckWeights WholeEx Props_Whole.
Local Open Scope string_scope.
Local Open Scope list_scope.
Local Open Scope nat_scope.

(** ** C67: the rows of one table come from another *)
(** The call takes two tables and draws two challenges. The prover commits to the multiplicities, the first polynomial received in the
    call, before the second challenge. The statement is the one of C51: the selected rows of the second table have the products of
    selected rows of the first. A challenge that is zero makes every folded row zero, hence the 1 in the bound. *)
Theorem C67_transform : forall (p : positive) (E : pairing p), prime (Zpos p) -> 2 < fsize p ->
  forall (A : list (F p) -> reading) N d D m st q (last : list (F p) -> option (vtrk E)) debug ti to ic isl oc osl (mults : list (F p) -> list (F p)),
  1 <= d -> d < fsize p -> 2 ^ N < fsize p -> length (tc_cols to) = length (tc_cols ti) -> boolean isl -> boolean osl ->
  (forall gs u, length gs = 2 -> last gs = Some u -> checkable (A gs) N d D m u /\ (forall ch, queries_true (A gs) (facing (st gs) (q gs) u ch)) /\
     exists v v', after_call (fun o v => index_transform_verify o debug v ti to) gs v v' u /\ table_reads (A gs) N v ti ic isl /\ table_reads (A gs) N v to oc osl /\
       column (A gs) N (nth 0 (received_ids v v') 0) = mults (firstn 1 gs)) ->
  ~ (forall k, k < 2 ^ tc_nv to -> nth k osl F0 <> F0 -> exists k', k' < 2 ^ tc_nv ti /\ nth k' isl F0 <> F0 /\ Fprod (row oc k) = Fprod (row ic k')) ->
  count (passes_after 2 st q last) (allV p (2 + (m + N))) <= (1 + length osl + length isl + (N + 2 + N * Nat.max d (D + 1))) * fsize p ^ (1 + (m + N)).
Proof. intros p E Hp H2. exact (transform_count Hp H2). Qed.
Print Assumptions C67_transform.

(** ** C67: the table that a join returns *)
(** The call takes the tables [a] and [b] and receives the columns [tc] of the result, one for each column of [a], before its first
    challenge. The prover commits to the multiplicities, the next polynomial received, before the second. The statement is the one of
    C53: in each selected row the keys agree and the received part has the product of a selected row of [a]. *)
Theorem C67_final_join : forall (p : positive) (E : pairing p), prime (Zpos p) -> 2 < fsize p ->
  forall (A : list (F p) -> reading) N d D m st q (last : list (F p) -> option (vtrk E)) debug a b ai bi ac asl tc bc bsl (mults : list (F p) -> list (F p)),
  let n := length (tc_cols a) in
  1 <= d -> d < fsize p -> 2 ^ N < fsize p -> boolean asl -> boolean bsl ->
  (forall gs u, length gs = 2 -> last gs = Some u -> checkable (A gs) N d D m u /\ (forall ch, queries_true (A gs) (facing (st gs) (q gs) u ch)) /\
     exists v v', after_call (fun o v => ' (_, v) <- final_join_verify o debug v a b ai bi ;; Ok v) gs v v' u /\ table_reads (A gs) N v a ac asl /\ table_reads (A gs) N v b bc bsl /\
       let got := received_ids v v' in
       Forall (fun id => fst (A gs id) <= tc_nv b) (firstn n got) /\ map (column (A gs) (tc_nv b)) (firstn n got) = tc /\ column (A gs) N (nth n got 0) = mults (firstn 1 gs)) ->
  ~ (forall k, k < 2 ^ tc_nv b -> nth k bsl F0 <> F0 -> nth k (nth ai (tc ++ bc) []) F0 = nth k (nth (n + bi) (tc ++ bc) []) F0 /\
       exists k', k' < 2 ^ tc_nv a /\ nth k' asl F0 <> F0 /\ Fprod (row tc k) = Fprod (row ac k')) ->
  count (passes_after 2 st q last) (allV p (2 + (m + N))) <= (1 + length bsl + length asl + (N + 2 + N * Nat.max d (D + 1))) * fsize p ^ (1 + (m + N)).
Proof. intros p E Hp H2. exact (final_join_count Hp H2). Qed.
Print Assumptions C67_final_join.

(** ** C67: groups, counts and sums *)
(** The call draws four challenges for the groups and their counts, and one for each of the [s] requested sums. The table, the groups
    [sup] with their selector [sl'], the counts [ml] and the sums [als] are known before. The prover commits to the shifted groups, the
    fourth polynomial received in the call, before the second challenge, and to the multiplicities of the range, the ninth, before the
    fourth. The statement is the one of C54: the groups are distinct and are the keys of the selected rows, each count is the number of
    rows of its group, and each sum is the sum over the rows of its group. *)
Theorem C67_group_by : forall (p : positive) (E : pairing p), prime (Zpos p) -> 2 < fsize p ->
  forall (A : list (F p) -> reading) N d D m st q (last : list (F p) -> option (vtrk E)) debug t gi rx c tcs sl sup sl' ml rl als (shifted counts : list (F p) -> list (F p)),
  let keys := nth c tcs [] in let sums := sums_in (gv_agg gi) in let s := length sums in
  1 <= d -> d < fsize p -> 2 ^ N < fsize p -> gv_cols gi = [c] -> boolean sl -> boolean sl' -> small_range rl (tc_nv t) ->
  (forall gs u, length gs = 4 + s -> last gs = Some u -> checkable (A gs) N d D m u /\ (forall ch, queries_true (A gs) (facing (st gs) (q gs) u ch)) /\
     exists v v', after_call (fun o v => ' (_, v) <- group_by_verify o debug v t gi rx ;; Ok v) gs v v' u /\ table_reads (A gs) N v t tcs sl /\
       Forall (fun id => reads (A gs) N v id (tc_nv t) sup) (firstn 1 (gv_supp gi)) /\ reads (A gs) N v (gv_sel gi) (tc_nv t) sl' /\ reads (A gs) N v (gv_mult gi) (tc_nv t) ml /\
       Forall2 (fun ca al => reads (A gs) N v (snd ca) (tc_nv t) al) sums als /\ reads (A gs) N v (bc_poly rx) (bc_nv rx) rl /\
       let got := received_ids v v' in
       column (A gs) N (nth 3 got 0) = shifted (firstn 1 gs) /\ column (A gs) N (nth 8 got 0) = counts (firstn 3 gs)) ->
  ~ (NoDup (rows sup sl') /\ (forall x, In x (rows sup sl') <-> In x (rows keys sl)) /\
     (forall k, k < length sup -> nth k sl' F0 <> F0 -> nth k ml F0 = ofN (count_occ F_dec (rows keys sl) (nth k sup F0))) /\
     Forall2 (fun ca al => forall k, k < length sup -> nth k sl' F0 <> F0 -> nth k al F0 = weight (wcol keys sl (nth (fst ca) tcs [])) (nth k sup F0)) sums als) ->
  count (passes_after (4 + s) st q last) (allV p (4 + s + (m + N))) <=
    (4 * 2 ^ N * 2 ^ N + 2 * 2 ^ N + ((1 + s) * (length keys + length sup) + length sup + length rl) + (N + 2 + N * Nat.max d (D + 1))) * fsize p ^ (3 + s + (m + N)).
Proof. intros p E Hp H2. exact (group_by_count Hp H2). Qed.
Print Assumptions C67_group_by.

(** ** C67: bags with weights *)
(** The call takes any number of bags with multiplicities on either side and draws one challenge. The columns are known before. The
    statement is the one of C41: on both sides every value has the same sum of multiplicities over its selected rows. *)
Theorem C67_weights : forall (p : positive) (E : pairing p), prime (Zpos p) -> 2 < fsize p ->
  forall (A : list (F p) -> reading) N d D m st q (last : list (F p) -> option (vtrk E)) debug fx gx mf mg ts us,
  1 <= d -> d < fsize p -> length fx = length mf -> length gx = length mg ->
  (forall gs u, length gs = 1 -> last gs = Some u -> checkable (A gs) N d D m u /\ (forall ch, queries_true (A gs) (facing (st gs) (q gs) u ch)) /\
     exists v v', after_call (fun o v => multitool_verify o debug v fx gx mf mg) gs v v' u /\
       Forall2 (item_reads (A gs) N v) (combine fx mf) ts /\ Forall2 (item_reads (A gs) N v) (combine gx mg) us) ->
  ~ same_bag (wcols ts) (wcols us) ->
  count (passes_after 1 st q last) (allV p (1 + (m + N))) <= (length (wcols ts) + length (wcols us) + (N + 2 + N * Nat.max d (D + 1))) * fsize p ^ (m + N).
Proof. intros p E Hp H2. exact (multitool_count Hp H2). Qed.
Print Assumptions C67_weights.

(** The hypotheses are met over F 101, as in Props_Whole. *)
(** The row (3, 2) does not come from the table with the row (1, 1). *)
Definition wt_tab (gs : list (F 101)) (i : nat) : list (F 101) :=
  let r := nth 0 gs F0 in let h := nth 1 gs F0 in
  match i with 3 => l2 3 3 | 4 => l2 2 2 | 16 => wx_inv [i101 6 * r; i101 6 * r]%F h | 24 => wx_inv [r; r] h | _ => l2 1 1 end.
Definition wt_run (vk : vparam E101) (gs : list (F 101)) : option (vtrk E101 * vtrk E101) := session (script 0 gs) vk (wx_cp [0; 1; 2; 3; 4; 5; 14; 16; 24] [18; 26]) 6 (fun o v => index_transform_verify o true v (mkTablec [0; 1] 2 0) (mkTablec [3; 4] 5 0)).
Lemma wt_is : forall vk gs, wt_run vk gs = session (script 0 gs) vk (wx_cp [0; 1; 2; 3; 4; 5; 14; 16; 24] [18; 26]) 6 (fun o v => index_transform_verify o true v (mkTablec [0; 1] 2 0) (mkTablec [3; 4] 5 0)).
Proof. reflexivity. Qed.
Definition wt_virt (r h : F 101) : tmap (vexp 101) :=
  [(31, VAddS 29 (Fopp F1)); (29, VSub 27 28); (28, VMulS 24 h); (27, VMul 9 24); (26, VMul 25 2); (25, VMul 24 14); (24, VQuery 24); (23, VAddS 21 (Fopp F1)); (21, VSub 19 20); (20, VMulS 16 h);
   (19, VMul 13 16); (18, VMul 17 5); (17, VMul 16 15); (16, VQuery 16); (15, VFun one_fun); (14, VQuery 14); (13, VMul 11 12); (12, VMulS 4 (Fpow r 1)); (11, VMul 5 10); (10, VMulS 3 (Fpow r 0));
   (9, VMul 7 8); (8, VMulS 1 (Fpow r 1)); (7, VMul 2 6); (6, VMulS 0 (Fpow r 0)); (5, VQuery 5); (4, VQuery 4); (3, VQuery 3); (2, VQuery 2); (1, VQuery 1); (0, VQuery 0)].
Lemma wt_seen : forall vk r h, option_map seen (wt_run vk [r; h]) =
  Some ([(5, VQuery 5); (4, VQuery 4); (3, VQuery 3); (2, VQuery 2); (1, VQuery 1); (0, VQuery 0)], wt_virt r h, [23; 31], [18; 26], wx_cp [0; 1; 2; 3; 4; 5; 14; 16; 24] [18; 26], [r; h]).
Proof. intros. match goal with |- _ = ?b => vm_cast_no_check (eq_refl b) end. Qed.
Lemma wt_got : forall vk r h, option_map (fun r => received_ids (fst r) (snd r)) (wt_run vk [r; h]) = Some [14; 16; 24].
Proof. intros. match goal with |- _ = ?b => vm_cast_no_check (eq_refl b) end. Qed.
Example C67_ex_transform : forall vk st, (forall gs, length gs = 2 -> exists u, final (wt_run vk gs) = Some u) /\
  ~ (forall k, k < 2 ^ 0 -> nth k [i101 1] F0 <> F0 -> exists k', k' < 2 ^ 0 /\ nth k' [i101 1] F0 <> F0 /\ Fprod (row [[i101 3]; [i101 2]] k) = Fprod (row [[i101 1]; [i101 1]] k')) /\
  count (passes_after 2 st (fun gs => truthful 6 [0; 1; 2; 3; 4; 5; 14; 16; 24] (wt_tab gs)) (fun gs => final (wt_run vk gs))) (allV 101 (2 + (6 + 1))) <= 11 * fsize 101 ^ 8.
Proof.
  intros vk st. assert (Hno : ~ (forall k, k < 2 ^ 0 -> nth k [i101 1] F0 <> F0 -> exists k', k' < 2 ^ 0 /\ nth k' [i101 1] F0 <> F0 /\ Fprod (row [[i101 3]; [i101 2]] k) = Fprod (row [[i101 1]; [i101 1]] k'))).
  { intros H. destruct (H 0 ltac:(repeat constructor) ltac:(discriminate)) as [[|k] [Hk [_ X]]]; [discriminate X|]. apply Nat.ltb_lt in Hk. discriminate Hk. }
  split; [|split; [exact Hno|]].
  - intros [|r [|h [|? ?]]] Hk; try discriminate Hk. clear Hk. pose proof (wt_seen vk r h) as S. destruct (wt_run vk [r; h]) as [[v u]|]; [exists u; reflexivity|discriminate S].
  - refine (C67_transform 101 E101 prime_101 _ (fun gs => rd (wt_tab gs)) 1 3 4 6 st (fun gs => truthful 6 [0; 1; 2; 3; 4; 5; 14; 16; 24] (wt_tab gs)) (fun gs => final (wt_run vk gs)) true (mkTablec [0; 1] 2 0) (mkTablec [3; 4] 5 0) [[i101 1]; [i101 1]] [i101 1] [[i101 3]; [i101 2]] [i101 1] (fun _ => l2 1 1) _ _ _ _ _ _ _ Hno);
      [vm_compute; repeat constructor|repeat constructor|apply Nat.ltb_lt; reflexivity|apply Nat.ltb_lt; reflexivity|reflexivity|constructor; [right; reflexivity|constructor]|constructor; [right; reflexivity|constructor]|].
    intros [|r [|h [|? ?]]] u Hk; try discriminate Hk. clear Hk. intros Hu.
    destruct (session_meets 60 (wt_tab [r; h]) _ _ _ _ _ 3 4 6 [0; 1; 2; 3; 4; 5; 14; 16; 24] _ _ _ _ _ _ _ (wt_is vk [r; h]) (wt_seen vk r h) Hu) as [C [Q [v [Ha [V0 [_ V2]]]]]];
      [reflexivity|reflexivity|reflexivity|vm_compute; reflexivity|wclos|].
    pose proof (wt_got vk r h) as V3. rewrite V2 in V3. cbn [option_map fst snd] in V3. injection V3 as V3.
    split; [exact C|]. split; [intros ch; apply Q|]. exists v, u. split; [exact Ha|].
    split; [split; [constructor; [exact (rd_const (wt_tab [r; h]) v 0 (i101 1) ltac:(rewrite V0; reflexivity) eq_refl)|constructor; [exact (rd_const (wt_tab [r; h]) v 1 (i101 1) ltac:(rewrite V0; reflexivity) eq_refl)|constructor]]|exact (rd_const (wt_tab [r; h]) v 2 (i101 1) ltac:(rewrite V0; reflexivity) eq_refl)]|].
    split; [split; [constructor; [exact (rd_const (wt_tab [r; h]) v 3 (i101 3) ltac:(rewrite V0; reflexivity) eq_refl)|constructor; [exact (rd_const (wt_tab [r; h]) v 4 (i101 2) ltac:(rewrite V0; reflexivity) eq_refl)|constructor]]|exact (rd_const (wt_tab [r; h]) v 5 (i101 1) ltac:(rewrite V0; reflexivity) eq_refl)]|].
    cbv zeta. rewrite V3. reflexivity.
Qed.
Print Assumptions C67_ex_transform.

(** The rows (3, 2) of the result do not come from the table with the row (3, 1). *)
Definition wv_tab (gs : list (F 101)) (i : nat) : list (F 101) :=
  let r := nth 0 gs F0 in let h := nth 1 gs F0 in
  match i with 0 | 3 | 5 => l2 3 3 | 6 => l2 2 2 | 17 => wx_inv [i101 6 * r; i101 6 * r]%F h | 25 => wx_inv [i101 3 * r; i101 3 * r]%F h | _ => l2 1 1 end.
Definition wv_run (vk : vparam E101) (gs : list (F 101)) : option (vtrk E101 * vtrk E101) := session (script 0 gs) vk (wx_cp [0; 1; 2; 3; 4; 5; 6; 15; 17; 25] [ 19; 27]) 5 (fun o v => ' (_, v) <- final_join_verify o true v (mkTablec [0; 1] 2 0) (mkTablec [3] 4 1) 0 0 ;; Ok v).
Lemma wv_is : forall vk gs, wv_run vk gs = session (script 0 gs) vk (wx_cp [0; 1; 2; 3; 4; 5; 6; 15; 17; 25] [ 19; 27]) 5 (fun o v => ' (_, v) <- final_join_verify o true v (mkTablec [0; 1] 2 0) (mkTablec [3] 4 1) 0 0 ;; Ok v).
Proof. reflexivity. Qed.
Definition wv_virt (r h : F 101) : tmap (vexp 101) :=
  [(34, VMul 33 4); (33, VSub 5 3); (32, VAddS 30 (Fopp F1)); (30, VSub 28 29); (29, VMulS 25 h); (28, VMul 10 25); (27, VMul 26 2); (26, VMul 25 15); (25, VQuery 25); (24, VAddS 22 (Fopp F1));
   (22, VSub 20 21); (21, VMulS 17 h); (20, VMul 14 17); (19, VMul 18 4); (18, VMul 17 16); (17, VQuery 17); (16, VFun one_fun); (15, VQuery 15); (14, VMul 12 13); (13, VMulS 6 (Fpow r 1));
   (12, VMul 4 11); (11, VMulS 5 (Fpow r 0)); (10, VMul 8 9); (9, VMulS 1 (Fpow r 1)); (8, VMul 2 7); (7, VMulS 0 (Fpow r 0)); (6, VQuery 6); (5, VQuery 5); (4, VQuery 4); (3, VQuery 3);
   (2, VQuery 2); (1, VQuery 1); (0, VQuery 0)].
Lemma wv_seen : forall vk r h, option_map seen (wv_run vk [r; h]) =
  Some ([(4, VQuery 4); (3, VQuery 3); (2, VQuery 2); (1, VQuery 1); (0, VQuery 0)], wv_virt r h, [24; 32; 34], [ 19; 27], wx_cp [0; 1; 2; 3; 4; 5; 6; 15; 17; 25] [ 19; 27], [r; h]).
Proof. intros. match goal with |- _ = ?b => vm_cast_no_check (eq_refl b) end. Qed.
Lemma wv_got : forall vk r h, option_map (fun r => received_ids (fst r) (snd r)) (wv_run vk [r; h]) = Some [5; 6; 15; 17; 25].
Proof. intros. match goal with |- _ = ?b => vm_cast_no_check (eq_refl b) end. Qed.
Example C67_ex_final_join : forall vk st, (forall gs, length gs = 2 -> exists u, final (wv_run vk gs) = Some u) /\
  ~ (forall k, k < 2 ^ 1 -> nth k (l2 1 1) F0 <> F0 -> nth k (nth 0 ([l2 3 3; l2 2 2] ++ [l2 3 3]) []) F0 = nth k (nth (2 + 0) ([l2 3 3; l2 2 2] ++ [l2 3 3]) []) F0 /\
    exists k', k' < 2 ^ 0 /\ nth k' [i101 1] F0 <> F0 /\ Fprod (row [l2 3 3; l2 2 2] k) = Fprod (row [[i101 3]; [i101 1]] k')) /\
  count (passes_after 2 st (fun gs => truthful 7 [0; 1; 2; 3; 4; 5; 6; 15; 17; 25] (wv_tab gs)) (fun gs => final (wv_run vk gs))) (allV 101 (2 + (7 + 1))) <= 12 * fsize 101 ^ 9.
Proof.
  intros vk st. assert (Hno : ~ (forall k, k < 2 ^ 1 -> nth k (l2 1 1) F0 <> F0 -> nth k (nth 0 ([l2 3 3; l2 2 2] ++ [l2 3 3]) []) F0 = nth k (nth (2 + 0) ([l2 3 3; l2 2 2] ++ [l2 3 3]) []) F0 /\
    exists k', k' < 2 ^ 0 /\ nth k' [i101 1] F0 <> F0 /\ Fprod (row [l2 3 3; l2 2 2] k) = Fprod (row [[i101 3]; [i101 1]] k'))).
  { intros H. destruct (H 0 ltac:(repeat constructor) ltac:(discriminate)) as [_ [[|k] [Hk [_ X]]]]; [discriminate X|]. apply Nat.ltb_lt in Hk. discriminate Hk. }
  split; [|split; [exact Hno|]].
  - intros [|r [|h [|? ?]]] Hk; try discriminate Hk. clear Hk. pose proof (wv_seen vk r h) as S. destruct (wv_run vk [r; h]) as [[v u]|]; [exists u; reflexivity|discriminate S].
  - refine (C67_final_join 101 E101 prime_101 _ (fun gs => rd (wv_tab gs)) 1 3 4 7 st (fun gs => truthful 7 [0; 1; 2; 3; 4; 5; 6; 15; 17; 25] (wv_tab gs)) (fun gs => final (wv_run vk gs)) true (mkTablec [0; 1] 2 0) (mkTablec [3] 4 1) 0 0 [[i101 3]; [i101 1]] [i101 1] [l2 3 3; l2 2 2] [l2 3 3] (l2 1 1) (fun _ => l2 1 1) _ _ _ _ _ _ Hno);
      [vm_compute; repeat constructor|repeat constructor|apply Nat.ltb_lt; reflexivity|apply Nat.ltb_lt; reflexivity|constructor; [right; reflexivity|constructor]|constructor; [right; reflexivity|constructor; [right; reflexivity|constructor]]|].
    intros [|r [|h [|? ?]]] u Hk; try discriminate Hk. clear Hk. intros Hu.
    destruct (session_meets 60 (wv_tab [r; h]) _ _ _ _ _ 3 4 7 [0; 1; 2; 3; 4; 5; 6; 15; 17; 25] _ _ _ _ _ _ _ (wv_is vk [r; h]) (wv_seen vk r h) Hu) as [C [Q [v [Ha [V0 [_ V2]]]]]];
      [reflexivity|reflexivity|reflexivity|vm_compute; reflexivity|wclos|].
    pose proof (wv_got vk r h) as V3. rewrite V2 in V3. cbn [option_map fst snd] in V3. injection V3 as V3.
    split; [exact C|]. split; [intros ch; apply Q|]. exists v, u. split; [exact Ha|].
    split; [split; [constructor; [exact (rd_const (wv_tab [r; h]) v 0 (i101 3) ltac:(rewrite V0; reflexivity) eq_refl)|constructor; [exact (rd_const (wv_tab [r; h]) v 1 (i101 1) ltac:(rewrite V0; reflexivity) eq_refl)|constructor]]|exact (rd_const (wv_tab [r; h]) v 2 (i101 1) ltac:(rewrite V0; reflexivity) eq_refl)]|].
    split; [split; [constructor; [exact (rd_reads (wv_tab [r; h]) v 3 ltac:(rewrite V0; reflexivity) eq_refl)|constructor]|exact (rd_reads (wv_tab [r; h]) v 4 ltac:(rewrite V0; reflexivity) eq_refl)]|].
    cbv zeta. rewrite V3. split; [repeat constructor|]. split; reflexivity.
Qed.
Print Assumptions C67_ex_final_join.

(** The groups 3 and 4 are right and so are their counts; the second sum is 1, not 2. *)
Definition wg_tab (gs : list (F 101)) (i : nat) : list (F 101) :=
  let f := [i101 0 + g1 gs * i101 3; i101 1 + g1 gs * i101 4]%F in let g := [i101 1 + g1 gs * i101 4; i101 0 + g1 gs * i101 3]%F in
  match i with 0 | 3 => l2 3 4 | 6 => l2 1 2 | 7 => l2 0 1 | 9 | 17 => wx_inv (l2 3 4) (g0 gs) | 30 => [F1; F0] | 31 => l2 4 3 | 33 => [F0; F1] | 34 => f | 35 => g
  | 43 => wx_inv f (g2 gs) | 51 => wx_inv g (g2 gs) | 59 => [F1; F0] | 66 => l2 0 2 | 68 => wx_inv (l2 1 1) (g3 gs) | 76 => wx_inv (l2 0 1) (g3 gs) | 88 | 96 => wx_inv (l2 3 4) (g4 gs) | _ => l2 1 1 end.
Definition wg_run (vk : vparam E101) (gs : list (F 101)) : option (vtrk E101 * vtrk E101) := session (script 0 gs) vk (wx_cp [0; 1; 2; 3; 4; 5; 6; 7; 9; 17; 25; 31; 34; 35; 43; 51; 66; 68; 76; 84; 88; 96] [11; 19; 45; 53; 70; 78; 90; 98]) 8 (fun o v => ' (_, v) <- group_by_verify o true v (mkTablec [0; 1] 2 1) (mkGv [0] [3] 4 5 [(0, AggCount, 5); (1, AggSum, 6)]) (mkBagc 7 1 1) ;; Ok v).
Lemma wg_is : forall vk gs, wg_run vk gs = session (script 0 gs) vk (wx_cp [0; 1; 2; 3; 4; 5; 6; 7; 9; 17; 25; 31; 34; 35; 43; 51; 66; 68; 76; 84; 88; 96] [11; 19; 45; 53; 70; 78; 90; 98]) 8 (fun o v => ' (_, v) <- group_by_verify o true v (mkTablec [0; 1] 2 1) (mkGv [0] [3] 4 5 [(0, AggCount, 5); (1, AggSum, 6)]) (mkBagc 7 1 1) ;; Ok v).
Proof. reflexivity. Qed.
Definition wg_virt (h g g' g'' h' : F 101) : tmap (vexp 101) :=
  [(103, VAddS 101 (Fopp F1)); (101, VSub 99 100); (100, VMulS 96 h'); (99, VMul 3 96); (98, VMul 97 4); (97, VMul 96 6); (96, VQuery 96); (95, VAddS 93 (Fopp F1)); (93, VSub 91 92); (92, VMulS 88 h');
   (91, VMul 0 88); (90, VMul 89 2); (89, VMul 88 1); (88, VQuery 88); (87, VSub 86 4); (86, VMul 85 84); (85, VMul 64 4); (84, VQuery 84); (83, VAddS 81 (Fopp F1)); (81, VSub 79 80);
   (80, VMulS 76 g''); (79, VMul 7 76); (78, VMul 77 65); (77, VMul 76 66); (76, VQuery 76); (75, VAddS 73 (Fopp F1)); (73, VSub 71 72); (72, VMulS 68 g''); (71, VMul 64 68); (70, VMul 69 59);
   (69, VMul 68 67); (68, VQuery 68); (67, VFun one_fun); (66, VQuery 66); (65, VFun one_fun); (64, VSub 63 59); (63, VAddS 61 F1); (61, VMul 59 60); (60, VSub 31 3); (59, VFun (mle_fun (mkMle 1 [F1; F0])));
   (58, VAddS 56 (Fopp F1)); (56, VSub 54 55); (55, VMulS 51 g'); (54, VMul 35 51); (53, VMul 52 32); (52, VMul 51 42); (51, VQuery 51); (50, VAddS 48 (Fopp F1)); (48, VSub 46 47); (47, VMulS 43 g');
   (46, VMul 34 43); (45, VMul 44 32); (44, VMul 43 42); (43, VQuery 43); (42, VFun one_fun); (41, VSub 40 35); (40, VAdd 30 39); (39, VMulS 31 g); (38, VSub 37 34); (37, VAdd 33 36);
   (36, VMulS 3 g); (35, VQuery 35); (34, VQuery 34); (33, VFun ordered_fun); (32, VFun one_fun); (31, VQuery 31); (30, VFun (mle_fun (mkMle 1 [F1; F0]))); (29, VFun one_fun); (28, VSub 27 4); (27, VMul 26 25);
   (26, VMul 5 4); (25, VQuery 25); (24, VAddS 22 (Fopp F1)); (22, VSub 20 21); (21, VMulS 17 h); (20, VMul 3 17); (19, VMul 18 4); (18, VMul 17 5); (17, VQuery 17); (16, VAddS 14 (Fopp F1));
   (14, VSub 12 13); (13, VMulS 9 h); (12, VMul 0 9); (11, VMul 10 2); (10, VMul 9 8); (9, VQuery 9); (8, VFun one_fun); (7, VQuery 7); (6, VQuery 6); (5, VQuery 5);
   (4, VQuery 4); (3, VQuery 3); (2, VQuery 2); (1, VQuery 1); (0, VQuery 0)].
Lemma wg_seen : forall vk h g g' g'' h', option_map seen (wg_run vk [h; g; g'; g''; h']) =
  Some ([(7, VQuery 7); (6, VQuery 6); (5, VQuery 5); (4, VQuery 4); (3, VQuery 3); (2, VQuery 2); (1, VQuery 1); (0, VQuery 0)], wg_virt h g g' g'' h', [16; 24; 28; 50; 58; 38; 41; 75; 83; 87; 95; 103], [11; 19; 45; 53; 70; 78; 90; 98], wx_cp [0; 1; 2; 3; 4; 5; 6; 7; 9; 17; 25; 31; 34; 35; 43; 51; 66; 68; 76; 84; 88; 96] [11; 19; 45; 53; 70; 78; 90; 98], [h; g; g'; g''; h']).
Proof. intros. match goal with |- _ = ?b => vm_cast_no_check (eq_refl b) end. Qed.
Lemma wg_got : forall vk h g g' g'' h', option_map (fun r => received_ids (fst r) (snd r)) (wg_run vk [h; g; g'; g''; h']) = Some [9; 17; 25; 31; 34; 35; 43; 51; 66; 68; 76; 84; 88; 96].
Proof. intros. match goal with |- _ = ?b => vm_cast_no_check (eq_refl b) end. Qed.
Example C67_ex_group_by : forall vk st, (forall gs, length gs = 5 -> exists u, final (wg_run vk gs) = Some u) /\
  ~ (NoDup (rows (l2 3 4) (l2 1 1)) /\ (forall x, In x (rows (l2 3 4) (l2 1 1)) <-> In x (rows (nth 0 [l2 3 4; l2 1 1] []) (l2 1 1))) /\
    (forall k, k < 2 -> nth k (l2 1 1) F0 <> F0 -> nth k (l2 1 1) F0 = ofN (count_occ F_dec (rows (nth 0 [l2 3 4; l2 1 1] []) (l2 1 1)) (nth k (l2 3 4) F0))) /\
    Forall2 (fun ca al => forall k, k < 2 -> nth k (l2 1 1) F0 <> F0 -> nth k al F0 = weight (wcol (nth 0 [l2 3 4; l2 1 1] []) (l2 1 1) (nth (fst ca) [l2 3 4; l2 1 1] [])) (nth k (l2 3 4) F0)) [(1, 6)] [l2 1 2]) /\
  count (passes_after 5 st (fun gs => truthful 22 [0; 1; 2; 3; 4; 5; 6; 7; 9; 17; 25; 31; 34; 35; 43; 51; 66; 68; 76; 84; 88; 96] (wg_tab gs)) (fun gs => final (wg_run vk gs))) (allV 101 (5 + (22 + 1))) <= 40 * fsize 101 ^ 27.
Proof.
  intros vk st. assert (Hno : ~ (NoDup (rows (l2 3 4) (l2 1 1)) /\ (forall x, In x (rows (l2 3 4) (l2 1 1)) <-> In x (rows (nth 0 [l2 3 4; l2 1 1] []) (l2 1 1))) /\
    (forall k, k < 2 -> nth k (l2 1 1) F0 <> F0 -> nth k (l2 1 1) F0 = ofN (count_occ F_dec (rows (nth 0 [l2 3 4; l2 1 1] []) (l2 1 1)) (nth k (l2 3 4) F0))) /\
    Forall2 (fun ca al => forall k, k < 2 -> nth k (l2 1 1) F0 <> F0 -> nth k al F0 = weight (wcol (nth 0 [l2 3 4; l2 1 1] []) (l2 1 1) (nth (fst ca) [l2 3 4; l2 1 1] [])) (nth k (l2 3 4) F0)) [(1, 6)] [l2 1 2])).
  { intros [_ [_ [_ H]]]. inversion H as [|? ? ? ? H1 _]. specialize (H1 1 ltac:(repeat constructor) ltac:(discriminate)). vm_compute in H1. discriminate H1. }
  split; [|split; [exact Hno|]].
  - intros [|h [|g [|g' [|g'' [|h' [|? ?]]]]]] Hk; try discriminate Hk. clear Hk. pose proof (wg_seen vk h g g' g'' h') as S. destruct (wg_run vk [h; g; g'; g''; h']) as [[v u]|]; [exists u; reflexivity|discriminate S].
  - refine (C67_group_by 101 E101 prime_101 _ (fun gs => rd (wg_tab gs)) 1 3 4 22 st (fun gs => truthful 22 [0; 1; 2; 3; 4; 5; 6; 7; 9; 17; 25; 31; 34; 35; 43; 51; 66; 68; 76; 84; 88; 96] (wg_tab gs)) (fun gs => final (wg_run vk gs)) true (mkTablec [0; 1] 2 1) (mkGv [0] [3] 4 5 [(0, AggCount, 5); (1, AggSum, 6)]) (mkBagc 7 1 1) 0 [l2 3 4; l2 1 1] (l2 1 1) (l2 3 4) (l2 1 1) (l2 1 1) (l2 0 1) [l2 1 2] (fun _ => l2 4 3) (fun _ => l2 0 2) _ _ _ _ _ _ _ _ Hno);
      [vm_compute; repeat constructor|repeat constructor|apply Nat.ltb_lt; reflexivity|apply Nat.ltb_lt; reflexivity|reflexivity|constructor; [right; reflexivity|constructor; [right; reflexivity|constructor]]|constructor; [right; reflexivity|constructor; [right; reflexivity|constructor]]|exists 1; split; [constructor; [exists 0; split; [repeat constructor|reflexivity]|constructor; [exists 1; split; [repeat constructor|reflexivity]|constructor]]|reflexivity]|].
    intros [|h [|g [|g' [|g'' [|h' [|? ?]]]]]] u Hk; try discriminate Hk. clear Hk. intros Hu.
    destruct (session_meets 60 (wg_tab [h; g; g'; g''; h']) _ _ _ _ _ 3 4 22 [0; 1; 2; 3; 4; 5; 6; 7; 9; 17; 25; 31; 34; 35; 43; 51; 66; 68; 76; 84; 88; 96] _ _ _ _ _ _ _ (wg_is vk [h; g; g'; g''; h']) (wg_seen vk h g g' g'' h') Hu) as [C [Q [v [Ha [V0 [_ V2]]]]]];
      [reflexivity|reflexivity|reflexivity|vm_compute; reflexivity|wclos|].
    pose proof (wg_got vk h g g' g'' h') as V3. rewrite V2 in V3. cbn [option_map fst snd] in V3. injection V3 as V3.
    split; [exact C|]. split; [intros ch; apply Q|]. exists v, u. split; [exact Ha|].
    split; [split; [constructor; [exact (rd_reads (wg_tab [h; g; g'; g''; h']) v 0 ltac:(rewrite V0; reflexivity) eq_refl)|constructor; [exact (rd_reads (wg_tab [h; g; g'; g''; h']) v 1 ltac:(rewrite V0; reflexivity) eq_refl)|constructor]]|exact (rd_reads (wg_tab [h; g; g'; g''; h']) v 2 ltac:(rewrite V0; reflexivity) eq_refl)]|].
    split; [constructor; [exact (rd_reads (wg_tab [h; g; g'; g''; h']) v 3 ltac:(rewrite V0; reflexivity) eq_refl)|constructor]|]. split; [exact (rd_reads (wg_tab [h; g; g'; g''; h']) v 4 ltac:(rewrite V0; reflexivity) eq_refl)|]. split; [exact (rd_reads (wg_tab [h; g; g'; g''; h']) v 5 ltac:(rewrite V0; reflexivity) eq_refl)|].
    split; [constructor; [exact (rd_reads (wg_tab [h; g; g'; g''; h']) v 6 ltac:(rewrite V0; reflexivity) eq_refl)|constructor]|]. split; [exact (rd_reads (wg_tab [h; g; g'; g''; h']) v 7 ltac:(rewrite V0; reflexivity) eq_refl)|].
    cbv zeta. rewrite V3. split; reflexivity.
Qed.
Print Assumptions C67_ex_group_by.

(** The value 5 has multiplicity 1 on one side and 4 on the other. *)
Definition wm_tab (gs : list (F 101)) (i : nat) : list (F 101) :=
  match i with 0 | 2 => l2 3 5 | 4 => l2 2 1 | 5 => l2 2 4 | 6 | 14 => wx_inv (l2 3 5) (g0 gs) | _ => l2 1 1 end.
Definition wm_run (vk : vparam E101) (gs : list (F 101)) : option (vtrk E101 * vtrk E101) := session (script 0 gs) vk (wx_cp [0; 1; 2; 3; 4; 5; 6; 14] [8; 16]) 6 (fun o v => multitool_verify o true v [mkBagc 0 1 1] [mkBagc 2 3 1] [4] [5]).
Lemma wm_is : forall vk gs, wm_run vk gs = session (script 0 gs) vk (wx_cp [0; 1; 2; 3; 4; 5; 6; 14] [8; 16]) 6 (fun o v => multitool_verify o true v [mkBagc 0 1 1] [mkBagc 2 3 1] [4] [5]).
Proof. reflexivity. Qed.
Definition wm_virt (g : F 101) : tmap (vexp 101) := Eval vm_compute in match wm_run wx_vk [g] with Some (_, u) => vt_virt u | None => [] end.
Lemma wm_seen : forall vk g, option_map seen (wm_run vk [g]) = Some ([(5, VQuery 5); (4, VQuery 4); (3, VQuery 3); (2, VQuery 2); (1, VQuery 1); (0, VQuery 0)], wm_virt g, [13; 21], [8; 16], wx_cp [0; 1; 2; 3; 4; 5; 6; 14] [8; 16], [g]).
Proof. intros. match goal with |- _ = ?b => vm_cast_no_check (eq_refl b) end. Qed.
Example C67_ex_weights : forall vk st, (forall gs, length gs = 1 -> exists u, final (wm_run vk gs) = Some u) /\ ~ same_bag (wcols [(l2 3 5, l2 1 1, l2 2 1)]) (wcols [(l2 3 5, l2 1 1, l2 2 4)]) /\
  count (passes_after 1 st (fun gs => truthful 6 [0; 1; 2; 3; 4; 5; 6; 14] (wm_tab gs)) (fun gs => final (wm_run vk gs))) (allV 101 (1 + (6 + 1))) <= 11 * fsize 101 ^ 7.
Proof.
  intros vk st. assert (Hno : ~ same_bag (wcols [(l2 3 5, l2 1 1, l2 2 1)]) (wcols [(l2 3 5, l2 1 1, l2 2 4)])).
  { intros H. specialize (H (i101 5)). vm_compute in H. discriminate H. }
  split; [|split; [exact Hno|]].
  - intros [|g [|? ?]] Hk; try discriminate Hk. clear Hk. pose proof (wm_seen vk g) as S. destruct (wm_run vk [g]) as [[v u]|]; [exists u; reflexivity|discriminate S].
  - refine (C67_weights 101 E101 prime_101 _ (fun gs => rd (wm_tab gs)) 1 3 3 6 st (fun gs => truthful 6 [0; 1; 2; 3; 4; 5; 6; 14] (wm_tab gs)) (fun gs => final (wm_run vk gs)) true [mkBagc 0 1 1] [mkBagc 2 3 1] [4] [5] [(l2 3 5, l2 1 1, l2 2 1)] [(l2 3 5, l2 1 1, l2 2 4)] _ _ _ _ _ Hno);
      [vm_compute; repeat constructor|repeat constructor|apply Nat.ltb_lt; reflexivity|reflexivity|reflexivity|].
    intros [|g [|? ?]] u Hk; try discriminate Hk. clear Hk. intros Hu. destruct (session_meets 40 (wm_tab [g]) _ _ _ _ _ 3 3 6 [0; 1; 2; 3; 4; 5; 6; 14] _ _ _ _ _ _ _ (wm_is vk [g]) (wm_seen vk g) Hu) as [C [Q [v [Ha [V0 V1]]]]];
      [reflexivity|reflexivity|reflexivity|vm_compute; reflexivity|wclos|].
    split; [exact C|]. split; [intros ch; apply Q|]. exists v, u. split; [exact Ha|].
    split; (constructor; [|constructor]).
    + split; [exact (rd_reads (wm_tab [g]) v 0 ltac:(rewrite V0; reflexivity) eq_refl)|]. split; [exact (rd_reads (wm_tab [g]) v 1 ltac:(rewrite V0; reflexivity) eq_refl)|exact (rd_reads (wm_tab [g]) v 4 ltac:(rewrite V0; reflexivity) eq_refl)].
    + split; [exact (rd_reads (wm_tab [g]) v 2 ltac:(rewrite V0; reflexivity) eq_refl)|]. split; [exact (rd_reads (wm_tab [g]) v 3 ltac:(rewrite V0; reflexivity) eq_refl)|exact (rd_reads (wm_tab [g]) v 5 ltac:(rewrite V0; reflexivity) eq_refl)].
Qed.
Print Assumptions C67_ex_weights.
