(** C67, continued: set difference and intersection. The setting is the one of Props_Whole. *)
From Coq Require Import String List Arith Bool ZArith Znumtheory Permutation.
Import ListNotations.
From Verif Require Import Res Fp FSum SpecMle SpecPoly SpecSumcheck SpecTracker SpecIop ModelMle ModelTranscript ModelSumcheck Pairing ModelKzg ModelBatch ModelProver ModelVerifier ModelIop
  ProverHist VerifierHist CompileHist IopHist SessHist CheckHist CheckIopHist CheckIop CheckSort CheckSupp CheckDisj CheckSet CheckSet2 WholeEx Props_Whole.
Local Open Scope string_scope.
Local Open Scope list_scope.
Local Open Scope nat_scope.

(** ** C67: the difference of two sets *)
(** The call takes the sets [a] and [b], the claimed difference [l], the common part [mid] and its multiplicities [bm] in [b]. The prover
    commits to the sorted sum of [l] and [b] and its selector before the first challenge (the first two polynomials received in the
    call), to the shifted sum before the second (the sixth), and to the multiplicities of the range before the fourth (the eleventh). *)
Theorem C67_difference : forall (p : positive) (E : pairing p), prime (Zpos p) -> 2 < fsize p ->
  forall (A : list (F p) -> reading) N d D m st q (last : list (F p) -> option (vtrk E)) debug a b l mid bm rx al asl bl bsl ll lsl ml msl bml rl sum sel (shifted counts : list (F p) -> list (F p)),
  let n := Nat.max (bc_nv l) (bc_nv b) + 1 in
  1 <= d -> d < fsize p -> 2 ^ N < fsize p -> n <= N -> Nat.max (bc_nv l) (bc_nv mid) + 1 <= N -> boolean asl -> boolean bsl -> boolean lsl -> boolean msl -> boolean sel -> small_range rl n ->
  (forall gs u, length gs = 6 -> last gs = Some u -> checkable (A gs) N d D m u /\ (forall ch, queries_true (A gs) (facing (st gs) (q gs) u ch)) /\
     exists v v', after_call (fun o v => set_diff_verify o debug v a b l mid bm rx) gs v v' u /\ bag_reads (A gs) N v a al asl /\ bag_reads (A gs) N v b bl bsl /\ bag_reads (A gs) N v l ll lsl /\
       bag_reads (A gs) N v mid ml msl /\ reads (A gs) N v bm (bc_nv b) bml /\ reads (A gs) N v (bc_poly rx) (bc_nv rx) rl /\
       let got := received_ids v v' in
       Forall (fun id => fst (A gs id) <= n) (firstn 2 got) /\ map (column (A gs) n) (firstn 2 got) = [sum; sel] /\
       column (A gs) N (nth 5 got 0) = shifted (firstn 1 gs) /\ column (A gs) N (nth 10 got 0) = counts (firstn 3 gs)) ->
  ~ (NoDup (rows ll lsl) /\ forall x, In x (rows ll lsl) <-> In x (rows al asl) /\ ~ In x (rows bl bsl)) ->
  count (passes_after 6 st q last) (allV p (6 + (m + N))) <=
    (4 * 2 ^ N * 2 ^ N + 2 * 2 ^ N + (length al + 2 * length bl + 2 * length ll + 2 * length ml + 2 * length sum + length rl) + (N + 2 + N * Nat.max d (D + 1))) * fsize p ^ (5 + (m + N)).
Proof. intros p E Hp H2. exact (set_diff_count Hp H2). Qed.
Print Assumptions C67_difference.

(** ** C67: the intersection of two sets *)
(** The call takes the sets [a] and [b], their claimed intersection [mid] and the parts [l] and [r] outside it. The prover commits to
    the sorted sum of [l] and [r] and its selector before the third challenge (the seventh and eighth polynomials received in the call),
    to the shifted sum before the fourth (the twelfth), and to the multiplicities of the range before the sixth (the seventeenth). *)
Theorem C67_intersection : forall (p : positive) (E : pairing p), prime (Zpos p) -> 2 < fsize p ->
  forall (A : list (F p) -> reading) N d D m st q (last : list (F p) -> option (vtrk E)) debug a b l mid r rx al asl bl bsl ll lsl ml msl sl ssl rl (sum sel shifted counts : list (F p) -> list (F p)),
  let n := Nat.max (bc_nv l) (bc_nv r) + 1 in
  1 <= d -> d < fsize p -> 2 ^ N < fsize p -> n <= N -> Nat.max (bc_nv l) (bc_nv mid) + 1 <= N -> Nat.max (bc_nv mid) (bc_nv r) + 1 <= N ->
  boolean asl -> boolean bsl -> boolean lsl -> boolean msl -> boolean ssl -> small_range rl n ->
  (forall gs u, length gs = 6 -> last gs = Some u -> checkable (A gs) N d D m u /\ (forall ch, queries_true (A gs) (facing (st gs) (q gs) u ch)) /\
     exists v v', after_call (fun o v => set_intersect_verify o debug v a b l mid r rx) gs v v' u /\ bag_reads (A gs) N v a al asl /\ bag_reads (A gs) N v b bl bsl /\ bag_reads (A gs) N v l ll lsl /\
       bag_reads (A gs) N v mid ml msl /\ bag_reads (A gs) N v r sl ssl /\ reads (A gs) N v (bc_poly rx) (bc_nv rx) rl /\
       let got := received_ids v v' in
       fst (A gs (nth 6 got 0)) <= n /\ column (A gs) n (nth 6 got 0) = sum (firstn 2 gs) /\
       fst (A gs (nth 7 got 0)) <= n /\ column (A gs) n (nth 7 got 0) = sel (firstn 2 gs) /\ boolean (sel (firstn 2 gs)) /\
       column (A gs) N (nth 11 got 0) = shifted (firstn 3 gs) /\ column (A gs) N (nth 16 got 0) = counts (firstn 5 gs)) ->
  ~ (forall x, In x (rows ml msl) <-> In x (rows al asl) /\ In x (rows bl bsl)) ->
  count (passes_after 6 st q last) (allV p (6 + (m + N))) <=
    (4 * 2 ^ N * 2 ^ N + 2 * 2 ^ N + (length al + length bl + 2 * length ll + 2 * length ml + 2 * length sl + 2 * 2 ^ n + length rl) + (N + 2 + N * Nat.max d (D + 1))) * fsize p ^ (5 + (m + N)).
Proof. intros p E Hp H2. exact (set_intersect_count Hp H2). Qed.
Print Assumptions C67_intersection.

(** The hypotheses are met over F 101, as in Props_Whole. *)
Notation g5 gs := (hd F0 (tl (tl (tl (tl (tl gs)))))).

(** The set (3) is not the difference of the sets (3, 4) and (3). *)
Definition wd_tab (gs : list (F 101)) (i : nat) : list (F 101) :=
  let f := [i101 0 + g1 gs * i101 3; i101 1 + g1 gs * i101 4]%F in let g := [i101 1 + g1 gs * i101 4; i101 0 + g1 gs * i101 3]%F in
  match i with 0 => l2 3 4 | 2 => l2 3 3 | 4 => l2 3 3 | 6 => l2 4 4 | 9 => l2 0 1 | 10 => l2 3 4 | 15 => wx_inv (l2 3 3) (g0 gs) | 23 => wx_inv (l2 3 3) (g0 gs) | 31 => wx_inv (l2 3 4) (g0 gs) | 40 => [F1; F0] | 41 => l2 4 3 | 43 => [F0; F1]
  | 44 => f | 45 => g | 53 => wx_inv f (g2 gs) | 61 => wx_inv g (g2 gs) | 69 => [F1; F0] | 76 => l2 0 2 | 78 => wx_inv (l2 1 1) (g3 gs) | 86 => wx_inv (l2 0 1) (g3 gs)
  | 101 => wx_inv (l2 3 3) (g4 gs) | 109 => wx_inv (l2 4 4) (g4 gs) | 117 => wx_inv (l2 3 4) (g4 gs) | 126 => wx_inv (l2 4 4) (g5 gs) | 134 => wx_inv (l2 3 3) (g5 gs) | _ => l2 1 1 end.
Definition wd_run (vk : vparam E101) (gs : list (F 101)) : option (vtrk E101 * vtrk E101) := session (script 0 gs) vk (wx_cp [0; 1; 2; 3; 4; 5; 6; 7; 8; 9; 10; 11; 15; 23; 31; 41; 44; 45; 53; 61; 76; 78; 86; 94; 101; 109; 117; 126; 134] [17; 25; 33; 55; 63; 80; 88; 103; 111; 119; 128; 136]) 10 (fun o v => set_diff_verify o true v (mkBagc 0 1 1) (mkBagc 2 3 0) (mkBagc 4 5 0) (mkBagc 6 7 0) 8 (mkBagc 9 1 1)).
Lemma wd_is : forall vk gs, wd_run vk gs = session (script 0 gs) vk (wx_cp [0; 1; 2; 3; 4; 5; 6; 7; 8; 9; 10; 11; 15; 23; 31; 41; 44; 45; 53; 61; 76; 78; 86; 94; 101; 109; 117; 126; 134] [17; 25; 33; 55; 63; 80; 88; 103; 111; 119; 128; 136]) 10 (fun o v => set_diff_verify o true v (mkBagc 0 1 1) (mkBagc 2 3 0) (mkBagc 4 5 0) (mkBagc 6 7 0) 8 (mkBagc 9 1 1)).
Proof. reflexivity. Qed.
Definition wd_virt (h g g' g'' h' h'' : F 101) : tmap (vexp 101) :=
  [(141, VAddS 139 (Fopp F1)); (139, VSub 137 138); (138, VMulS 134 h''); (137, VMul 2 134); (136, VMul 135 3); (135, VMul 134 8); (134, VQuery 134); (133, VAddS 131 (Fopp F1)); (131, VSub 129 130); (130, VMulS 126 h'');
   (129, VMul 6 126); (128, VMul 127 7); (127, VMul 126 125); (126, VQuery 126); (125, VFun one_fun); (124, VAddS 122 (Fopp F1)); (122, VSub 120 121); (121, VMulS 117 h'); (120, VMul 0 117); (119, VMul 118 1);
   (118, VMul 117 98); (117, VQuery 117); (116, VAddS 114 (Fopp F1)); (114, VSub 112 113); (113, VMulS 109 h'); (112, VMul 6 109); (111, VMul 110 7); (110, VMul 109 98); (109, VQuery 109); (108, VAddS 106 (Fopp F1));
   (106, VSub 104 105); (105, VMulS 101 h'); (104, VMul 4 101); (103, VMul 102 5); (102, VMul 101 98); (101, VQuery 101); (100, VFun one_fun); (99, VFun one_fun); (98, VFun one_fun); (97, VSub 96 11);
   (96, VMul 95 94); (95, VMul 74 11); (94, VQuery 94); (93, VAddS 91 (Fopp F1)); (91, VSub 89 90); (90, VMulS 86 g''); (89, VMul 9 86); (88, VMul 87 75); (87, VMul 86 76); (86, VQuery 86);
   (85, VAddS 83 (Fopp F1)); (83, VSub 81 82); (82, VMulS 78 g''); (81, VMul 74 78); (80, VMul 79 69); (79, VMul 78 77); (78, VQuery 78); (77, VFun one_fun); (76, VQuery 76); (75, VFun one_fun);
   (74, VSub 73 69); (73, VAddS 71 F1); (71, VMul 69 70); (70, VSub 41 10); (69, VFun (mle_fun (mkMle 1 [F1; F0]))); (68, VAddS 66 (Fopp F1)); (66, VSub 64 65); (65, VMulS 61 g'); (64, VMul 45 61); (63, VMul 62 42);
   (62, VMul 61 52); (61, VQuery 61); (60, VAddS 58 (Fopp F1)); (58, VSub 56 57); (57, VMulS 53 g'); (56, VMul 44 53); (55, VMul 54 42); (54, VMul 53 52); (53, VQuery 53); (52, VFun one_fun);
   (51, VSub 50 45); (50, VAdd 40 49); (49, VMulS 41 g); (48, VSub 47 44); (47, VAdd 43 46); (46, VMulS 10 g); (45, VQuery 45); (44, VQuery 44); (43, VFun ordered_fun); (42, VFun one_fun);
   (41, VQuery 41); (40, VFun (mle_fun (mkMle 1 [F1; F0]))); (39, VFun one_fun); (38, VAddS 36 (Fopp F1)); (36, VSub 34 35); (35, VMulS 31 h); (34, VMul 10 31); (33, VMul 32 11); (32, VMul 31 12); (31, VQuery 31);
   (30, VAddS 28 (Fopp F1)); (28, VSub 26 27); (27, VMulS 23 h); (26, VMul 2 23); (25, VMul 24 3); (24, VMul 23 12); (23, VQuery 23); (22, VAddS 20 (Fopp F1)); (20, VSub 18 19); (19, VMulS 15 h);
   (18, VMul 4 15); (17, VMul 16 5); (16, VMul 15 12); (15, VQuery 15); (14, VFun one_fun); (13, VFun one_fun); (12, VFun one_fun); (11, VQuery 11); (10, VQuery 10); (9, VQuery 9);
   (8, VQuery 8); (7, VQuery 7); (6, VQuery 6); (5, VQuery 5); (4, VQuery 4); (3, VQuery 3); (2, VQuery 2); (1, VQuery 1); (0, VQuery 0)].
Lemma wd_seen : forall vk h g g' g'' h' h'', option_map seen (wd_run vk [h; g; g'; g''; h'; h'']) =
  Some ([(9, VQuery 9); (8, VQuery 8); (7, VQuery 7); (6, VQuery 6); (5, VQuery 5); (4, VQuery 4); (3, VQuery 3); (2, VQuery 2); (1, VQuery 1); (0, VQuery 0)], wd_virt h g g' g'' h' h'', [22; 30; 38; 60; 68; 48; 51; 85; 93; 97; 108; 116; 124; 133; 141], [17; 25; 33; 55; 63; 80; 88; 103; 111; 119; 128; 136], wx_cp [0; 1; 2; 3; 4; 5; 6; 7; 8; 9; 10; 11; 15; 23; 31; 41; 44; 45; 53; 61; 76; 78; 86; 94; 101; 109; 117; 126; 134] [17; 25; 33; 55; 63; 80; 88; 103; 111; 119; 128; 136], [h; g; g'; g''; h'; h'']).
Proof. intros. match goal with |- _ = ?b => vm_cast_no_check (eq_refl b) end. Qed.
Lemma wd_got : forall vk h g g' g'' h' h'', option_map (fun r => received_ids (fst r) (snd r)) (wd_run vk [h; g; g'; g''; h'; h'']) = Some [10; 11; 15; 23; 31; 41; 44; 45; 53; 61; 76; 78; 86; 94; 101; 109; 117; 126; 134].
Proof. intros. match goal with |- _ = ?b => vm_cast_no_check (eq_refl b) end. Qed.
Example C67_ex_difference : forall vk st, (forall gs, length gs = 6 -> exists u, final (wd_run vk gs) = Some u) /\
  ~ (NoDup (rows [i101 3] [i101 1]) /\ forall x, In x (rows [i101 3] [i101 1]) <-> In x (rows (l2 3 4) (l2 1 1)) /\ ~ In x (rows [i101 3] [i101 1])) /\
  count (passes_after 6 st (fun gs => truthful 29 [0; 1; 2; 3; 4; 5; 6; 7; 8; 9; 10; 11; 15; 23; 31; 41; 44; 45; 53; 61; 76; 78; 86; 94; 101; 109; 117; 126; 134] (wd_tab gs)) (fun gs => final (wd_run vk gs))) (allV 101 (6 + (29 + 1))) <= 42 * fsize 101 ^ 35.
Proof.
  intros vk st. assert (Hno : ~ (NoDup (rows [i101 3] [i101 1]) /\ forall x, In x (rows [i101 3] [i101 1]) <-> In x (rows (l2 3 4) (l2 1 1)) /\ ~ In x (rows [i101 3] [i101 1]))).
  { intros [_ H]. destruct (H (i101 3)) as [X _]. vm_compute in X. destruct X as [_ X]; [left; reflexivity|apply X; left; reflexivity]. }
  split; [|split; [exact Hno|]].
  - intros [|h [|g [|g' [|g'' [|h' [|h'' [|? ?]]]]]]] Hk; try discriminate Hk. clear Hk. pose proof (wd_seen vk h g g' g'' h' h'') as S. destruct (wd_run vk [h; g; g'; g''; h'; h'']) as [[v u]|]; [exists u; reflexivity|discriminate S].
  - refine (C67_difference 101 E101 prime_101 _ (fun gs => rd (wd_tab gs)) 1 3 4 29 st (fun gs => truthful 29 [0; 1; 2; 3; 4; 5; 6; 7; 8; 9; 10; 11; 15; 23; 31; 41; 44; 45; 53; 61; 76; 78; 86; 94; 101; 109; 117; 126; 134] (wd_tab gs)) (fun gs => final (wd_run vk gs)) true (mkBagc 0 1 1) (mkBagc 2 3 0) (mkBagc 4 5 0) (mkBagc 6 7 0) 8 (mkBagc 9 1 1) (l2 3 4) (l2 1 1) [i101 3] [i101 1] [i101 3] [i101 1] [i101 4] [i101 1] [i101 1] (l2 0 1) (l2 3 4) (l2 1 1) (fun _ => l2 4 3) (fun _ => l2 0 2) _ _ _ _ _ _ _ _ _ _ _ _ Hno);
      [vm_compute; repeat constructor|repeat constructor|apply Nat.ltb_lt; reflexivity|apply Nat.ltb_lt; reflexivity|constructor|constructor|constructor; [right; reflexivity|constructor; [right; reflexivity|constructor]]|constructor; [right; reflexivity|constructor]|constructor; [right; reflexivity|constructor]|constructor; [right; reflexivity|constructor]|constructor; [right; reflexivity|constructor; [right; reflexivity|constructor]]|
       exists 1; split; [constructor; [exists 0; split; [repeat constructor|reflexivity]|constructor; [exists 1; split; [repeat constructor|reflexivity]|constructor]]|reflexivity]|].
    intros [|h [|g [|g' [|g'' [|h' [|h'' [|? ?]]]]]]] u Hk; try discriminate Hk. clear Hk. intros Hu.
    destruct (session_meets 60 (wd_tab [h; g; g'; g''; h'; h'']) _ _ _ _ _ 3 4 29 [0; 1; 2; 3; 4; 5; 6; 7; 8; 9; 10; 11; 15; 23; 31; 41; 44; 45; 53; 61; 76; 78; 86; 94; 101; 109; 117; 126; 134] _ _ _ _ _ _ _ (wd_is vk [h; g; g'; g''; h'; h'']) (wd_seen vk h g g' g'' h' h'') Hu) as [C [Q [v [Ha [V0 [_ V2]]]]]];
      [reflexivity|reflexivity|reflexivity|vm_compute; reflexivity|wclos|].
    pose proof (wd_got vk h g g' g'' h' h'') as V3. rewrite V2 in V3. cbn [option_map fst snd] in V3. injection V3 as V3.
    split; [exact C|]. split; [intros ch; apply Q|]. exists v, u. split; [exact Ha|].
    split; [split; [exact (rd_reads (wd_tab [h; g; g'; g''; h'; h'']) v 0 ltac:(rewrite V0; reflexivity) eq_refl)|exact (rd_reads (wd_tab [h; g; g'; g''; h'; h'']) v 1 ltac:(rewrite V0; reflexivity) eq_refl)]|].
    split; [split; [exact (rd_const (wd_tab [h; g; g'; g''; h'; h'']) v 2 (i101 3) ltac:(rewrite V0; reflexivity) eq_refl)|exact (rd_const (wd_tab [h; g; g'; g''; h'; h'']) v 3 (i101 1) ltac:(rewrite V0; reflexivity) eq_refl)]|].
    split; [split; [exact (rd_const (wd_tab [h; g; g'; g''; h'; h'']) v 4 (i101 3) ltac:(rewrite V0; reflexivity) eq_refl)|exact (rd_const (wd_tab [h; g; g'; g''; h'; h'']) v 5 (i101 1) ltac:(rewrite V0; reflexivity) eq_refl)]|].
    split; [split; [exact (rd_const (wd_tab [h; g; g'; g''; h'; h'']) v 6 (i101 4) ltac:(rewrite V0; reflexivity) eq_refl)|exact (rd_const (wd_tab [h; g; g'; g''; h'; h'']) v 7 (i101 1) ltac:(rewrite V0; reflexivity) eq_refl)]|].
    split; [exact (rd_const (wd_tab [h; g; g'; g''; h'; h'']) v 8 (i101 1) ltac:(rewrite V0; reflexivity) eq_refl)|].
    split; [exact (rd_reads (wd_tab [h; g; g'; g''; h'; h'']) v 9 ltac:(rewrite V0; reflexivity) eq_refl)|].
    rewrite V3. split; [repeat constructor|]. split; [reflexivity|]. split; reflexivity.
Qed.
Print Assumptions C67_ex_difference.

(** The set (4) is not the intersection of the sets (3, 4) and (3). *)
Definition wi_tab (gs : list (F 101)) (i : nat) : list (F 101) :=
  let f := [i101 0 + g3 gs * i101 3; i101 1 + g3 gs * i101 4]%F in let g := [i101 1 + g3 gs * i101 4; i101 0 + g3 gs * i101 3]%F in
  match i with 0 => l2 3 4 | 2 => l2 3 3 | 4 => l2 3 3 | 6 => l2 4 4 | 8 => l2 3 3 | 10 => l2 0 1 | 14 => wx_inv (l2 3 3) (g0 gs) | 22 => wx_inv (l2 4 4) (g0 gs) | 30 => wx_inv (l2 3 4) (g0 gs)
  | 41 => wx_inv (l2 4 4) (g1 gs) | 49 => wx_inv (l2 3 3) (g1 gs) | 57 => wx_inv (l2 3 3) (g1 gs) | 65 => l2 3 4 | 70 => wx_inv (l2 3 3) (g2 gs) | 78 => wx_inv (l2 3 3) (g2 gs) | 86 => wx_inv (l2 3 4) (g2 gs)
  | 95 => [F1; F0] | 96 => l2 4 3 | 98 => [F0; F1] | 99 => f | 100 => g | 108 => wx_inv f (g4 gs) | 116 => wx_inv g (g4 gs) | 124 => [F1; F0] | 131 => l2 0 2 | 133 => wx_inv (l2 1 1) (g5 gs) | 141 => wx_inv (l2 0 1) (g5 gs) | _ => l2 1 1 end.
Definition wi_run (vk : vparam E101) (gs : list (F 101)) : option (vtrk E101 * vtrk E101) := session (script 0 gs) vk (wx_cp [0; 1; 2; 3; 4; 5; 6; 7; 8; 9; 10; 14; 22; 30; 41; 49; 57; 65; 66; 70; 78; 86; 96; 99; 100; 108; 116; 131; 133; 141; 149] [16; 24; 32; 43; 51; 59; 72; 80; 88; 110; 118; 135; 143]) 11 (fun o v => set_intersect_verify o true v (mkBagc 0 1 1) (mkBagc 2 3 0) (mkBagc 4 5 0) (mkBagc 6 7 0) (mkBagc 8 9 0) (mkBagc 10 1 1)).
Lemma wi_is : forall vk gs, wi_run vk gs = session (script 0 gs) vk (wx_cp [0; 1; 2; 3; 4; 5; 6; 7; 8; 9; 10; 14; 22; 30; 41; 49; 57; 65; 66; 70; 78; 86; 96; 99; 100; 108; 116; 131; 133; 141; 149] [16; 24; 32; 43; 51; 59; 72; 80; 88; 110; 118; 135; 143]) 11 (fun o v => set_intersect_verify o true v (mkBagc 0 1 1) (mkBagc 2 3 0) (mkBagc 4 5 0) (mkBagc 6 7 0) (mkBagc 8 9 0) (mkBagc 10 1 1)).
Proof. reflexivity. Qed.
Definition wi_virt (h' h'' h g g' g'' : F 101) : tmap (vexp 101) :=
  [(152, VSub 151 66); (151, VMul 150 149); (150, VMul 129 66); (149, VQuery 149); (148, VAddS 146 (Fopp F1)); (146, VSub 144 145); (145, VMulS 141 g''); (144, VMul 10 141); (143, VMul 142 130); (142, VMul 141 131);
   (141, VQuery 141); (140, VAddS 138 (Fopp F1)); (138, VSub 136 137); (137, VMulS 133 g''); (136, VMul 129 133); (135, VMul 134 124); (134, VMul 133 132); (133, VQuery 133); (132, VFun one_fun); (131, VQuery 131);
   (130, VFun one_fun); (129, VSub 128 124); (128, VAddS 126 F1); (126, VMul 124 125); (125, VSub 96 65); (124, VFun (mle_fun (mkMle 1 [F1; F0]))); (123, VAddS 121 (Fopp F1)); (121, VSub 119 120); (120, VMulS 116 g'); (119, VMul 100 116);
   (118, VMul 117 97); (117, VMul 116 107); (116, VQuery 116); (115, VAddS 113 (Fopp F1)); (113, VSub 111 112); (112, VMulS 108 g'); (111, VMul 99 108); (110, VMul 109 97); (109, VMul 108 107); (108, VQuery 108);
   (107, VFun one_fun); (106, VSub 105 100); (105, VAdd 95 104); (104, VMulS 96 g); (103, VSub 102 99); (102, VAdd 98 101); (101, VMulS 65 g); (100, VQuery 100); (99, VQuery 99); (98, VFun ordered_fun);
   (97, VFun one_fun); (96, VQuery 96); (95, VFun (mle_fun (mkMle 1 [F1; F0]))); (94, VFun one_fun); (93, VAddS 91 (Fopp F1)); (91, VSub 89 90); (90, VMulS 86 h); (89, VMul 65 86); (88, VMul 87 66); (87, VMul 86 67);
   (86, VQuery 86); (85, VAddS 83 (Fopp F1)); (83, VSub 81 82); (82, VMulS 78 h); (81, VMul 8 78); (80, VMul 79 9); (79, VMul 78 67); (78, VQuery 78); (77, VAddS 75 (Fopp F1)); (75, VSub 73 74);
   (74, VMulS 70 h); (73, VMul 4 70); (72, VMul 71 5); (71, VMul 70 67); (70, VQuery 70); (69, VFun one_fun); (68, VFun one_fun); (67, VFun one_fun); (66, VQuery 66); (65, VQuery 65);
   (64, VAddS 62 (Fopp F1)); (62, VSub 60 61); (61, VMulS 57 h''); (60, VMul 2 57); (59, VMul 58 3); (58, VMul 57 38); (57, VQuery 57); (56, VAddS 54 (Fopp F1)); (54, VSub 52 53); (53, VMulS 49 h'');
   (52, VMul 8 49); (51, VMul 50 9); (50, VMul 49 38); (49, VQuery 49); (48, VAddS 46 (Fopp F1)); (46, VSub 44 45); (45, VMulS 41 h''); (44, VMul 6 41); (43, VMul 42 7); (42, VMul 41 38);
   (41, VQuery 41); (40, VFun one_fun); (39, VFun one_fun); (38, VFun one_fun); (37, VAddS 35 (Fopp F1)); (35, VSub 33 34); (34, VMulS 30 h'); (33, VMul 0 30); (32, VMul 31 1); (31, VMul 30 11);
   (30, VQuery 30); (29, VAddS 27 (Fopp F1)); (27, VSub 25 26); (26, VMulS 22 h'); (25, VMul 6 22); (24, VMul 23 7); (23, VMul 22 11); (22, VQuery 22); (21, VAddS 19 (Fopp F1)); (19, VSub 17 18);
   (18, VMulS 14 h'); (17, VMul 4 14); (16, VMul 15 5); (15, VMul 14 11); (14, VQuery 14); (13, VFun one_fun); (12, VFun one_fun); (11, VFun one_fun); (10, VQuery 10); (9, VQuery 9);
   (8, VQuery 8); (7, VQuery 7); (6, VQuery 6); (5, VQuery 5); (4, VQuery 4); (3, VQuery 3); (2, VQuery 2); (1, VQuery 1); (0, VQuery 0)].
Lemma wi_seen : forall vk h' h'' h g g' g'', option_map seen (wi_run vk [h'; h''; h; g; g'; g'']) =
  Some ([(10, VQuery 10); (9, VQuery 9); (8, VQuery 8); (7, VQuery 7); (6, VQuery 6); (5, VQuery 5); (4, VQuery 4); (3, VQuery 3); (2, VQuery 2); (1, VQuery 1); (0, VQuery 0)], wi_virt h' h'' h g g' g'', [21; 29; 37; 48; 56; 64; 77; 85; 93; 115; 123; 103; 106; 140; 148; 152], [16; 24; 32; 43; 51; 59; 72; 80; 88; 110; 118; 135; 143], wx_cp [0; 1; 2; 3; 4; 5; 6; 7; 8; 9; 10; 14; 22; 30; 41; 49; 57; 65; 66; 70; 78; 86; 96; 99; 100; 108; 116; 131; 133; 141; 149] [16; 24; 32; 43; 51; 59; 72; 80; 88; 110; 118; 135; 143], [h'; h''; h; g; g'; g'']).
Proof. intros. match goal with |- _ = ?b => vm_cast_no_check (eq_refl b) end. Qed.
Lemma wi_got : forall vk h' h'' h g g' g'', option_map (fun r => received_ids (fst r) (snd r)) (wi_run vk [h'; h''; h; g; g'; g'']) = Some [14; 22; 30; 41; 49; 57; 65; 66; 70; 78; 86; 96; 99; 100; 108; 116; 131; 133; 141; 149].
Proof. intros. match goal with |- _ = ?b => vm_cast_no_check (eq_refl b) end. Qed.
Example C67_ex_intersection : forall vk st, (forall gs, length gs = 6 -> exists u, final (wi_run vk gs) = Some u) /\
  ~ (forall x, In x (rows [i101 4] [i101 1]) <-> In x (rows (l2 3 4) (l2 1 1)) /\ In x (rows [i101 3] [i101 1])) /\
  count (passes_after 6 st (fun gs => truthful 31 [0; 1; 2; 3; 4; 5; 6; 7; 8; 9; 10; 14; 22; 30; 41; 49; 57; 65; 66; 70; 78; 86; 96; 99; 100; 108; 116; 131; 133; 141; 149] (wi_tab gs)) (fun gs => final (wi_run vk gs))) (allV 101 (6 + (31 + 1))) <= 43 * fsize 101 ^ 37.
Proof.
  intros vk st. assert (Hno : ~ (forall x, In x (rows [i101 4] [i101 1]) <-> In x (rows (l2 3 4) (l2 1 1)) /\ In x (rows [i101 3] [i101 1]))).
  { intros H. destruct (H (i101 4)) as [X _]. vm_compute in X. destruct X as [_ [X|[]]]; [left; reflexivity|discriminate X]. }
  split; [|split; [exact Hno|]].
  - intros [|h' [|h'' [|h [|g [|g' [|g'' [|? ?]]]]]]] Hk; try discriminate Hk. clear Hk. pose proof (wi_seen vk h' h'' h g g' g'') as S. destruct (wi_run vk [h'; h''; h; g; g'; g'']) as [[v u]|]; [exists u; reflexivity|discriminate S].
  - refine (C67_intersection 101 E101 prime_101 _ (fun gs => rd (wi_tab gs)) 1 3 4 31 st (fun gs => truthful 31 [0; 1; 2; 3; 4; 5; 6; 7; 8; 9; 10; 14; 22; 30; 41; 49; 57; 65; 66; 70; 78; 86; 96; 99; 100; 108; 116; 131; 133; 141; 149] (wi_tab gs)) (fun gs => final (wi_run vk gs)) true (mkBagc 0 1 1) (mkBagc 2 3 0) (mkBagc 4 5 0) (mkBagc 6 7 0) (mkBagc 8 9 0) (mkBagc 10 1 1) (l2 3 4) (l2 1 1) [i101 3] [i101 1] [i101 3] [i101 1] [i101 4] [i101 1] [i101 3] [i101 1] (l2 0 1) (fun _ => l2 3 4) (fun _ => l2 1 1) (fun _ => l2 4 3) (fun _ => l2 0 2) _ _ _ _ _ _ _ _ _ _ _ _ _ Hno);
      [vm_compute; repeat constructor|repeat constructor|apply Nat.ltb_lt; reflexivity|apply Nat.ltb_lt; reflexivity|constructor|constructor|constructor|constructor; [right; reflexivity|constructor; [right; reflexivity|constructor]]|constructor; [right; reflexivity|constructor]|constructor; [right; reflexivity|constructor]|constructor; [right; reflexivity|constructor]|constructor; [right; reflexivity|constructor]|
       exists 1; split; [constructor; [exists 0; split; [repeat constructor|reflexivity]|constructor; [exists 1; split; [repeat constructor|reflexivity]|constructor]]|reflexivity]|].
    intros [|h' [|h'' [|h [|g [|g' [|g'' [|? ?]]]]]]] u Hk; try discriminate Hk. clear Hk. intros Hu.
    destruct (session_meets 60 (wi_tab [h'; h''; h; g; g'; g'']) _ _ _ _ _ 3 4 31 [0; 1; 2; 3; 4; 5; 6; 7; 8; 9; 10; 14; 22; 30; 41; 49; 57; 65; 66; 70; 78; 86; 96; 99; 100; 108; 116; 131; 133; 141; 149] _ _ _ _ _ _ _ (wi_is vk [h'; h''; h; g; g'; g'']) (wi_seen vk h' h'' h g g' g'') Hu) as [C [Q [v [Ha [V0 [_ V2]]]]]];
      [reflexivity|reflexivity|reflexivity|vm_compute; reflexivity|wclos|].
    pose proof (wi_got vk h' h'' h g g' g'') as V3. rewrite V2 in V3. cbn [option_map fst snd] in V3. injection V3 as V3.
    split; [exact C|]. split; [intros ch; apply Q|]. exists v, u. split; [exact Ha|].
    split; [split; [exact (rd_reads (wi_tab [h'; h''; h; g; g'; g'']) v 0 ltac:(rewrite V0; reflexivity) eq_refl)|exact (rd_reads (wi_tab [h'; h''; h; g; g'; g'']) v 1 ltac:(rewrite V0; reflexivity) eq_refl)]|].
    split; [split; [exact (rd_const (wi_tab [h'; h''; h; g; g'; g'']) v 2 (i101 3) ltac:(rewrite V0; reflexivity) eq_refl)|exact (rd_const (wi_tab [h'; h''; h; g; g'; g'']) v 3 (i101 1) ltac:(rewrite V0; reflexivity) eq_refl)]|].
    split; [split; [exact (rd_const (wi_tab [h'; h''; h; g; g'; g'']) v 4 (i101 3) ltac:(rewrite V0; reflexivity) eq_refl)|exact (rd_const (wi_tab [h'; h''; h; g; g'; g'']) v 5 (i101 1) ltac:(rewrite V0; reflexivity) eq_refl)]|].
    split; [split; [exact (rd_const (wi_tab [h'; h''; h; g; g'; g'']) v 6 (i101 4) ltac:(rewrite V0; reflexivity) eq_refl)|exact (rd_const (wi_tab [h'; h''; h; g; g'; g'']) v 7 (i101 1) ltac:(rewrite V0; reflexivity) eq_refl)]|].
    split; [split; [exact (rd_const (wi_tab [h'; h''; h; g; g'; g'']) v 8 (i101 3) ltac:(rewrite V0; reflexivity) eq_refl)|exact (rd_const (wi_tab [h'; h''; h; g; g'; g'']) v 9 (i101 1) ltac:(rewrite V0; reflexivity) eq_refl)]|].
    split; [exact (rd_reads (wi_tab [h'; h''; h; g; g'; g'']) v 10 ltac:(rewrite V0; reflexivity) eq_refl)|].
    rewrite V3. split; [constructor|]. split; [reflexivity|]. split; [constructor|]. split; [reflexivity|]. split; [constructor; [right; reflexivity|constructor; [right; reflexivity|constructor]]|]. split; reflexivity.
Qed.
Print Assumptions C67_ex_intersection.
