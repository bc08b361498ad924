(** C67, continued: the rows a join keeps. The setting is the one of Props_Whole. *)
From Coq Require Import String List Arith Bool Lia ZArith Znumtheory Permutation.
Import ListNotations.
From Verif Require Import Res Fp FSum SpecMle SpecPoly SpecSumcheck SpecTracker SpecIop ModelMle ModelTranscript ModelSumcheck Pairing ModelKzg ModelBatch ModelProver ModelVerifier ModelIop
  ProverHist VerifierHist CompileHist IopHist SessHist CheckHist CheckIopHist CheckIop CheckSort CheckSupp CheckDisj CheckJoin WholeEx Props_Whole.
Local Open Scope string_scope.
Local Open Scope list_scope.
Local Open Scope nat_scope.

(** ** C67: the rows of two columns that a join keeps *)
(** The call takes the bags [a] and [b] and the claimed marks [ls] and [rs] of the rows without a partner. It draws seventeen challenges:
    five in each of three checks that bags are disjoint, and one in each of two inclusions. [sent i] is what the prover sends as the
    [i]-th polynomial received in the call, counted from 0, and may depend on the challenges drawn before it. In each of the three checks
    the prover commits to the sorted union, its selector, its two columns of multiplicities and the shifted union before the check's first
    challenge, and to the multiplicities of the range before its third. In each inclusion it commits to the multiplicities before the
    challenge. *)
Theorem C67_join : forall (p : positive) (E : pairing p), prime (Zpos p) -> 2 < fsize p ->
  forall (A : list (F p) -> reading) N d D m st q (last : list (F p) -> option (vtrk E)) debug a b ls rs rx al asl bl bsl lsl rsl rl (sent : nat -> list (F p) -> list (F p)),
  let na := bc_nv a in let nb := bc_nv b in let n := Nat.max na nb + 1 in
  1 <= d -> d < fsize p -> 2 ^ N < fsize p -> n <= N -> boolean asl -> boolean bsl -> small_range rl n ->
  (forall gs u, length gs = 17 -> last gs = Some u -> checkable (A gs) N d D m u /\ (forall ch, queries_true (A gs) (facing (st gs) (q gs) u ch)) /\
     exists v v', after_call (fun o v => join_reduction_verify o debug v a b ls rs rx) gs v v' u /\ bag_reads (A gs) N v a al asl /\ bag_reads (A gs) N v b bl bsl /\
       reads (A gs) N v ls na lsl /\ reads (A gs) N v rs nb rsl /\ reads (A gs) N v (bc_poly rx) (bc_nv rx) rl /\
       let got := fun i => nth i (received_ids v v') 0 in
       let fixed := fun w i k => column (A gs) w (got i) = sent i (firstn k gs) in
       let block := fun w c s => Forall (fun i => fst (A gs (got i)) <= w /\ fixed w i s) [c; c + 1; c + 2; c + 3] /\ fixed N (c + 4) s /\ fixed N (c + 9) (s + 2) in
       block n 0 0 /\ block (na + 1) 17 5 /\ block (nb + 1) 34 10 /\ fixed N 51 15 /\ fixed N 54 16) ->
  ~ (boolean lsl /\ boolean rsl /\ marks al asl lsl bl bsl /\ marks bl bsl rsl al asl) ->
  count (passes_after 17 st q last) (allV p (17 + (m + N))) <=
    (12 * 2 ^ N * 2 ^ N + 6 * 2 ^ N + 9 * 2 ^ n + (5 * length al + 5 * length bl + 3 * length rl) + (N + 2 + N * Nat.max d (D + 1))) * fsize p ^ (16 + (m + N)).
Proof. intros p E Hp H2. exact (join_count Hp H2). Qed.
Print Assumptions C67_join.

(** The hypotheses are met over F 1009, with columns of two rows, as in Props_Whole. *)
Lemma prime_1009 : prime 1009.
Proof.
  apply prime_intro; [now split|]. intros n Hn. apply Zgcd_1_rel_prime.
  assert (Hall : forallb (fun k => Z.eqb (Z.gcd k 1009) 1) (map Z.of_nat (seq 1 1008)) = true) by (vm_compute; reflexivity).
  rewrite forallb_forall in Hall. apply Z.eqb_eq. apply Hall.
  apply in_map_iff. exists (Z.to_nat n). split; [lia|]. apply in_seq. lia.
Qed.
Notation E1009 := (exp_pairing 1009).
Definition i1009 (z : Z) : F 1009 := ofZ z.
Definition wy_cp (comms sums : list nat) : cproof E1009 := mkCproof (E:=E1009) (map (fun i => (i, i1009 7)) comms) (map (fun i => (i, F0)) sums) (mkProof [] []) 3 1 [] [].
Definition wy_inv (l : list (F 1009)) (g : F 1009) : list (F 1009) := map (fun x => F1 / (x - g))%F l.
Definition k2 (a b : Z) : list (F 1009) := [i1009 a; i1009 b].
(** What the prover sends in a check that the bag (3) has no value in common with the bag (3), which occurs [t] times. *)
Definition wj_block (t : Z) (gs : list (F 1009)) (i : nat) : list (F 1009) :=
  let f := [i1009 0 + nth 0 gs F0 * i1009 3; i1009 1 + nth 0 gs F0 * i1009 4]%F in let g := [i1009 1 + nth 0 gs F0 * i1009 4; i1009 0 + nth 0 gs F0 * i1009 3]%F in
  match i with 0 => k2 3 4 | 2 => k2 1 0 | 3 => k2 t 0 | 5 => [F1; F0] | 6 => k2 4 3 | 8 => [F0; F1] | 9 => f | 10 => g | 18 => wy_inv f (nth 1 gs F0) | 26 => wy_inv g (nth 1 gs F0)
  | 34 => [F1; F0] | 41 => k2 0 2 | 43 => wy_inv (k2 1 1) (nth 2 gs F0) | 51 => wy_inv (k2 0 1) (nth 2 gs F0) | 65 => wy_inv (k2 3 3) (nth 3 gs F0) | 73 => wy_inv (k2 3 4) (nth 3 gs F0)
  | 82 => wy_inv (k2 3 3) (nth 4 gs F0) | 90 => wy_inv (k2 3 4) (nth 4 gs F0) | _ => k2 1 1 end.
Definition wj_sent (i : nat) (_ : list (F 1009)) : list (F 1009) :=
  match i with 0 | 17 | 34 => k2 3 4 | 2 | 19 | 36 => k2 1 0 | 3 => k2 1 0 | 20 | 37 => k2 0 0 | 4 | 21 | 38 => k2 4 3 | 9 | 26 | 43 => k2 0 2 | 51 | 54 => k2 0 0 | _ => k2 1 1 end.

(** The rows of the columns (3) and (3) are marked as having no partner. *)
Definition wj_tab (gs : list (F 1009)) (i : nat) : list (F 1009) :=
  if i <? 25 then match i with 0 | 2 => k2 3 3 | 6 => k2 0 1 | _ => k2 1 1 end
  else if i <? 123 then wj_block 1 gs (i - 25) else if i <? 221 then wj_block 0 (skipn 5 gs) (i - 123) else if i <? 319 then wj_block 0 (skipn 10 gs) (i - 221)
  else match i with 319 | 337 => k2 0 0 | 321 | 329 => wy_inv (k2 3 3) (nth 15 gs F0) | 339 | 347 => wy_inv (k2 3 3) (nth 16 gs F0) | _ => k2 1 1 end.
Definition wj_run (vk : vparam E1009) (gs : list (F 1009)) : option (vtrk E1009 * vtrk E1009) := session (script 0 gs) vk (wy_cp [0; 1; 2; 3; 4; 5; 6; 25; 26; 27; 28; 31; 34; 35; 43; 51; 66; 68; 76; 84; 90; 98; 107; 115; 123; 124; 125; 126; 129; 132; 133; 141; 149; 164; 166; 174; 182; 188; 196; 205; 213; 221; 222; 223; 224; 227; 230; 231; 239; 247; 262; 264; 272; 280; 286; 294; 303; 311; 319; 321; 329; 337; 339; 347] [45; 53; 70; 78; 92; 100; 109; 117; 143; 151; 168; 176; 190; 198; 207; 215; 241; 249; 266; 274; 288; 296; 305; 313; 323; 331; 341; 349]) 7 (fun o v => join_reduction_verify o true v (mkBagc 0 1 0) (mkBagc 2 3 0) 4 5 (mkBagc 6 1 1)).
Lemma wj_is : forall vk gs, wj_run vk gs = session (script 0 gs) vk (wy_cp [0; 1; 2; 3; 4; 5; 6; 25; 26; 27; 28; 31; 34; 35; 43; 51; 66; 68; 76; 84; 90; 98; 107; 115; 123; 124; 125; 126; 129; 132; 133; 141; 149; 164; 166; 174; 182; 188; 196; 205; 213; 221; 222; 223; 224; 227; 230; 231; 239; 247; 262; 264; 272; 280; 286; 294; 303; 311; 319; 321; 329; 337; 339; 347] [45; 53; 70; 78; 92; 100; 109; 117; 143; 151; 168; 176; 190; 198; 207; 215; 241; 249; 266; 274; 288; 296; 305; 313; 323; 331; 341; 349]) 7 (fun o v => join_reduction_verify o true v (mkBagc 0 1 0) (mkBagc 2 3 0) 4 5 (mkBagc 6 1 1)).
Proof. reflexivity. Qed.
Definition wj_virt (c0 c1 c2 c3 c4 c5 c6 c7 c8 c9 c10 c11 c12 c13 c14 c15 c16 : F 1009) : tmap (vexp 1009) :=
  [(354, VAddS 352 (Fopp F1)); (352, VSub 350 351); (351, VMulS 347 c16); (350, VMul 0 347); (349, VMul 348 15); (348, VMul 347 337); (347, VQuery 347); (346, VAddS 344 (Fopp F1)); (344, VSub 342 343); (343, VMulS 339 c16);
   (342, VMul 2 339); (341, VMul 340 16); (340, VMul 339 338); (339, VQuery 339); (338, VFun one_fun); (337, VQuery 337); (336, VAddS 334 (Fopp F1)); (334, VSub 332 333); (333, VMulS 329 c15); (332, VMul 2 329);
   (331, VMul 330 16); (330, VMul 329 319); (329, VQuery 329); (328, VAddS 326 (Fopp F1)); (326, VSub 324 325); (325, VMulS 321 c15); (324, VMul 0 321); (323, VMul 322 15); (322, VMul 321 320); (321, VQuery 321);
   (320, VFun one_fun); (319, VQuery 319); (318, VAddS 316 (Fopp F1)); (316, VSub 314 315); (315, VMulS 311 c14); (314, VMul 221 311); (313, VMul 312 222); (312, VMul 311 224); (311, VQuery 311); (310, VAddS 308 (Fopp F1));
   (308, VSub 306 307); (307, VMulS 303 c14); (306, VMul 2 303); (305, VMul 304 16); (304, VMul 303 302); (303, VQuery 303); (302, VFun one_fun); (301, VAddS 299 (Fopp F1)); (299, VSub 297 298); (298, VMulS 294 c13);
   (297, VMul 221 294); (296, VMul 295 222); (295, VMul 294 223); (294, VQuery 294); (293, VAddS 291 (Fopp F1)); (291, VSub 289 290); (290, VMulS 286 c13); (289, VMul 2 286); (288, VMul 287 14); (287, VMul 286 285);
   (286, VQuery 286); (285, VFun one_fun); (284, VMul 223 224); (283, VSub 282 222); (282, VMul 281 280); (281, VMul 260 222); (280, VQuery 280); (279, VAddS 277 (Fopp F1)); (277, VSub 275 276); (276, VMulS 272 c12);
   (275, VMul 6 272); (274, VMul 273 261); (273, VMul 272 262); (272, VQuery 272); (271, VAddS 269 (Fopp F1)); (269, VSub 267 268); (268, VMulS 264 c12); (267, VMul 260 264); (266, VMul 265 255); (265, VMul 264 263);
   (264, VQuery 264); (263, VFun one_fun); (262, VQuery 262); (261, VFun one_fun); (260, VSub 259 255); (259, VAddS 257 F1); (257, VMul 255 256); (256, VSub 227 221); (255, VFun (mle_fun (mkMle 1 [F1; F0]))); (254, VAddS 252 (Fopp F1));
   (252, VSub 250 251); (251, VMulS 247 c11); (250, VMul 231 247); (249, VMul 248 228); (248, VMul 247 238); (247, VQuery 247); (246, VAddS 244 (Fopp F1)); (244, VSub 242 243); (243, VMulS 239 c11); (242, VMul 230 239);
   (241, VMul 240 228); (240, VMul 239 238); (239, VQuery 239); (238, VFun one_fun); (237, VSub 236 231); (236, VAdd 226 235); (235, VMulS 227 c10); (234, VSub 233 230); (233, VAdd 229 232); (232, VMulS 221 c10);
   (231, VQuery 231); (230, VQuery 230); (229, VFun ordered_fun); (228, VFun one_fun); (227, VQuery 227); (226, VFun (mle_fun (mkMle 1 [F1; F0]))); (225, VFun one_fun); (224, VQuery 224); (223, VQuery 223); (222, VQuery 222);
   (221, VQuery 221); (220, VAddS 218 (Fopp F1)); (218, VSub 216 217); (217, VMulS 213 c9); (216, VMul 123 213); (215, VMul 214 124); (214, VMul 213 126); (213, VQuery 213); (212, VAddS 210 (Fopp F1)); (210, VSub 208 209);
   (209, VMulS 205 c9); (208, VMul 0 205); (207, VMul 206 15); (206, VMul 205 204); (205, VQuery 205); (204, VFun one_fun); (203, VAddS 201 (Fopp F1)); (201, VSub 199 200); (200, VMulS 196 c8); (199, VMul 123 196);
   (198, VMul 197 124); (197, VMul 196 125); (196, VQuery 196); (195, VAddS 193 (Fopp F1)); (193, VSub 191 192); (192, VMulS 188 c8); (191, VMul 0 188); (190, VMul 189 13); (189, VMul 188 187); (188, VQuery 188);
   (187, VFun one_fun); (186, VMul 125 126); (185, VSub 184 124); (184, VMul 183 182); (183, VMul 162 124); (182, VQuery 182); (181, VAddS 179 (Fopp F1)); (179, VSub 177 178); (178, VMulS 174 c7); (177, VMul 6 174);
   (176, VMul 175 163); (175, VMul 174 164); (174, VQuery 174); (173, VAddS 171 (Fopp F1)); (171, VSub 169 170); (170, VMulS 166 c7); (169, VMul 162 166); (168, VMul 167 157); (167, VMul 166 165); (166, VQuery 166);
   (165, VFun one_fun); (164, VQuery 164); (163, VFun one_fun); (162, VSub 161 157); (161, VAddS 159 F1); (159, VMul 157 158); (158, VSub 129 123); (157, VFun (mle_fun (mkMle 1 [F1; F0]))); (156, VAddS 154 (Fopp F1)); (154, VSub 152 153);
   (153, VMulS 149 c6); (152, VMul 133 149); (151, VMul 150 130); (150, VMul 149 140); (149, VQuery 149); (148, VAddS 146 (Fopp F1)); (146, VSub 144 145); (145, VMulS 141 c6); (144, VMul 132 141); (143, VMul 142 130);
   (142, VMul 141 140); (141, VQuery 141); (140, VFun one_fun); (139, VSub 138 133); (138, VAdd 128 137); (137, VMulS 129 c5); (136, VSub 135 132); (135, VAdd 131 134); (134, VMulS 123 c5); (133, VQuery 133);
   (132, VQuery 132); (131, VFun ordered_fun); (130, VFun one_fun); (129, VQuery 129); (128, VFun (mle_fun (mkMle 1 [F1; F0]))); (127, VFun one_fun); (126, VQuery 126); (125, VQuery 125); (124, VQuery 124); (123, VQuery 123);
   (122, VAddS 120 (Fopp F1)); (120, VSub 118 119); (119, VMulS 115 c4); (118, VMul 25 115); (117, VMul 116 26); (116, VMul 115 28); (115, VQuery 115); (114, VAddS 112 (Fopp F1)); (112, VSub 110 111); (111, VMulS 107 c4);
   (110, VMul 2 107); (109, VMul 108 14); (108, VMul 107 106); (107, VQuery 107); (106, VFun one_fun); (105, VAddS 103 (Fopp F1)); (103, VSub 101 102); (102, VMulS 98 c3); (101, VMul 25 98); (100, VMul 99 26);
   (99, VMul 98 27); (98, VQuery 98); (97, VAddS 95 (Fopp F1)); (95, VSub 93 94); (94, VMulS 90 c3); (93, VMul 0 90); (92, VMul 91 13); (91, VMul 90 89); (90, VQuery 90); (89, VFun one_fun);
   (88, VMul 27 28); (87, VSub 86 26); (86, VMul 85 84); (85, VMul 64 26); (84, VQuery 84); (83, VAddS 81 (Fopp F1)); (81, VSub 79 80); (80, VMulS 76 c2); (79, VMul 6 76); (78, VMul 77 65);
   (77, VMul 76 66); (76, VQuery 76); (75, VAddS 73 (Fopp F1)); (73, VSub 71 72); (72, VMulS 68 c2); (71, VMul 64 68); (70, VMul 69 59); (69, VMul 68 67); (68, VQuery 68); (67, VFun one_fun);
   (66, VQuery 66); (65, VFun one_fun); (64, VSub 63 59); (63, VAddS 61 F1); (61, VMul 59 60); (60, VSub 31 25); (59, VFun (mle_fun (mkMle 1 [F1; F0]))); (58, VAddS 56 (Fopp F1)); (56, VSub 54 55); (55, VMulS 51 c1);
   (54, VMul 35 51); (53, VMul 52 32); (52, VMul 51 42); (51, VQuery 51); (50, VAddS 48 (Fopp F1)); (48, VSub 46 47); (47, VMulS 43 c1); (46, VMul 34 43); (45, VMul 44 32); (44, VMul 43 42);
   (43, VQuery 43); (42, VFun one_fun); (41, VSub 40 35); (40, VAdd 30 39); (39, VMulS 31 c0); (38, VSub 37 34); (37, VAdd 33 36); (36, VMulS 25 c0); (35, VQuery 35); (34, VQuery 34);
   (33, VFun ordered_fun); (32, VFun one_fun); (31, VQuery 31); (30, VFun (mle_fun (mkMle 1 [F1; F0]))); (29, VFun one_fun); (28, VQuery 28); (27, VQuery 27); (26, VQuery 26); (25, VQuery 25); (24, VMul 5 23);
   (23, VAddS 21 F1); (21, VMulS 5 (Fopp F1)); (20, VMul 4 19); (19, VAddS 17 F1); (17, VMulS 4 (Fopp F1)); (16, VMul 3 12); (15, VMul 1 9); (14, VMul 3 5); (13, VMul 1 4); (12, VAddS 10 F1);
   (10, VMulS 5 (Fopp F1)); (9, VAddS 7 F1); (7, VMulS 4 (Fopp F1)); (6, VQuery 6); (5, VQuery 5); (4, VQuery 4); (3, VQuery 3); (2, VQuery 2); (1, VQuery 1); (0, VQuery 0)].
Lemma wj_seen : forall vk c0 c1 c2 c3 c4 c5 c6 c7 c8 c9 c10 c11 c12 c13 c14 c15 c16, option_map seen (wj_run vk [c0; c1; c2; c3; c4; c5; c6; c7; c8; c9; c10; c11; c12; c13; c14; c15; c16]) =
  Some ([(6, VQuery 6); (5, VQuery 5); (4, VQuery 4); (3, VQuery 3); (2, VQuery 2); (1, VQuery 1); (0, VQuery 0)], wj_virt c0 c1 c2 c3 c4 c5 c6 c7 c8 c9 c10 c11 c12 c13 c14 c15 c16, [20; 24; 50; 58; 38; 41; 75; 83; 87; 88; 97; 105; 114; 122; 148; 156; 136; 139; 173; 181; 185; 186; 195; 203; 212; 220; 246; 254; 234; 237; 271; 279; 283; 284; 293; 301; 310; 318; 328; 336; 346; 354], [45; 53; 70; 78; 92; 100; 109; 117; 143; 151; 168; 176; 190; 198; 207; 215; 241; 249; 266; 274; 288; 296; 305; 313; 323; 331; 341; 349], wy_cp [0; 1; 2; 3; 4; 5; 6; 25; 26; 27; 28; 31; 34; 35; 43; 51; 66; 68; 76; 84; 90; 98; 107; 115; 123; 124; 125; 126; 129; 132; 133; 141; 149; 164; 166; 174; 182; 188; 196; 205; 213; 221; 222; 223; 224; 227; 230; 231; 239; 247; 262; 264; 272; 280; 286; 294; 303; 311; 319; 321; 329; 337; 339; 347] [45; 53; 70; 78; 92; 100; 109; 117; 143; 151; 168; 176; 190; 198; 207; 215; 241; 249; 266; 274; 288; 296; 305; 313; 323; 331; 341; 349], [c0; c1; c2; c3; c4; c5; c6; c7; c8; c9; c10; c11; c12; c13; c14; c15; c16]).
Proof. intros. match goal with |- _ = ?b => vm_cast_no_check (eq_refl b) end. Qed.
Lemma wj_got : forall vk c0 c1 c2 c3 c4 c5 c6 c7 c8 c9 c10 c11 c12 c13 c14 c15 c16, option_map (fun r => received_ids (fst r) (snd r)) (wj_run vk [c0; c1; c2; c3; c4; c5; c6; c7; c8; c9; c10; c11; c12; c13; c14; c15; c16]) = Some [25; 26; 27; 28; 31; 34; 35; 43; 51; 66; 68; 76; 84; 90; 98; 107; 115; 123; 124; 125; 126; 129; 132; 133; 141; 149; 164; 166; 174; 182; 188; 196; 205; 213; 221; 222; 223; 224; 227; 230; 231; 239; 247; 262; 264; 272; 280; 286; 294; 303; 311; 319; 321; 329; 337; 339; 347].
Proof. intros. match goal with |- _ = ?b => vm_cast_no_check (eq_refl b) end. Qed.
Example C67_ex_join : forall vk st, (forall gs, length gs = 17 -> exists u, final (wj_run vk gs) = Some u) /\
  ~ (boolean [i1009 1] /\ boolean [i1009 1] /\ marks [i1009 3] [i1009 1] [i1009 1] [i1009 3] [i1009 1] /\ marks [i1009 3] [i1009 1] [i1009 1] [i1009 3] [i1009 1]) /\
  count (passes_after 17 st (fun gs => truthful 72 [0; 1; 2; 3; 4; 5; 6; 25; 26; 27; 28; 31; 34; 35; 43; 51; 66; 68; 76; 84; 90; 98; 107; 115; 123; 124; 125; 126; 129; 132; 133; 141; 149; 164; 166; 174; 182; 188; 196; 205; 213; 221; 222; 223; 224; 227; 230; 231; 239; 247; 262; 264; 272; 280; 286; 294; 303; 311; 319; 321; 329; 337; 339; 347] (wj_tab gs)) (fun gs => final (wj_run vk gs))) (allV 1009 (17 + (72 + 1))) <= 102 * fsize 1009 ^ 89.
Proof.
  intros vk st. assert (Hno : ~ (boolean [i1009 1] /\ boolean [i1009 1] /\ marks [i1009 3] [i1009 1] [i1009 1] [i1009 3] [i1009 1] /\ marks [i1009 3] [i1009 1] [i1009 1] [i1009 3] [i1009 1])).
  { intros [_ [_ [H _]]]. destruct (H 0 ltac:(repeat constructor) ltac:(discriminate)) as [[_ X]|[X _]]; [apply X; vm_compute; left; reflexivity|discriminate X]. }
  split; [|split; [exact Hno|]].
  - intros [|c0 [|c1 [|c2 [|c3 [|c4 [|c5 [|c6 [|c7 [|c8 [|c9 [|c10 [|c11 [|c12 [|c13 [|c14 [|c15 [|c16 [|? ?]]]]]]]]]]]]]]]]]] Hk; try discriminate Hk. clear Hk. pose proof (wj_seen vk c0 c1 c2 c3 c4 c5 c6 c7 c8 c9 c10 c11 c12 c13 c14 c15 c16) as S. destruct (wj_run vk [c0; c1; c2; c3; c4; c5; c6; c7; c8; c9; c10; c11; c12; c13; c14; c15; c16]) as [[v u]|]; [exists u; reflexivity|discriminate S].
  - refine (C67_join 1009 E1009 prime_1009 _ (fun gs => rd (wj_tab gs)) 1 3 4 72 st (fun gs => truthful 72 [0; 1; 2; 3; 4; 5; 6; 25; 26; 27; 28; 31; 34; 35; 43; 51; 66; 68; 76; 84; 90; 98; 107; 115; 123; 124; 125; 126; 129; 132; 133; 141; 149; 164; 166; 174; 182; 188; 196; 205; 213; 221; 222; 223; 224; 227; 230; 231; 239; 247; 262; 264; 272; 280; 286; 294; 303; 311; 319; 321; 329; 337; 339; 347] (wj_tab gs)) (fun gs => final (wj_run vk gs)) true (mkBagc 0 1 0) (mkBagc 2 3 0) 4 5 (mkBagc 6 1 1) [i1009 3] [i1009 1] [i1009 3] [i1009 1] [i1009 1] [i1009 1] (k2 0 1) wj_sent _ _ _ _ _ _ _ _ Hno);
      [apply Nat.ltb_lt; reflexivity|repeat constructor|apply Nat.ltb_lt; reflexivity|apply Nat.ltb_lt; reflexivity|constructor|constructor; [right; reflexivity|constructor]|constructor; [right; reflexivity|constructor]|
       exists 1; split; [constructor; [exists 0; split; [repeat constructor|reflexivity]|constructor; [exists 1; split; [repeat constructor|reflexivity]|constructor]]|reflexivity]|].
    intros [|c0 [|c1 [|c2 [|c3 [|c4 [|c5 [|c6 [|c7 [|c8 [|c9 [|c10 [|c11 [|c12 [|c13 [|c14 [|c15 [|c16 [|? ?]]]]]]]]]]]]]]]]]] u Hk; try discriminate Hk. clear Hk. intros Hu.
    destruct (session_meets 60 (wj_tab [c0; c1; c2; c3; c4; c5; c6; c7; c8; c9; c10; c11; c12; c13; c14; c15; c16]) _ _ _ _ _ 3 4 72 [0; 1; 2; 3; 4; 5; 6; 25; 26; 27; 28; 31; 34; 35; 43; 51; 66; 68; 76; 84; 90; 98; 107; 115; 123; 124; 125; 126; 129; 132; 133; 141; 149; 164; 166; 174; 182; 188; 196; 205; 213; 221; 222; 223; 224; 227; 230; 231; 239; 247; 262; 264; 272; 280; 286; 294; 303; 311; 319; 321; 329; 337; 339; 347] _ _ _ _ _ _ _ (wj_is vk [c0; c1; c2; c3; c4; c5; c6; c7; c8; c9; c10; c11; c12; c13; c14; c15; c16]) (wj_seen vk c0 c1 c2 c3 c4 c5 c6 c7 c8 c9 c10 c11 c12 c13 c14 c15 c16) Hu) as [C [Q [v [Ha [V0 [_ V2]]]]]];
      [reflexivity|reflexivity|reflexivity|vm_compute; reflexivity|wclos|].
    pose proof (wj_got vk c0 c1 c2 c3 c4 c5 c6 c7 c8 c9 c10 c11 c12 c13 c14 c15 c16) as V3. rewrite V2 in V3. cbn [option_map fst snd] in V3. injection V3 as V3.
    split; [exact C|]. split; [intros ch; apply Q|]. exists v, u. split; [exact Ha|].
    split; [split; [exact (rd_const (wj_tab [c0; c1; c2; c3; c4; c5; c6; c7; c8; c9; c10; c11; c12; c13; c14; c15; c16]) v 0 (i1009 3) ltac:(rewrite V0; reflexivity) eq_refl)|exact (rd_const (wj_tab [c0; c1; c2; c3; c4; c5; c6; c7; c8; c9; c10; c11; c12; c13; c14; c15; c16]) v 1 (i1009 1) ltac:(rewrite V0; reflexivity) eq_refl)]|].
    split; [split; [exact (rd_const (wj_tab [c0; c1; c2; c3; c4; c5; c6; c7; c8; c9; c10; c11; c12; c13; c14; c15; c16]) v 2 (i1009 3) ltac:(rewrite V0; reflexivity) eq_refl)|exact (rd_const (wj_tab [c0; c1; c2; c3; c4; c5; c6; c7; c8; c9; c10; c11; c12; c13; c14; c15; c16]) v 3 (i1009 1) ltac:(rewrite V0; reflexivity) eq_refl)]|].
    split; [exact (rd_const (wj_tab [c0; c1; c2; c3; c4; c5; c6; c7; c8; c9; c10; c11; c12; c13; c14; c15; c16]) v 4 (i1009 1) ltac:(rewrite V0; reflexivity) eq_refl)|].
    split; [exact (rd_const (wj_tab [c0; c1; c2; c3; c4; c5; c6; c7; c8; c9; c10; c11; c12; c13; c14; c15; c16]) v 5 (i1009 1) ltac:(rewrite V0; reflexivity) eq_refl)|].
    split; [exact (rd_reads (wj_tab [c0; c1; c2; c3; c4; c5; c6; c7; c8; c9; c10; c11; c12; c13; c14; c15; c16]) v 6 ltac:(rewrite V0; reflexivity) eq_refl)|].
    cbv zeta. rewrite V3. split; [split; [repeat (apply Forall_cons; [split; [constructor|reflexivity]|]); apply Forall_nil|split; reflexivity]|]. split; [split; [repeat (apply Forall_cons; [split; [constructor|reflexivity]|]); apply Forall_nil|split; reflexivity]|]. split; [split; [repeat (apply Forall_cons; [split; [constructor|reflexivity]|]); apply Forall_nil|split; reflexivity]|]. split; reflexivity.
Qed.
Print Assumptions C67_ex_join.
