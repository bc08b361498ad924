(** C56, C57: the splits into left, middle and right, on the prover's tracker and as the first step of an intersection. *)
From Coq Require Import String List Arith Bool ZArith Znumtheory Permutation.
Import ListNotations.
From Verif Require Import Res Fp FSum SpecMle SpecPoly SpecTracker SpecIop SpecRel ModelMle ModelTranscript Pairing ModelKzg ModelProver ModelVerifier ModelAdvice ModelIop
  ProverHist VerifierHist SessHist CompileHist IopHist IopRes IopFix IopEx PlanHist SplitProofs MultTracker.
Local Open Scope list_scope.
Local Open Scope nat_scope.

(** The call for two bags of the tracker that are ascending with the selected rows first: it returns four bags, whose columns the tracker reads as the parts of the
    split; no challenge is drawn and no claim made; and a verifier that takes over the eight columns accepts the proof. *)
Theorem C56_bags : forall (p : positive) (E : pairing p), pairing_laws E -> prime (Zpos p) ->
  forall (o : oracle p (gcar (PG1 E))) addr k ck vk ops vops s hs d D, setting o addr k ck vk ops vops s hs d D -> 1 <= D -> d <= D ->
  forall dbg a b al asl bl bsl, bag_stands ops hs a al asl -> bag_stands ops hs b bl bsl -> b_nv a <= k -> b_nv b <= k -> sorted_first al asl -> sorted_first bl bsl ->
  exists s' L MA MB R l ls ma mas mb mbs r rs, bag_lmr_split dbg s a b = Ok ((L, MA, MB, R), s') /\
    bag_reads s' L (b_nv a) l ls /\ bag_reads s' MA (b_nv a) ma mas /\ bag_reads s' MB (b_nv b) mb mbs /\ bag_reads s' R (b_nv b) r rs /\ split_parts al asl bl bsl l ls ma mas mb mbs r rs /\
    drawn (pt_tr s) (pt_tr s') = [] /\ pt_zc s' = pt_zc s /\ pt_sc s' = pt_sc s /\
    accepted o addr vk vops s' (fun debug v => ' (_, v) <- take_over debug v (split_shape a b) ;; Ok v).
Proof. intros p E HE Hp. exact (bags_check HE Hp). Qed.
Print Assumptions C56_bags.

(** Two sets, ascending with the selected rows first, are split and their intersection is proved with the parts. The middle part is the intersection; the proof is
    accepted if the steps of the merged left and right parts are in the range and no challenge is a value that cannot be answered, and it is turned down if a step is
    not in the range and no challenge is unlucky. *)
Theorem C56_intersection : forall (p : positive) (E : pairing p), pairing_laws E -> prime (Zpos p) ->
  forall (o : oracle p (gcar (PG1 E))) addr k ck vk ops vops s hs d D, setting o addr k ck vk ops vops s hs d D -> 1 <= D -> d <= D ->
  forall dbg a b rx al asl bl bsl rl rsl, bag_stands ops hs a al asl -> bag_stands ops hs b bl bsl -> bag_stands ops hs rx rl rsl -> boolean asl -> boolean bsl ->
  sorted_first al asl -> sorted_first bl bsl -> NoDup (rows al asl) -> NoDup (rows bl bsl) -> 1 <= d -> 2 * d + 3 <= D -> let n := Nat.max (b_nv a) (b_nv b) + 1 in n <= k -> 2 ^ n < fsize p ->
  exists s' l ls m ms r rs h1 h2 h g g1 g2 c cs wl, prove_plan o dbg s (split_and_intersect a b rx) = Ok s' /\ drawn (pt_tr s) (pt_tr s') = [h1; h2; h; g; g1; g2] /\
    NoDup (rows m ms) /\ (forall x, In x (rows m ms) <-> In x (rows al asl) /\ In x (rows bl bsl)) /\ Permutation (rows al asl) (rows l ls ++ rows m ms) /\ Permutation (rows bl bsl) (rows m ms ++ rows r rs) /\
    length c = 2 ^ n /\ non_decreasing c /\ Permutation (rows c cs) (rows l ls ++ rows r rs) /\ length wl = length rl /\ counts_of (steps c) rl (combine rl wl) /\
    let verify := verify_plan o (split_and_intersect a b rx) in let avoid := ~ In h1 (l ++ m ++ al) /\ ~ In h2 (m ++ r ++ bl) /\ ~ In h (l ++ r ++ c) /\ sort_avoids n c rl g g1 g2 in
    (avoid -> incl (steps c) rl -> accepted o addr vk vops s' verify) /\
    (~ incl (steps c) rl -> ~ unlucky (combine l ls ++ combine m ms) (combine al asl) h1 -> ~ unlucky (combine m ms ++ combine r rs) (combine bl bsl) h2 -> ~ unlucky (unit_bag (steps c)) (combine rl wl) g2 -> turned_down o addr k vk vops s' verify) /\
    (~ avoid -> refused addr k s').
Proof. intros p E HE Hp. exact (intersect_check HE Hp). Qed.
Print Assumptions C56_intersection.

(** The intersection of {3,5} and {5,x}, with the range 0 to 7: accepted for 6; for 40 a step is out of the range. In the other direction the larger bag is first. *)
Definition sp_tabs (x : Z) : list (nat * list Z) := [(3, [0; 1; 2; 3; 4; 5; 6; 7]%Z); (3, [1; 1; 1; 1; 1; 1; 1; 1]%Z)] ++ [(1, [3; 5]%Z); (1, [1; 1]%Z); (2, [5; x; 0; 0]%Z); (2, [1; 1; 0; 0]%Z)].
Definition sp_run (x : Z) (i j : nat) : option IopFix.outcome :=
  ix_run 3 (commits (sp_tabs x)) (nexts (sp_tabs x)) (fun s hs => prove_plan ix_o true s (split_and_intersect (bag_of hs i) (bag_of hs j) (bag_of hs 0)))
    (fun v ids => let hs := map (fun it => mkTp (fst it) (fst (snd it))) (combine ids (sp_tabs x)) in verify_plan ix_o (split_and_intersect (bag_of hs i) (bag_of hs j) (bag_of hs 0)) true v) (columns (sp_tabs x)).
Example C56_ex_intersection : sp_run 6 2 4 = Some Fine /\ sp_run 6 4 2 = Some Fine /\ sp_run 40 2 4 = Some NotVerified.
Proof. vm_compute. repeat split. Qed.
Print Assumptions C56_ex_intersection.

(** The hypotheses of both theorems are met by the bags of that history. *)
Example C56_ex_bags : exists ck vk s hs, let tabs := sp_tabs 6 in setting ix_o (fun n => n) 3 ck vk (commits tabs) (nexts tabs) s hs 1 30 /\
  (bag_stands (commits tabs) hs (pbag hs 2) (map ofZ [3; 5]%Z) (map ofZ [1; 1]%Z) /\ b_nv (pbag hs 2) = 1) /\
  (bag_stands (commits tabs) hs (pbag hs 4) (map ofZ [5; 6; 0; 0]%Z) (map ofZ [1; 1; 0; 0]%Z) /\ b_nv (pbag hs 4) = 2) /\
  (bag_stands (commits tabs) hs (pbag hs 0) (map ofZ [0; 1; 2; 3; 4; 5; 6; 7]%Z) (map ofZ [1; 1; 1; 1; 1; 1; 1; 1]%Z) /\ b_nv (pbag hs 0) = 3) /\
  sorted_first (map (@ofZ 101) [3; 5]%Z) (map ofZ [1; 1]%Z) /\ sorted_first (map (@ofZ 101) [5; 6; 0; 0]%Z) (map ofZ [1; 1; 0; 0]%Z) /\
  boolean (map (@ofZ 101) [1; 1]%Z) /\ boolean (map (@ofZ 101) [1; 1; 0; 0]%Z) /\
  NoDup (rows (map (@ofZ 101) [3; 5]%Z) (map ofZ [1; 1]%Z)) /\ NoDup (rows (map (@ofZ 101) [5; 6; 0; 0]%Z) (map ofZ [1; 1; 0; 0]%Z)).
Proof.
  destruct (ex_bags 3 (sp_tabs 6) ltac:(vm_compute; reflexivity)) as [ck [vk [s [hs [H1 H2]]]]]. exists ck, vk, s, hs. cbv zeta. split; [exact H1|]. split; [exact (H2 2 1 _ _ eq_refl eq_refl)|]. split; [exact (H2 4 2 _ _ eq_refl eq_refl)|]. split; [exact (H2 0 3 _ _ eq_refl eq_refl)|].
  assert (S : forall n l sl, length l = n -> forallb (fun j => forallb (fun i => Feqb (p:=101) (nth j sl F0) F0 || (negb (Feqb (nth i sl F0) F0) && (val (nth i l F0) <=? val (nth j l F0))%Z)) (seq 0 j)) (seq 0 n) = true -> sorted_first l sl).
  { intros n l sl Hl H i j Hij Hj Hs. rewrite forallb_forall in H. specialize (H j ltac:(apply in_seq; rewrite <- Hl; split; [apply Nat.le_0_l|exact Hj])). rewrite forallb_forall in H. specialize (H i ltac:(apply in_seq; split; [apply Nat.le_0_l|exact Hij])).
    apply orb_prop in H. destruct H as [H|H]; [apply Feqb_eq in H; contradiction|]. apply andb_prop in H. destruct H as [A B]. split; [intros Q; rewrite Q in A; vm_compute in A; discriminate|apply Z.leb_le; exact B]. }
  split; [apply (S 2); vm_compute; reflexivity|]. split; [apply (S 4); vm_compute; reflexivity|].
  split; [repeat (constructor; [first [left; apply Fp.val_inj; vm_compute; reflexivity|right; apply Fp.val_inj; vm_compute; reflexivity]|]); constructor|].
  split; [repeat (constructor; [first [left; apply Fp.val_inj; vm_compute; reflexivity|right; apply Fp.val_inj; vm_compute; reflexivity]|]); constructor|].
  split; (eapply (NoDup_map_inv (@val 101)); vm_compute; repeat constructor; cbn; intuition discriminate).
Qed.
Print Assumptions C56_ex_bags.

(** ** C57: the split with multiplicities, on the tracker *)

(** What is right: for ascending bags with the selected rows first, the middle part of a split that returns has each common value once, with its numbers of rows in the two
    bags in the two multiplicity columns. *)
Theorem C57_middle : forall (p : positive) (E : pairing p), pairing_laws E -> prime (Zpos p) ->
  forall (o : oracle p (gcar (PG1 E))) addr k ck vk ops vops s hs d D, setting o addr k ck vk ops vops s hs d D -> 1 <= D -> d <= D ->
  forall dbg a b al asl bl bsl, bag_stands ops hs a al asl -> bag_stands ops hs b bl bsl -> Nat.max (b_nv a) (b_nv b) <= k -> sorted_first al asl -> sorted_first bl bsl ->
  forall s' L M R lm am bm rm, bag_lmr_multiplicity_split dbg s a b = Ok ((L, M, R, (lm, am, bm, rm)), s') ->
  let n := Nat.max (b_nv a) (b_nv b) in exists vals, ascending vals /\ (forall x, In x vals <-> In x (rows al asl) /\ In x (rows bl bsl)) /\ length vals <= 2 ^ n /\ let pad := repeat F0 (2 ^ n - length vals) in
    bag_reads s' M n (vals ++ pad) (repeat F1 (length vals) ++ pad) /\
    bag_reads s' (mkBag am bm) n (map (fun x => ofN (count_occ F_dec (rows al asl) x)) vals ++ pad) (map (fun x => ofN (count_occ F_dec (rows bl bsl) x)) vals ++ pad).
Proof. intros p E HE Hp. exact (mult_middle HE). Qed.
Print Assumptions C57_middle.

(** What is not: a left bag that starts with a smaller value than the right one. The left part that the tracker then holds starts with another value. *)
Theorem C57_bags_refuted : forall (p : positive) (E : pairing p), pairing_laws E -> prime (Zpos p) ->
  forall (o : oracle p (gcar (PG1 E))) addr k ck vk ops vops s hs d D, setting o addr k ck vk ops vops s hs d D -> 1 <= D -> d <= D ->
  forall dbg a b al asl bl bsl, bag_stands ops hs a al asl -> bag_stands ops hs b bl bsl -> Nat.max (b_nv a) (b_nv b) <= k -> rows al asl <> [] -> rows bl bsl <> [] -> (val (nth 0 al F0) < val (nth 0 bl F0))%Z ->
  forall s' L M R ms, bag_lmr_multiplicity_split dbg s a b = Ok ((L, M, R, ms), s') -> exists lc lsc, bag_reads s' L (b_nv a) lc lsc /\ nth 0 lc F0 <> nth 0 al F0.
Proof. intros p E HE Hp. exact (mult_left HE). Qed.
Print Assumptions C57_bags_refuted.

(** (1,2,2,3) and (2,3,4), padded with zeros: the call returns, and its ten columns can be taken over and the proof accepted. The middle is (2,3), twice and once in the
    first bag; the left part is (2) instead of (1). *)
Definition ml_tabs : list (nat * list Z) := [(3, [1; 2; 2; 3; 0; 0; 0; 0]%Z); (3, [1; 1; 1; 1; 0; 0; 0; 0]%Z); (2, [2; 3; 4; 0]%Z); (2, [1; 1; 1; 0]%Z)].
Example C57_ex_bags : ix_run 3 (commits ml_tabs) (nexts ml_tabs) (fun s hs => ' (_, s) <- bag_lmr_multiplicity_split true s (bag_of hs 0) (bag_of hs 2) ;; Ok s)
    (fun v ids => ' (_, v) <- take_over true v [3; 3; 3; 3; 2; 2; 3; 3; 3; 2] ;; Ok v) (columns ml_tabs) = Some Fine /\
  match lmr_multiplicity_split 3 2 (map (@ofZ 101) [1; 2; 2; 3; 0; 0; 0; 0]%Z) (map ofZ [1; 1; 1; 1; 0; 0; 0; 0]%Z) (map ofZ [2; 3; 4; 0]%Z) (map ofZ [1; 1; 1; 0]%Z) with
  | Ok ((l, _), (m, _), _, (_, am, bm, _)) => Some (map val (evs l), map val (evs m), map val (evs am), map val (evs bm)) | _ => None end
  = Some ([2; 0; 0; 0; 0; 0; 0; 0], [2; 3; 0; 0; 0; 0; 0; 0], [2; 1; 0; 0; 0; 0; 0; 0], [1; 1; 0; 0; 0; 0; 0; 0])%Z.
Proof. vm_compute. split; reflexivity. Qed.
Example C57_ex_stands : exists ck vk s hs, setting ix_o (fun n => n) 3 ck vk (commits ml_tabs) (nexts ml_tabs) s hs 1 30 /\
  (bag_stands (commits ml_tabs) hs (pbag hs 0) (map ofZ [1; 2; 2; 3; 0; 0; 0; 0]%Z) (map ofZ [1; 1; 1; 1; 0; 0; 0; 0]%Z) /\ b_nv (pbag hs 0) = 3) /\
  (bag_stands (commits ml_tabs) hs (pbag hs 2) (map ofZ [2; 3; 4; 0]%Z) (map ofZ [1; 1; 1; 0]%Z) /\ b_nv (pbag hs 2) = 2) /\
  sorted_first (map (@ofZ 101) [1; 2; 2; 3; 0; 0; 0; 0]%Z) (map ofZ [1; 1; 1; 1; 0; 0; 0; 0]%Z) /\ sorted_first (map (@ofZ 101) [2; 3; 4; 0]%Z) (map ofZ [1; 1; 1; 0]%Z).
Proof.
  destruct (ex_bags 3 ml_tabs ltac:(vm_compute; reflexivity)) as [ck [vk [s [hs [H1 H2]]]]]. exists ck, vk, s, hs. split; [exact H1|]. split; [exact (H2 0 3 _ _ eq_refl eq_refl)|]. split; [exact (H2 2 2 _ _ eq_refl eq_refl)|].
  assert (S : forall n l sl, length l = n -> forallb (fun j => forallb (fun i => Feqb (p:=101) (nth j sl F0) F0 || (negb (Feqb (nth i sl F0) F0) && (val (nth i l F0) <=? val (nth j l F0))%Z)) (seq 0 j)) (seq 0 n) = true -> sorted_first l sl).
  { intros n l sl Hl H i j Hij Hj Hs. rewrite forallb_forall in H. specialize (H j ltac:(apply in_seq; rewrite <- Hl; split; [apply Nat.le_0_l|exact Hj])). rewrite forallb_forall in H. specialize (H i ltac:(apply in_seq; split; [apply Nat.le_0_l|exact Hij])).
    apply orb_prop in H. destruct H as [H|H]; [apply Feqb_eq in H; contradiction|]. apply andb_prop in H. destruct H as [A B]. split; [intros Q; rewrite Q in A; vm_compute in A; discriminate|apply Z.leb_le; exact B]. }
  split; [apply (S 8); vm_compute; reflexivity|apply (S 4); vm_compute; reflexivity].
Qed.
