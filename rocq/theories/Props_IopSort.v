(** C45, C46: prescribed permutations and strictly sorted bags. *)
From Coq Require Import String List Arith Bool ZArith Znumtheory Permutation Lia.
Import ListNotations.
From Verif Require Import Res Fp FSum SpecMle SpecPoly SpecTracker SpecIop ModelMle ModelTranscript Pairing ModelKzg ModelProver ModelVerifier ModelAdvice ModelIop
  ProverHist VerifierHist SessHist CompileHist IopHist SortSound IopCheck IopClaims IopFix SessProofs.
Local Open Scope list_scope.
Local Open Scope nat_scope.

Local Notation "'i' n" := (@ofZ 101 n%Z) (at level 9).
Local Definition th (hs : list tpoly) (n : nat) : tpoly := nth n hs (mkTp 0 0).
Local Definition vth (ids : list nat) (n : nat) : nat := nth n ids 0.
(** A history that commits to the given tables, and its counterpart. *)
Local Definition commits (ts : list (nat * list Z)) : list (pop 101) := map (fun t => OCommit (fst t) (map ofZ (snd t))) ts.
Local Definition nexts (ts : list (nat * list Z)) : list (vop E101) := map (fun _ => VONext) ts.
Local Definition columns (ts : list (nat * list Z)) : list (nat * nat * list (F 101)) := map (fun t => (fst t, fst (snd t), map ofZ (snd (snd t)))) (combine (seq 0 (length ts)) ts).

(** ** C45: prescribed permutations *)

(** Two challenges are drawn: one folds the pairs (index, value) and (prescribed index, value), the other compares the folded bags. (The selectors of the two bags
    play no part.) *)
Theorem C45_prover : forall (p : positive) (E : pairing p), pairing_laws E -> prime (Zpos p) ->
  forall (o : oracle p (gcar (PG1 E))) addr k ck vk ops vops s hs d D, setting o addr k ck vk ops vops s hs d D -> 1 <= D -> d <= D ->
  forall dbg fx gx perm l sl l' sl' pl, bag_stands ops hs fx l sl -> bag_stands ops hs gx l' sl' -> stands ops hs perm pl -> b_nv fx = b_nv gx -> b_nv fx = tp_nv perm ->
  1 <= d -> 2 * d + 1 <= D ->
  exists s' g g', presc_perm_prove o dbg s fx gx perm = Ok s' /\ drawn (pt_tr s) (pt_tr s') = [g; g'] /\
    let verify debug v := presc_perm_verify o debug v (comm_of fx) (comm_of gx) (tp_id perm) in
    let a := combine (index_column (b_nv fx)) l in let b := combine pl l' in
    (~ In g' (folded g a ++ folded g b) -> length l < fsize p ->
      (Permutation a b -> accepted o addr vk vops s' verify) /\
      (~ Permutation a b -> ~ clash a b g -> ~ unlucky (unit_bag (folded g a)) (unit_bag (folded g b)) g' -> rejected o addr vk vops s' verify IOPInvalidVerifier)) /\
    (In g' (folded g a ++ folded g b) -> refused addr k s').
Proof. intros p E HE Hp. exact (presc_perm_check HE Hp). Qed.
Print Assumptions C45_prover.

(** Whatever the prover committed to: true claims make the prescribed column a permutation of the indices, and the second bag the first one permuted by it, unless
    the first challenge folds two different pairs to one value or the second is unlucky. *)
Theorem C45_verifier : forall (p : positive) (E : pairing p) (o : oracle p (gcar (PG1 E))), prime (Zpos p) -> 2 < fsize p ->
  forall v v' v'', in_session o v -> vcalls o v' v'' ->
  forall A N, claims_hold A N v'' -> forall dbg fx gx perm l l' pl, presc_perm_verify o dbg v fx gx perm = Ok v' -> bc_nv fx = bc_nv gx ->
  reads A N v (bc_poly fx) (bc_nv fx) l -> reads A N v (bc_poly gx) (bc_nv gx) l' -> reads A N v perm (bc_nv fx) pl -> index_over A v v' (bc_nv fx) -> length l < fsize p ->
  exists g g', drawn (vt_tr v) (vt_tr v') = [g; g'] /\
    let a := combine (index_column (bc_nv fx)) l in let b := combine pl l' in
    ~ In g' (folded g a ++ folded g b) /\
    (~ clash a b g -> ~ unlucky (unit_bag (folded g a)) (unit_bag (folded g b)) g' ->
      Permutation pl (index_column (bc_nv fx)) /\ forall j, j < length l' -> exists r, r < length l /\ nth j pl F0 = ofN r /\ nth j l' F0 = nth r l F0).
Proof. intros p E o Hp H2 v v' v'' HV HL A N HC. exact (presc_perm_claims o Hp H2 v v' v'' A N (session_ready o Hp H2 v HV) (vcalls_go o Hp H2 v' v'' HL) HC). Qed.
Print Assumptions C45_verifier.

(** At most quadratically many challenges fold two different pairs to one value. *)
Theorem C45_few_clashes : forall (p : positive), prime (Zpos p) -> forall (a b : list (F p * F p)) gs, NoDup gs -> Forall (clash a b) gs ->
  length gs <= (length a + length b) * (length a + length b).
Proof. intros p Hp. exact (clash_few Hp). Qed.
Print Assumptions C45_few_clashes.

(** (8,9,9,5) permuted by (3,0,2,1) is (5,8,9,9); by (3,0,1,1) it is not. *)
Definition px_tabs (y : Z) : list (nat * list Z) := [(2, [8; 9; 9; 5]%Z); (2, [1; 1; 1; 1]%Z); (2, [5; 8; 9; 9]%Z); (2, [1; 1; 1; 1]%Z); (2, [3; 0; 2; y]%Z)].
Definition px_run (y : Z) : option outcome :=
  ix_run 2 (commits (px_tabs y)) (nexts (px_tabs y)) (fun s hs => presc_perm_prove ix_o false s (mkBag (th hs 0) (th hs 1)) (mkBag (th hs 2) (th hs 3)) (th hs 4))
    (fun v ids => presc_perm_verify ix_o true v (mkBagc (vth ids 0) (vth ids 1) 2) (mkBagc (vth ids 2) (vth ids 3) 2) (vth ids 4)) (columns (px_tabs y)).
Example C45_ex : px_run 1 = Some Fine /\ px_run 2 = Some NotVerified.
Proof. vm_compute. repeat split. Qed.
Example C45_ex_verifier : exists vk cp v ids v' A N, vrun ix_o true vk cp (nexts (px_tabs 1)) = Ok (v, ids) /\
  presc_perm_verify ix_o true v (mkBagc (vth ids 0) (vth ids 1) 2) (mkBagc (vth ids 2) (vth ids 3) 2) (vth ids 4) = Ok v' /\ claims_hold A N v' /\
  (forall id n l, In (id, n, l) (columns (px_tabs 1)) -> reads A N v id n l) /\ index_over A v v' 2.
Proof. eapply ix_fine_index; [lia|exact (proj1 C45_ex)|vm_compute; reflexivity]. Qed.

(** ** C46: strictly sorted bags *)

(** Three challenges are drawn. Off their bad values, a bag whose steps lie in the range, with selected rows different from their successors, is accepted; a step
    outside the range is rejected, and a selected row equal to its successor makes a debug prover refuse to compile. *)
Theorem C46_prover : forall (p : positive) (E : pairing p), pairing_laws E -> prime (Zpos p) ->
  forall (o : oracle p (gcar (PG1 E))) addr k ck vk ops vops s hs d D, setting o addr k ck vk ops vops s hs d D -> 1 <= D -> d <= D ->
  forall dbg fx rx l sl rl rsl, bag_stands ops hs fx l sl -> bag_stands ops hs rx rl rsl -> 1 <= d -> 2 * d + 3 <= D ->
  exists s' g g1 g2 ml, strict_sort_prove o dbg s fx rx = Ok s' /\ drawn (pt_tr s) (pt_tr s') = [g; g1; g2] /\ length ml = length rl /\ counts_of (steps l) rl (combine rl ml) /\
    let verify debug v := strict_sort_verify o debug v (comm_of fx) (comm_of rx) in
    let avoid := ~ In g1 (folded g (combine (index_column (b_nv fx)) l)) /\ ~ In g2 (F1 :: steps l ++ rl) in
    let strict := forall r, S r < length l -> nth r sl F0 <> F0 -> nth (S r) l F0 <> nth r l F0 in
    (avoid -> sorted_by rl l sl -> length l < fsize p -> accepted o addr vk vops s' verify) /\
    (avoid -> strict -> ~ incl (steps l) rl -> length l < fsize p -> ~ unlucky (unit_bag (steps l)) (combine rl ml) g2 -> rejected o addr vk vops s' verify IOPInvalidVerifier) /\
    (~ (avoid /\ strict) -> refused addr k s').
Proof. intros p E HE Hp. exact (strict_sort_check HE Hp). Qed.
Print Assumptions C46_prover.

(** Whatever the prover committed to: true claims sort the bag, unless the challenges are unlucky for the two polynomials the prover added (under the ids [q], [m]). *)
Theorem C46_verifier : forall (p : positive) (E : pairing p) (o : oracle p (gcar (PG1 E))), prime (Zpos p) -> 2 < fsize p ->
  forall v v' v'', in_session o v -> vcalls o v' v'' ->
  forall A N, claims_hold A N v'' -> forall dbg fx rx l sl rl, strict_sort_verify o dbg v fx rx = Ok v' -> 2 ^ N < fsize p ->
  reads A N v (bc_poly fx) (bc_nv fx) l -> reads A N v (bc_sel fx) (bc_nv fx) sl -> reads A N v (bc_poly rx) (bc_nv rx) rl ->
  exists g g1 g2 q m, drawn (vt_tr v) (vt_tr v') = [g; g1; g2] /\ mget (vt_virt v) q = None /\ mget (vt_virt v') q = Some (VQuery q) /\ mget (vt_virt v) m = None /\ mget (vt_virt v') m = Some (VQuery m) /\
    (sort_lucky A N (bc_nv fx) (bc_nv rx) q m l rl g g1 g2 -> sorted_by rl l sl).
Proof. intros p E o Hp H2 v v' v'' HV HL A N HC. exact (strict_sort_claims o Hp H2 v v' v'' A N (session_ready o Hp H2 v HV) (vcalls_go o Hp H2 v' v'' HL) HC). Qed.
Print Assumptions C46_verifier.

(** A sorted bag over a range of small numbers has no selected row twice. *)
Theorem C46_distinct : forall (p : positive) B (rl l sl : list (F p)), length l = length sl -> at_most B rl -> (Z.of_nat ((length l - 1) * B) < Zpos p)%Z -> sorted_by rl l sl -> NoDup (rows l sl).
Proof. exact @sorted_nodup. Qed.
Print Assumptions C46_distinct.

(** When nothing can wrap around, it is sorted as integers, and selected rows are less than all later ones. *)
Theorem C46_integers : forall (p : positive) B (rl l sl : list (F p)), at_most B rl -> sorted_by rl l sl -> (val (nth 0 l F0) + Z.of_nat ((length l - 1) * B) < Zpos p)%Z ->
  forall r j, r < j -> j < length l -> (val (nth r l F0) <= val (nth j l F0))%Z /\ (nth r sl F0 <> F0 -> (val (nth r l F0) < val (nth j l F0))%Z).
Proof. exact @sorted_increasing. Qed.
Print Assumptions C46_integers.

(** The bag (3,5,6,y) with the range (0,1,2,3). *)
Definition bx_tabs (x y : Z) : list (nat * list Z) := [(2, [x; 5; 6; y]%Z); (2, [1; 1; 1; 1]%Z); (2, [0; 1; 2; 3]%Z); (2, [1; 1; 1; 1]%Z)].
Definition bx_run (x y : Z) : option outcome :=
  ix_run 2 (commits (bx_tabs x y)) (nexts (bx_tabs x y)) (fun s hs => strict_sort_prove ix_o false s (mkBag (th hs 0) (th hs 1)) (mkBag (th hs 2) (th hs 3)))
    (fun v ids => strict_sort_verify ix_o true v (mkBagc (vth ids 0) (vth ids 1) 2) (mkBagc (vth ids 2) (vth ids 3) 2)) (columns (bx_tabs x y)).
Example C46_ex : bx_run 3 9 = Some Fine /\ bx_run 3 10 = Some NotVerified /\ bx_run 3 6 = Some NotCompiled.
Proof. vm_compute. repeat split. Qed.
Example C46_ex_verifier : exists vk cp v ids v' A N, vrun ix_o true vk cp (nexts (bx_tabs 3 9)) = Ok (v, ids) /\
  strict_sort_verify ix_o true v (mkBagc (vth ids 0) (vth ids 1) 2) (mkBagc (vth ids 2) (vth ids 3) 2) = Ok v' /\ claims_hold A N v' /\
  forall id n l, In (id, n, l) (columns (bx_tabs 3 9)) -> reads A N v id n l.
Proof. exact (ix_fine _ _ _ _ _ _ (proj1 C46_ex)). Qed.
Example C46_ex_sorted : sorted_by (map ofZ [0; 1; 2; 3]%Z) [i 3; i 5; i 6; i 9] [i 1; i 1; i 1; i 1] /\ at_most 3 (map (@ofZ 101) [0; 1; 2; 3]%Z) /\ (val (i 3) + Z.of_nat ((4 - 1) * 3) < 101)%Z.
Proof.
  split; [|split].
  - intros [|[|[|j]]] H; cbn in H; try lia; (split; [vm_compute; tauto|intros _ Q; apply (f_equal val) in Q; vm_compute in Q; discriminate]).
  - repeat constructor; [exists 0|exists 1|exists 2|exists 3]; (split; [lia|apply val_inj; reflexivity]).
  - vm_compute. reflexivity.
Qed.

(** Refuted: "an accepted bag is sorted as integers". The bag (99, 0, 1, 2) over the range (0,1,2,3) modulo 101 is accepted, and the claims are true. *)
Definition wrap_tabs : list (nat * list Z) := [(2, [99; 0; 1; 2]%Z); (2, [1; 1; 1; 1]%Z); (2, [0; 1; 2; 3]%Z); (2, [1; 1; 1; 1]%Z)].
Definition wrap_run : option outcome := ix_run 2 (commits wrap_tabs) (nexts wrap_tabs)
  (fun s hs => strict_sort_prove ix_o true s (mkBag (th hs 0) (th hs 1)) (mkBag (th hs 2) (th hs 3)))
  (fun v ids => strict_sort_verify ix_o true v (mkBagc (vth ids 0) (vth ids 1) 2) (mkBagc (vth ids 2) (vth ids 3) 2)) (columns wrap_tabs).
Example wrap_run_fine : wrap_run = Some Fine.
Proof. vm_compute. reflexivity. Qed.
Theorem C46_integers_refuted : good_run 2 (commits wrap_tabs) (nexts wrap_tabs)
  (fun s hs => strict_sort_prove ix_o true s (mkBag (th hs 0) (th hs 1)) (mkBag (th hs 2) (th hs 3)))
  (fun v ids => strict_sort_verify ix_o true v (mkBagc (vth ids 0) (vth ids 1) 2) (mkBagc (vth ids 2) (vth ids 3) 2)) (columns wrap_tabs).
Proof. exact (ix_good _ _ _ _ _ _ wrap_run_fine). Qed.
Print Assumptions C46_integers_refuted.
