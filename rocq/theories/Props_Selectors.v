(** C61, C62 and a part of C54: selectors that are ignored, closures without a value, grouped tables that are smaller than their input. *)
From Coq Require Import String List Arith Bool ZArith Znumtheory.
Import ListNotations.
From Verif Require Import Res Fp FSum SpecMle SpecPoly SpecKzg SpecTracker SpecIop ModelMle ModelTranscript Pairing ModelKzg ModelBatch ModelProver ModelVerifier ModelAdvice ModelIop
  ProverHist VerifierHist CompileHist IopHist SessHist IopFix IopEx SessProofs SelHist SelProofs.
Local Open Scope string_scope.
Local Open Scope list_scope.
Local Open Scope nat_scope.

(** ** C61: selectors *)

(** Refuted: "the prescribed permutation relates the selected rows of two bags". With any other selectors, both sides do the same. *)
Theorem C61_permutation_refuted : forall (p : positive) (E : pairing p) (o : oracle p (gcar (PG1 E))) debug (s : ptrk E) fx gx perm sel sel',
  presc_perm_prove o debug s (selecting fx sel) (selecting gx sel') perm = presc_perm_prove o debug s fx gx perm.
Proof. reflexivity. Qed.
Print Assumptions C61_permutation_refuted.
Theorem C61_permutation_verifier_refuted : forall (p : positive) (E : pairing p) (o : oracle p (gcar (PG1 E))) debug (v : vtrk E) fx gx perm sel sel',
  presc_perm_verify o debug v (selecting_comm fx sel) (selecting_comm gx sel') perm = presc_perm_verify o debug v fx gx perm.
Proof. reflexivity. Qed.
Print Assumptions C61_permutation_verifier_refuted.
(** Refuted: "the steps of a sorted bag are selected elements of the range bag". The sort check ignores the selector of the range. *)
Theorem C61_range_refuted : forall (p : positive) (E : pairing p) (o : oracle p (gcar (PG1 E))) debug (s : ptrk E) b r sel,
  strict_sort_prove o debug s b (selecting r sel) = strict_sort_prove o debug s b r.
Proof. reflexivity. Qed.
Print Assumptions C61_range_refuted.
Theorem C61_range_verifier_refuted : forall (p : positive) (E : pairing p) (o : oracle p (gcar (PG1 E))) debug (v : vtrk E) b r sel,
  strict_sort_verify o debug v b (selecting_comm r sel) = strict_sort_verify o debug v b r.
Proof. reflexivity. Qed.
Print Assumptions C61_range_verifier_refuted.

(** (8,9,9,5), all selected, permuted to (5,8,9,9), of which nothing is selected: accepted. (8,9) and (8,x), of which the first
    row is selected, with the identity as permutation: the selected rows agree, and the check fails unless x = 9. *)
Definition sx_tabs (c : Z) : list (nat * list Z) := [(2, [8; 9; 9; 5]%Z); (2, [1; 1; 1; 1]%Z); (2, [5; 8; 9; 9]%Z); (2, [c; c; c; c]%Z); (2, [3; 0; 2; 1]%Z)].
Definition sy_tabs (x : Z) : list (nat * list Z) := [(1, [8; 9]%Z); (1, [1; 0]%Z); (1, [8; x]%Z); (1, [1; 0]%Z); (1, [0; 1]%Z)].
Definition sx_prove (s : ptrk E101) (hs : list tpoly) := presc_perm_prove ix_o true s (pbag hs 0) (pbag hs 2) (th hs 4).
Definition sx_verify (n : nat) (v : vtrk E101) (ids : list nat) := presc_perm_verify ix_o true v (vbag ids 0 n) (vbag ids 2 n) (vth ids 4).
Definition sx_run (n : nat) (ts : list (nat * list Z)) : option outcome := ix_run n (commits ts) (nexts ts) sx_prove (sx_verify n) (columns ts).
(** The bag (1,2,4,5) over the range (0,1,2,3), of which nothing is selected. *)
Definition sr_tabs (n : nat) (r : list Z) (c : Z) : list (nat * list Z) := [(2, [1; 2; 4; 5]%Z); (2, [1; 1; 1; 1]%Z); (n, r); (n, map (fun _ => c) r)].
Definition sr_prove (s : ptrk E101) (hs : list tpoly) := strict_sort_prove ix_o true s (pbag hs 0) (pbag hs 2).
Definition sr_verify (n : nat) (v : vtrk E101) (ids : list nat) := strict_sort_verify ix_o true v (vbag ids 0 2) (vbag ids 2 n).
Definition sr_run (n : nat) (r : list Z) (c : Z) : option outcome := ix_run n (commits (sr_tabs n r c)) (nexts (sr_tabs n r c)) sr_prove (sr_verify n) (columns (sr_tabs n r c)).
Example C61_ex : sx_run 2 (sx_tabs 0) = Some Fine /\ sx_run 1 (sy_tabs 9) = Some Fine /\ sx_run 1 (sy_tabs 7) = Some NotVerified /\
  sr_run 2 [0; 1; 2; 3]%Z 0 = Some Fine /\ sr_run 2 [0; 1; 9; 3]%Z 0 = Some NotVerified.
Proof. vm_compute. repeat split. Qed.

(** ** C62: closures *)

(** Refuted: "the verifier can evaluate its claims at the sum-check point". After a sort check of a bag with [n] variables, one of
    the new claims has no value at any point of another length, whatever query results the verifier holds: the evaluation panics. *)
Theorem C62_sort_refuted : forall (p : positive) (E : pairing p) (o : oracle p (gcar (PG1 E))), prime (Zpos p) -> 2 < fsize p ->
  forall v v' v'', in_session o v -> vcalls o v' v'' -> forall debug b r, strict_sort_verify o debug v b r = Ok v' ->
  exists e, In e (vt_zc v'') /\ mget (vt_virt v) e = None /\ forall q x, length x <> bc_nv b -> eval_virtual_comm (answered v'' q) e x = Panic.
Proof. intros p E o Hp H2. exact (perm_panics o Hp H2). Qed.
Print Assumptions C62_sort_refuted.
(** Refuted: "the verifier's closures compute the prover's polynomials". After a prescribed permutation of bags with fewer than [N]
    variables, one of the new claims uses a closure for the column (0, 1, 2, ..) that has another value than that column. *)
Theorem C62_index_refuted : forall (p : positive) (E : pairing p) (o : oracle p (gcar (PG1 E))), prime (Zpos p) -> 2 < fsize p ->
  forall v v' v'', in_session o v -> vcalls o v' v'' -> forall debug fx gx perm N, presc_perm_verify o debug v fx gx perm = Ok v' -> bc_nv fx < N ->
  exists e id x, In e (vt_zc v'') /\ mget (vt_virt v) e = None /\ uses (vt_virt v'') e id /\ mget (vt_virt v) id = None /\ length x = N /\
    forall q, exists y, eval_virtual_comm (answered v'' q) id x = Ok y /\ y <> index_poly (bc_nv fx) x.
Proof. intros p E o Hp H2. exact (index_closure o Hp H2). Qed.
Print Assumptions C62_index_refuted.

(** A bag with two variables over a range with three: the proof is accepted, with a sum-check over three variables. *)
Example C62_ex : sr_run 3 [0; 1; 2; 3; 4; 5; 6; 7]%Z 1 = Some Fine.
Proof. vm_compute. reflexivity. Qed.
Example C62_ex_verifier : exists v ids v', in_session ix_o v /\ sr_verify 3 v ids = Ok v' /\
  exists e, In e (vt_zc v') /\ forall q x, length x = 3 -> eval_virtual_comm (answered v' q) e x = Panic.
Proof.
  destruct (ix_fine _ _ _ _ _ _ C62_ex) as [vk [cp [v [ids [v' [A [N [H1 [H2 _]]]]]]]]]. exists v, ids, v'. pose proof (run_session ix_o _ _ _ _ _ _ H1) as HV. split; [exact HV|]. split; [exact H2|].
  destruct (C62_sort_refuted 101 E101 ix_o prime_101 ltac:(vm_compute; repeat constructor) v v' v' HV (vcs_nil _ _) _ _ _ H2) as [e [X1 [_ X3]]]. exists e. split; [exact X1|]. intros q x Hx. apply X3. rewrite Hx. discriminate.
Qed.

(** ** C54: grouped tables with fewer variables *)

(** Refuted: "a table can be grouped into a smaller one". The verifier takes the grouped columns to have the input's number of variables. If they have fewer, and a
    selected row, then the claims are true for unlucky challenges only, whatever the prover does. *)
Theorem C54_smaller_refuted : forall (p : positive) (E : pairing p) (o : oracle p (gcar (PG1 E))), prime (Zpos p) -> 2 < fsize p ->
  forall v v' v'', in_session o v -> vcalls o v' v'' ->
  forall A N, claims_hold A N v'' -> forall dbg t gi rx res tcs sl k sup sl' ml rl, group_by_verify o dbg v t gi rx = Ok (res, v') -> 2 ^ N < fsize p ->
  table_reads A N v t tcs sl -> k < tc_nv t -> Forall (fun id => reads A N v id k sup) (firstn 1 (gv_supp gi)) -> reads A N v (gv_sel gi) k sl' -> reads A N v (gv_mult gi) k ml -> reads A N v (bc_poly rx) (bc_nv rx) rl ->
  boolean sl -> boolean sl' -> small_range rl (tc_nv t) -> rows sup sl' <> [] ->
  exists c q mm h g g1 g2 hs, gv_cols gi = [c] /\ drawn (vt_tr v) (vt_tr v') = [h; g; g1; g2] ++ hs /\ Forall (received v v') [q; mm] /\
    let n := tc_nv t in
    ~ (~ unlucky (combine (nth c tcs []) sl) (wcol (spread n k sup) (spread n k sl') (spread n k ml)) h /\ sort_lucky A N n (bc_nv rx) q mm (spread n k sup) rl g g1 g2).
Proof. intros p E o Hp H2. exact (group_by_smaller o Hp H2). Qed.
Print Assumptions C54_smaller_refuted.

(** (4,10), (6,20), (4,30) grouped by the first column into the two rows 4 and 6, counted 2 and 1: the honest proof is not
    accepted. With the grouped columns padded to four rows it is. *)
Definition gs_tabs (k : nat) (pad : list Z) : list (nat * list Z) :=
  [(3, [0; 1; 2; 3; 4; 5; 6; 7]%Z); (3, [1; 1; 1; 1; 1; 1; 1; 1]%Z); (2, [4; 6; 4; 4]%Z); (2, [10; 20; 30; 5]%Z); (2, [1; 1; 1; 0]%Z); (k, pad ++ [4; 6]%Z); (k, pad ++ [1; 1]%Z); (k, pad ++ [2; 1]%Z)].
Definition gs_prove (s : ptrk E101) (hs : list tpoly) :=
  r <- group_by_prove ix_o true s (ptab hs [2; 3] 4) (mkGp [0] [th hs 5] (th hs 6) (th hs 7) [(1, AggCount, th hs 7)]) (pbag hs 0) ;; Ok (snd r).
Definition gs_verify (v : vtrk E101) (ids : list nat) :=
  r <- group_by_verify ix_o true v (vtab ids [2; 3] 4 2) (mkGv [0] [vth ids 5] (vth ids 6) (vth ids 7) [(1, AggCount, vth ids 7)]) (vbag ids 0 3) ;; Ok (snd r).
Definition gs_run (k : nat) (pad : list Z) : option outcome := ix_run 3 (commits (gs_tabs k pad)) (nexts (gs_tabs k pad)) gs_prove gs_verify (columns (gs_tabs k pad)).
Example C54_ex_smaller : gs_run 2 [0; 0]%Z = Some Fine /\ gs_run 1 [] = Some NotVerified.
Proof. vm_compute. split; reflexivity. Qed.
