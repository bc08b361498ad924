(** C47, C48, C49: supports, disjoint bags, and the set operations. *)
From Coq Require Import String List Arith Bool ZArith Znumtheory Permutation.
Import ListNotations.
From Verif Require Import Res Fp FSum SpecMle SpecPoly SpecTracker SpecIop SpecRel ModelMle ModelTranscript Pairing ModelKzg ModelProver ModelVerifier ModelAdvice ModelIop
  ProverHist VerifierHist SessHist CompileHist IopHist IopFix IopEx CompClaims CompCheck SessProofs SuppHist SuppProofs.
Local Open Scope list_scope.
Local Open Scope nat_scope.

(** The range 0 to 7 that the examples commit to first. *)
Definition to7 : list (nat * list Z) := [(3, [0; 1; 2; 3; 4; 5; 6; 7]%Z); (3, [1; 1; 1; 1; 1; 1; 1; 1]%Z)].

(** ** C47: the support of a bag *)

(** Whatever multiplicities the prover committed to (under the id [m]): true claims make [sup] the support of [b], without repetition, and the multiplicities the
    counts, unless the challenges are unlucky. *)
Theorem C47_verifier : forall (p : positive) (E : pairing p) (o : oracle p (gcar (PG1 E))), prime (Zpos p) -> 2 < fsize p ->
  forall v v' v'', in_session o v -> vcalls o v' v'' ->
  forall A N, claims_hold A N v'' -> forall dbg b sup rx l sl l' sl' rl, supp_verify o dbg v b sup rx = Ok v' -> 2 ^ N < fsize p ->
  bag_reads A N v b l sl -> bag_reads A N v sup l' sl' -> reads A N v (bc_poly rx) (bc_nv rx) rl -> boolean sl -> boolean sl' -> small_range rl (bc_nv sup) ->
  exists m q mm h g g1 g2, drawn (vt_tr v) (vt_tr v') = [h; g; g1; g2] /\ Forall (received v v') [m; q; mm] /\
    let ml := column A (bc_nv sup) m in
    (fst (A m) <= bc_nv sup -> ~ unlucky (combine l sl) (wcol l' sl' ml) h -> sort_lucky A N (bc_nv sup) (bc_nv rx) q mm l' rl g g1 g2 ->
      sorted_by rl l' sl' /\ NoDup (rows l' sl') /\ (forall x, In x (rows l' sl') <-> In x (rows l sl)) /\
      forall k, k < length l' -> nth k sl' F0 <> F0 -> nth k ml F0 = ofN (count_occ F_dec (rows l sl) (nth k l' F0))).
Proof. intros p E o Hp H2 v v' v'' HV HL A N HC. exact (supp_claims o Hp H2 v v' v'' A N (session_ready o Hp H2 v HV) (vcalls_go o Hp H2 v' v'' HL) HC). Qed.
Print Assumptions C47_verifier.

(** The bag (5,3,5) has the support (x,y) = (3,5). A missing value, an additional one, and a repeated one. *)
Definition sup_tabs (x y : Z) : list (nat * list Z) := to7 ++ [(2, [5; 3; 5; 7]%Z); (2, [1; 1; 1; 0]%Z); (2, [0; 0; x; y]%Z); (2, [0; 0; 1; 1]%Z)].
Definition sup_run (x y : Z) : option outcome :=
  ix_run 3 (commits (sup_tabs x y)) (nexts (sup_tabs x y)) (fun s hs => supp_prove ix_o true s (pbag hs 2) (pbag hs 4) (pbag hs 0))
    (fun v ids => supp_verify ix_o true v (vbag ids 2 2) (vbag ids 4 2) (vbag ids 0 3)) (columns (sup_tabs x y)).
Example C47_ex : sup_run 3 5 = Some Fine /\ sup_run 3 7 = Some NotCompiled /\ sup_run 4 5 = Some NotCompiled /\ sup_run 5 5 = Some NotCompiled.
Proof. vm_compute. repeat split. Qed.
Example C47_ex_verifier : exists vk cp v ids v' A N, vrun ix_o true vk cp (nexts (sup_tabs 3 5)) = Ok (v, ids) /\
  supp_verify ix_o true v (vbag ids 2 2) (vbag ids 4 2) (vbag ids 0 3) = Ok v' /\ claims_hold A N v' /\ forall id n l, In (id, n, l) (columns (sup_tabs 3 5)) -> reads A N v id n l.
Proof. exact (ix_fine _ _ _ _ _ _ (proj1 C47_ex)). Qed.

(** The honest prover, whose multiplicities are [ml] and whose range multiplicities are [wl]. Off the bad challenges, a sorted support is accepted; anything else
    is turned down, unless a challenge is unlucky; and a challenge among the values makes a debug prover refuse to compile. *)
Theorem C47_prover : forall (p : positive) (E : pairing p), pairing_laws E -> prime (Zpos p) ->
  forall (o : oracle p (gcar (PG1 E))) addr k ck vk ops vops s hs d D, setting o addr k ck vk ops vops s hs d D -> 1 <= D -> d <= D ->
  forall dbg b sup rx l sl l' sl' rl rsl, bag_stands ops hs b l sl -> bag_stands ops hs sup l' sl' -> bag_stands ops hs rx rl rsl -> 1 <= d -> 2 * d + 3 <= D ->
  boolean sl -> boolean sl' -> length l < fsize p -> length l' < fsize p -> small_range rl (b_nv sup) ->
  exists s' h g g1 g2 ml wl, supp_prove o dbg s b sup rx = Ok s' /\ drawn (pt_tr s) (pt_tr s') = [h; g; g1; g2] /\
    length ml = length l' /\ counts_of (rows l sl) (rows l' sl') (wcol l' sl' ml) /\ length wl = length rl /\ counts_of (steps l') rl (combine rl wl) /\
    let verify debug v := supp_verify o debug v (comm_of b) (comm_of sup) (comm_of rx) in
    let avoid := ~ In h (l ++ l') /\ sort_avoids (b_nv sup) l' rl g g1 g2 in
    let right := sorted_by rl l' sl' /\ forall x, In x (rows l' sl') <-> In x (rows l sl) in
    (avoid -> right -> accepted o addr vk vops s' verify) /\
    (~ right -> ~ unlucky (combine l sl) (wcol l' sl' ml) h -> ~ unlucky (unit_bag (steps l')) (combine rl wl) g2 -> turned_down o addr k vk vops s' verify) /\
    (~ avoid -> refused addr k s').
Proof. intros p E HE Hp. exact (supp_check HE Hp). Qed.
Print Assumptions C47_prover.

(** Its hypotheses are met: (5,3,5) and (3,5), with the range 0 to 7. *)
Example C47_ex_prover : exists ck vk s hs, setting ix_o (fun n => n) 3 ck vk (commits (sup_tabs 3 5)) (nexts (sup_tabs 3 5)) s hs 1 30 /\
  bag_stands (commits (sup_tabs 3 5)) hs (pbag hs 2) (map ofZ [5; 3; 5; 7]%Z) (map ofZ [1; 1; 1; 0]%Z) /\ bag_stands (commits (sup_tabs 3 5)) hs (pbag hs 4) (map ofZ [0; 0; 3; 5]%Z) (map ofZ [0; 0; 1; 1]%Z) /\
  bag_stands (commits (sup_tabs 3 5)) hs (pbag hs 0) (map ofZ [0; 1; 2; 3; 4; 5; 6; 7]%Z) (map ofZ [1; 1; 1; 1; 1; 1; 1; 1]%Z) /\ b_nv (pbag hs 4) = 2 /\ small_range (map (@ofZ 101) [0; 1; 2; 3; 4; 5; 6; 7]%Z) 2 /\
  boolean (map (@ofZ 101) [1; 1; 1; 0]%Z) /\ boolean (map (@ofZ 101) [0; 0; 1; 1]%Z) /\ 4 < fsize 101.
Proof.
  destruct (ex_bags 3 (sup_tabs 3 5) ltac:(vm_compute; reflexivity)) as [ck [vk [s [hs [H1 H2]]]]]. exists ck, vk, s, hs. split; [exact H1|]. clear H1.
  split; [exact (proj1 (H2 2 2 _ _ eq_refl eq_refl))|]. split; [exact (proj1 (H2 4 2 _ _ eq_refl eq_refl))|]. split; [exact (proj1 (H2 0 3 _ _ eq_refl eq_refl))|]. split; [exact (proj2 (H2 4 2 _ _ eq_refl eq_refl))|]. clear H2.
  split; [apply to7_small; repeat constructor|]. repeat split; try (repeat (constructor; [(left; reflexivity) || (right; reflexivity)|]); constructor). vm_compute. repeat constructor.
Qed.

(** The client computes the support with the crate's own function, commits to it and its multiplicities, and proves it: the committed bag is the ascending support of the
    rows, after zeros that are not selected. Off the bad challenges the proof is accepted if the steps of that column are in the range, and turned down if one is not. *)
Theorem C47_computed : forall (p : positive) (E : pairing p), pairing_laws E -> prime (Zpos p) ->
  forall (o : oracle p (gcar (PG1 E))) addr k ck vk ops vops s hs d D, setting o addr k ck vk ops vops s hs d D -> 1 <= D -> d <= D ->
  forall dbg b rx l sl rl rsl, bag_stands ops hs b l sl -> bag_stands ops hs rx rl rsl -> 1 <= d -> 2 * d + 3 <= D -> boolean sl -> length l < fsize p ->
  exists s' sup m vals h g g1 g2 wl, let n := b_nv b in let c := merged n vals in prove_support o dbg s b rx = Ok (sup, m, s') /\ drawn (pt_tr s) (pt_tr s') = [h; g; g1; g2] /\
    ascending vals /\ (forall x, In x vals <-> In x (rows l sl)) /\ length vals <= 2 ^ n /\
    PlanHist.bag_reads s' sup n c (repeat F0 (2 ^ n - length vals) ++ repeat F1 (length vals)) /\
    length wl = length rl /\ counts_of (steps c) rl (combine rl wl) /\
    let verify := verify_support o (comm_of b) (comm_of rx) in
    let avoid := ~ In h (l ++ c) /\ sort_avoids n c rl g g1 g2 in
    (avoid -> incl (steps c) rl -> accepted o addr vk vops s' verify) /\
    (~ incl (steps c) rl -> ~ unlucky (unit_bag (steps c)) (combine rl wl) g2 -> turned_down o addr k vk vops s' verify) /\
    (~ avoid -> refused addr k s').
Proof. intros p E HE Hp. exact (support_check HE Hp). Qed.
Print Assumptions C47_computed.
(** The support of (5,x,5), with the range 0 to 7: the steps are in the range for 3 and for 9, and not for 40. *)
Definition sc_tabs (x : Z) : list (nat * list Z) := to7 ++ [(2, [5; x; 5; 7]%Z); (2, [1; 1; 1; 0]%Z)].
Definition sc_run (x : Z) : option outcome :=
  ix_run 3 (commits (sc_tabs x)) (nexts (sc_tabs x)) (fun s hs => ' (_, s) <- prove_support ix_o true s (pbag hs 2) (pbag hs 0) ;; Ok s)
    (fun v ids => verify_support ix_o (vbag ids 2 2) (vbag ids 0 3) true v) (columns (sc_tabs x)).
Example C47_ex_computed : sc_run 3 = Some Fine /\ sc_run 9 = Some Fine /\ sc_run 40 = Some NotVerified.
Proof. vm_compute. repeat split. Qed.

(** ** C48: disjoint bags *)

(** Whatever the prover committed to (under the ids [got]): true claims make the bags disjoint, unless the challenges are unlucky. *)
Theorem C48_verifier : forall (p : positive) (E : pairing p) (o : oracle p (gcar (PG1 E))), prime (Zpos p) -> 2 < fsize p ->
  forall v v' v'', in_session o v -> vcalls o v' v'' ->
  forall A N, claims_hold A N v'' -> forall dbg a b rx l sl l' sl' rl, bag_disjoint_verify o dbg v a b rx = Ok v' -> let n := Nat.max (bc_nv a) (bc_nv b) + 1 in 2 ^ N < fsize p -> n <= N ->
  bag_reads A N v a l sl -> bag_reads A N v b l' sl' -> reads A N v (bc_poly rx) (bc_nv rx) rl -> boolean sl -> boolean sl' -> small_range rl n ->
  exists got, Forall (received v v') got /\
    (disjoint_sized A n got -> disjoint_lucky A N n (bc_nv rx) l sl l' sl' rl got (drawn (vt_tr v) (vt_tr v')) -> forall x, In x (rows l sl) -> ~ In x (rows l' sl')).
Proof. intros p E o Hp H2 v v' v'' HV HL A N HC. exact (bag_disjoint_claims o Hp H2 v v' v'' A N (session_ready o Hp H2 v HV) (vcalls_go o Hp H2 v' v'' HL) HC). Qed.
Print Assumptions C48_verifier.

(** (2,y) against (z,z). *)
Definition dis_tabs (y z : Z) : list (nat * list Z) := to7 ++ [(1, [2; y]%Z); (1, [1; 1]%Z); (1, [z; z]%Z); (1, [1; 1]%Z)].
Definition dis_run (y z : Z) : option outcome :=
  ix_run 3 (commits (dis_tabs y z)) (nexts (dis_tabs y z)) (fun s hs => bag_disjoint_prove ix_o true s (pbag hs 2) (pbag hs 4) (pbag hs 0))
    (fun v ids => bag_disjoint_verify ix_o true v (vbag ids 2 1) (vbag ids 4 1) (vbag ids 0 3)) (columns (dis_tabs y z)).
Example C48_ex : dis_run 5 4 = Some Fine /\ dis_run 2 5 = Some Fine /\ dis_run 2 2 = Some NotCompiled /\ dis_run 1 1 = Some NotCompiled.
Proof. vm_compute. repeat split. Qed.
Example C48_ex_verifier : exists vk cp v ids v' A N, vrun ix_o true vk cp (nexts (dis_tabs 5 4)) = Ok (v, ids) /\
  bag_disjoint_verify ix_o true v (vbag ids 2 1) (vbag ids 4 1) (vbag ids 0 3) = Ok v' /\ claims_hold A N v' /\ forall id n l, In (id, n, l) (columns (dis_tabs 5 4)) -> reads A N v id n l.
Proof. exact (ix_fine _ _ _ _ _ _ (proj1 C48_ex)). Qed.

(** The honest prover, whose merged support is [c] (zeros, then the values of both bags in ascending order), with range multiplicities [wl]. Off the bad challenges, disjoint
    bags are accepted if the steps of [c] are in the range; for bags that are not disjoint a debug prover refuses to compile, whatever the challenges. *)
Theorem C48_prover : forall (p : positive) (E : pairing p), pairing_laws E -> prime (Zpos p) ->
  forall (o : oracle p (gcar (PG1 E))) addr k ck vk ops vops s hs d D, setting o addr k ck vk ops vops s hs d D -> 1 <= D -> d <= D ->
  forall dbg a b rx l sl l' sl' rl rsl, bag_stands ops hs a l sl -> bag_stands ops hs b l' sl' -> bag_stands ops hs rx rl rsl -> 1 <= d -> 2 * d + 3 <= D ->
  let n := Nat.max (b_nv a) (b_nv b) + 1 in n <= k -> boolean sl -> boolean sl' -> 2 ^ n < fsize p ->
  exists s' g g1 g2 h h' vals wl, bag_disjoint_prove o dbg s a b rx = Ok s' /\ drawn (pt_tr s) (pt_tr s') = [g; g1; g2; h; h'] /\
    ascending vals /\ (forall x, In x vals <-> In x (rows l sl) \/ In x (rows l' sl')) /\ length vals <= 2 ^ n /\
    let c := merged n vals in length wl = length rl /\ counts_of (steps c) rl (combine rl wl) /\
    let verify debug v := bag_disjoint_verify o debug v (comm_of a) (comm_of b) (comm_of rx) in
    let avoid := sort_avoids n c rl g g1 g2 /\ ~ In h (l ++ c) /\ ~ In h' (l' ++ c) in
    let apart := forall x, In x (rows l sl) -> ~ In x (rows l' sl') in
    (avoid -> apart -> incl (steps c) rl -> accepted o addr vk vops s' verify) /\
    (~ apart -> refused addr k s') /\
    (~ incl (steps c) rl -> ~ unlucky (unit_bag (steps c)) (combine rl wl) g2 -> turned_down o addr k vk vops s' verify) /\
    (~ avoid -> refused addr k s').
Proof. intros p E HE Hp. exact (bag_disjoint_check HE Hp). Qed.
Print Assumptions C48_prover.

(** Its hypotheses are met: (2,5) and (4,4), with the range 0 to 7. *)
Example C48_ex_prover : exists ck vk s hs, setting ix_o (fun n => n) 3 ck vk (commits (dis_tabs 5 4)) (nexts (dis_tabs 5 4)) s hs 1 30 /\
  bag_stands (commits (dis_tabs 5 4)) hs (pbag hs 2) (map ofZ [2; 5]%Z) (map ofZ [1; 1]%Z) /\ bag_stands (commits (dis_tabs 5 4)) hs (pbag hs 4) (map ofZ [4; 4]%Z) (map ofZ [1; 1]%Z) /\
  bag_stands (commits (dis_tabs 5 4)) hs (pbag hs 0) (map ofZ [0; 1; 2; 3; 4; 5; 6; 7]%Z) (map ofZ [1; 1; 1; 1; 1; 1; 1; 1]%Z) /\ Nat.max (b_nv (pbag hs 2)) (b_nv (pbag hs 4)) + 1 = 2 /\ boolean (map (@ofZ 101) [1; 1]%Z) /\ 2 ^ 2 < fsize 101.
Proof.
  destruct (ex_bags 3 (dis_tabs 5 4) ltac:(vm_compute; reflexivity)) as [ck [vk [s [hs [H1 H2]]]]]. exists ck, vk, s, hs. split; [exact H1|]. clear H1.
  split; [exact (proj1 (H2 2 1 _ _ eq_refl eq_refl))|]. split; [exact (proj1 (H2 4 1 _ _ eq_refl eq_refl))|]. split; [exact (proj1 (H2 0 3 _ _ eq_refl eq_refl))|].
  split; [rewrite (proj2 (H2 2 1 _ _ eq_refl eq_refl)), (proj2 (H2 4 1 _ _ eq_refl eq_refl)); reflexivity|]. split; [repeat (constructor; [right; reflexivity|]); constructor|vm_compute; repeat constructor].
Qed.

(** ** C49: the set operations *)

(** Disjoint sets. The selector of the merged sets, which the prover commits to (under the id [cs]), must be boolean; no claim says so. *)
Theorem C49_disjoint : forall (p : positive) (E : pairing p) (o : oracle p (gcar (PG1 E))), prime (Zpos p) -> 2 < fsize p ->
  forall v v' v'', in_session o v -> vcalls o v' v'' ->
  forall A N, claims_hold A N v'' -> forall dbg a b rx l sl l' sl' rl, set_disjoint_verify o dbg v a b rx = Ok v' -> let n := Nat.max (bc_nv a) (bc_nv b) + 1 in 2 ^ N < fsize p -> n <= N ->
  bag_reads A N v a l sl -> bag_reads A N v b l' sl' -> reads A N v (bc_poly rx) (bc_nv rx) rl -> boolean sl -> boolean sl' -> small_range rl n ->
  exists c cs q m h g g1 g2, drawn (vt_tr v) (vt_tr v') = [h; g; g1; g2] /\ Forall (received v v') [c; cs; q; m] /\
    let cl := column A n c in let csl := column A n cs in
    (fst (A c) <= n -> fst (A cs) <= n -> boolean csl -> ~ unlucky (combine l sl ++ combine l' sl') (combine cl csl) h -> sort_lucky A N n (bc_nv rx) q m cl rl g g1 g2 ->
      NoDup (rows l sl ++ rows l' sl')).
Proof. intros p E o Hp H2 v v' v'' HV HL A N HC. exact (set_disjoint_claims o Hp H2 v v' v'' A N (session_ready o Hp H2 v HV) (vcalls_go o Hp H2 v' v'' HL) HC). Qed.
Print Assumptions C49_disjoint.

Theorem C49_union : forall (p : positive) (E : pairing p) (o : oracle p (gcar (PG1 E))), prime (Zpos p) -> 2 < fsize p ->
  forall v v' v'', in_session o v -> vcalls o v' v'' ->
  forall A N, claims_hold A N v'' -> forall dbg a b un rx l sl l' sl' ul usl rl, set_union_verify o dbg v a b un rx = Ok v' -> let n := Nat.max (bc_nv a) (bc_nv b) + 1 in 2 ^ N < fsize p -> n <= N ->
  bag_reads A N v a l sl -> bag_reads A N v b l' sl' -> bag_reads A N v un ul usl -> reads A N v (bc_poly rx) (bc_nv rx) rl -> boolean sl -> boolean sl' -> boolean usl -> small_range rl (bc_nv un) ->
  exists c cs m q mm h0 h g g1 g2, drawn (vt_tr v) (vt_tr v') = [h0; h; g; g1; g2] /\ Forall (received v v') [c; cs; m; q; mm] /\
    let cl := column A n c in let csl := column A n cs in
    (fst (A c) <= n -> fst (A cs) <= n -> fst (A m) <= bc_nv un -> ~ unlucky (combine l sl ++ combine l' sl') (combine cl csl) h0 -> ~ unlucky (combine cl csl) (wcol ul usl (column A (bc_nv un) m)) h ->
      sort_lucky A N (bc_nv un) (bc_nv rx) q mm ul rl g g1 g2 ->
      NoDup (rows ul usl) /\ forall x, In x (rows ul usl) <-> In x (rows l sl) \/ In x (rows l' sl')).
Proof. intros p E o Hp H2 v v' v'' HV HL A N HC. exact (set_union_claims o Hp H2 v v' v'' A N (session_ready o Hp H2 v HV) (vcalls_go o Hp H2 v' v'' HL) HC). Qed.
Print Assumptions C49_union.

(** The left part [l] is the difference of [a] and [b]. *)
Theorem C49_difference : forall (p : positive) (E : pairing p) (o : oracle p (gcar (PG1 E))), prime (Zpos p) -> 2 < fsize p ->
  forall v v' v'', in_session o v -> vcalls o v' v'' ->
  forall A N, claims_hold A N v'' -> forall dbg a b l m bm rx al asl bl bsl ll lsl ml msl bml rl, set_diff_verify o dbg v a b l m bm rx = Ok v' -> let n := Nat.max (bc_nv l) (bc_nv b) + 1 in
  2 ^ N < fsize p -> n <= N -> Nat.max (bc_nv l) (bc_nv m) + 1 <= N ->
  bag_reads A N v a al asl -> bag_reads A N v b bl bsl -> bag_reads A N v l ll lsl -> bag_reads A N v m ml msl -> reads A N v bm (bc_nv b) bml -> reads A N v (bc_poly rx) (bc_nv rx) rl ->
  boolean asl -> boolean bsl -> boolean lsl -> boolean msl -> small_range rl n ->
  exists c cs q mm h g g1 g2 h1 h2, drawn (vt_tr v) (vt_tr v') = [h; g; g1; g2; h1; h2] /\ Forall (received v v') [c; cs; q; mm] /\
    let cl := column A n c in let csl := column A n cs in
    (fst (A c) <= n -> fst (A cs) <= n -> boolean csl ->
      ~ unlucky (combine ll lsl ++ combine bl bsl) (combine cl csl) h -> sort_lucky A N n (bc_nv rx) q mm cl rl g g1 g2 ->
      ~ unlucky (combine ll lsl ++ combine ml msl) (combine al asl) h1 -> ~ unlucky (combine ml msl) (wcol bl bsl bml) h2 ->
      NoDup (rows ll lsl) /\ forall x, In x (rows ll lsl) <-> In x (rows al asl) /\ ~ In x (rows bl bsl)).
Proof. intros p E o Hp H2 v v' v'' HV HL A N HC. exact (set_diff_claims o Hp H2 v v' v'' A N (session_ready o Hp H2 v HV) (vcalls_go o Hp H2 v' v'' HL) HC). Qed.
Print Assumptions C49_difference.

(** The middle part [m] is the intersection of [a] and [b]. *)
Theorem C49_intersection : forall (p : positive) (E : pairing p) (o : oracle p (gcar (PG1 E))), prime (Zpos p) -> 2 < fsize p ->
  forall v v' v'', in_session o v -> vcalls o v' v'' ->
  forall A N, claims_hold A N v'' -> forall dbg a b l m r rx al asl bl bsl ll lsl ml msl sl ssl rl, set_intersect_verify o dbg v a b l m r rx = Ok v' -> let n := Nat.max (bc_nv l) (bc_nv r) + 1 in
  2 ^ N < fsize p -> n <= N -> Nat.max (bc_nv l) (bc_nv m) + 1 <= N -> Nat.max (bc_nv m) (bc_nv r) + 1 <= N ->
  bag_reads A N v a al asl -> bag_reads A N v b bl bsl -> bag_reads A N v l ll lsl -> bag_reads A N v m ml msl -> bag_reads A N v r sl ssl -> reads A N v (bc_poly rx) (bc_nv rx) rl ->
  boolean asl -> boolean bsl -> boolean lsl -> boolean msl -> boolean ssl -> small_range rl n ->
  exists c cs q mm h1 h2 h g g1 g2, drawn (vt_tr v) (vt_tr v') = [h1; h2; h; g; g1; g2] /\ Forall (received v v') [c; cs; q; mm] /\
    let cl := column A n c in let csl := column A n cs in
    (fst (A c) <= n -> fst (A cs) <= n -> boolean csl ->
      ~ unlucky (combine ll lsl ++ combine ml msl) (combine al asl) h1 -> ~ unlucky (combine ml msl ++ combine sl ssl) (combine bl bsl) h2 ->
      ~ unlucky (combine ll lsl ++ combine sl ssl) (combine cl csl) h -> sort_lucky A N n (bc_nv rx) q mm cl rl g g1 g2 ->
      forall x, In x (rows ml msl) <-> In x (rows al asl) /\ In x (rows bl bsl)).
Proof. intros p E o Hp H2 v v' v'' HV HL A N HC. exact (set_intersect_claims o Hp H2 v v' v'' A N (session_ready o Hp H2 v HV) (vcalls_go o Hp H2 v' v'' HL) HC). Qed.
Print Assumptions C49_intersection.

(** Honest provers. The merged sets [c] are in ascending order. *)
Theorem C49_disjoint_prover : forall (p : positive) (E : pairing p), pairing_laws E -> prime (Zpos p) ->
  forall (o : oracle p (gcar (PG1 E))) addr k ck vk ops vops s hs d D, setting o addr k ck vk ops vops s hs d D -> 1 <= D -> d <= D ->
  forall dbg a b rx l sl l' sl' rl rsl, bag_stands ops hs a l sl -> bag_stands ops hs b l' sl' -> bag_stands ops hs rx rl rsl -> 1 <= d -> 2 * d + 3 <= D ->
  let n := Nat.max (b_nv a) (b_nv b) + 1 in n <= k -> boolean sl -> boolean sl' -> 2 ^ n < fsize p ->
  exists s' h g g1 g2 c cs wl, set_disjoint_prove o dbg s a b rx = Ok s' /\ drawn (pt_tr s) (pt_tr s') = [h; g; g1; g2] /\
    length c = 2 ^ n /\ non_decreasing c /\ Permutation (rows c cs) (rows l sl ++ rows l' sl') /\ length wl = length rl /\ counts_of (steps c) rl (combine rl wl) /\
    let verify debug v := set_disjoint_verify o debug v (comm_of a) (comm_of b) (comm_of rx) in
    let avoid := ~ In h (l ++ l' ++ c) /\ sort_avoids n c rl g g1 g2 in
    let apart := NoDup (rows l sl ++ rows l' sl') in
    (avoid -> apart -> incl (steps c) rl -> accepted o addr vk vops s' verify) /\
    (~ apart -> refused addr k s') /\
    (~ incl (steps c) rl -> ~ unlucky (unit_bag (steps c)) (combine rl wl) g2 -> turned_down o addr k vk vops s' verify) /\
    (~ avoid -> refused addr k s').
Proof. intros p E HE Hp. exact (set_disjoint_check HE Hp). Qed.
Print Assumptions C49_disjoint_prover.

(** The union is the support of the two sets one after the other, [c] with the selector [cs]. *)
Theorem C49_union_prover : forall (p : positive) (E : pairing p), pairing_laws E -> prime (Zpos p) ->
  forall (o : oracle p (gcar (PG1 E))) addr k ck vk ops vops s hs d D, setting o addr k ck vk ops vops s hs d D -> 1 <= D -> d <= D ->
  forall dbg a b un rx l sl l' sl' ul usl rl rsl, bag_stands ops hs a l sl -> bag_stands ops hs b l' sl' -> bag_stands ops hs un ul usl -> bag_stands ops hs rx rl rsl -> 1 <= d -> 2 * d + 3 <= D ->
  let n := Nat.max (b_nv a) (b_nv b) + 1 in n <= k -> boolean sl -> boolean sl' -> boolean usl -> 2 ^ n < fsize p -> length ul < fsize p -> small_range rl (b_nv un) ->
  exists s' h0 h g g1 g2 c cs ml wl, set_union_prove o dbg s a b un rx = Ok s' /\ drawn (pt_tr s) (pt_tr s') = [h0; h; g; g1; g2] /\
    rows c cs = rows l sl ++ rows l' sl' /\ length ml = length ul /\ counts_of (rows c cs) (rows ul usl) (wcol ul usl ml) /\ length wl = length rl /\ counts_of (steps ul) rl (combine rl wl) /\
    let verify debug v := set_union_verify o debug v (comm_of a) (comm_of b) (comm_of un) (comm_of rx) in
    let avoid := ~ In h0 (l ++ l' ++ c) /\ ~ In h (c ++ ul) /\ sort_avoids (b_nv un) ul rl g g1 g2 in
    let right := sorted_by rl ul usl /\ forall x, In x (rows ul usl) <-> In x (rows l sl) \/ In x (rows l' sl') in
    (avoid -> right -> accepted o addr vk vops s' verify) /\
    (~ right -> ~ unlucky (combine c cs) (wcol ul usl ml) h -> ~ unlucky (unit_bag (steps ul)) (combine rl wl) g2 -> turned_down o addr k vk vops s' verify) /\
    (~ avoid -> refused addr k s').
Proof. intros p E HE Hp. exact (set_union_check HE Hp). Qed.
Print Assumptions C49_union_prover.

(** The difference: [l] is disjoint from [b], [l] and [m] together are [a], and [m] is counted in [b] by the given multiplicities. *)
Theorem C49_difference_prover : forall (p : positive) (E : pairing p), pairing_laws E -> prime (Zpos p) ->
  forall (o : oracle p (gcar (PG1 E))) addr k ck vk ops vops s hs d D, setting o addr k ck vk ops vops s hs d D -> 1 <= D -> d <= D ->
  forall dbg a b lb mb bm rx al asl bl bsl ll lsl ml msl bml rl rsl, bag_stands ops hs a al asl -> bag_stands ops hs b bl bsl -> bag_stands ops hs lb ll lsl -> bag_stands ops hs mb ml msl -> stands ops hs bm bml -> b_nv b = tp_nv bm ->
  bag_stands ops hs rx rl rsl -> 1 <= d -> 2 * d + 3 <= D -> let n := Nat.max (b_nv lb) (b_nv b) + 1 in n <= k -> boolean asl -> boolean bsl -> boolean lsl -> boolean msl -> 2 ^ n < fsize p -> length ll + length ml < fsize p -> length al < fsize p ->
  exists s' h g g1 g2 h1 h2 c cs wl, set_diff_prove o dbg s a b lb mb bm rx = Ok s' /\ drawn (pt_tr s) (pt_tr s') = [h; g; g1; g2; h1; h2] /\
    length c = 2 ^ n /\ non_decreasing c /\ Permutation (rows c cs) (rows ll lsl ++ rows bl bsl) /\ length wl = length rl /\ counts_of (steps c) rl (combine rl wl) /\
    let verify debug v := set_diff_verify o debug v (comm_of a) (comm_of b) (comm_of lb) (comm_of mb) (tp_id bm) (comm_of rx) in
    let avoid := (~ In h (ll ++ bl ++ c) /\ sort_avoids n c rl g g1 g2) /\ ~ In h1 (ll ++ ml ++ al) /\ ~ In h2 (ml ++ bl) in
    let apart := NoDup (rows ll lsl ++ rows bl bsl) in
    let parts := Permutation (rows ll lsl ++ rows ml msl) (rows al asl) /\ same_bag (combine ml msl) (wcol bl bsl bml) in
    (avoid -> apart -> parts -> incl (steps c) rl -> accepted o addr vk vops s' verify) /\
    (~ apart -> refused addr k s') /\
    (~ (parts /\ incl (steps c) rl) -> ~ unlucky (combine ll lsl ++ combine ml msl) (combine al asl) h1 -> ~ unlucky (combine ml msl) (wcol bl bsl bml) h2 -> ~ unlucky (unit_bag (steps c)) (combine rl wl) g2 -> turned_down o addr k vk vops s' verify) /\
    (~ avoid -> refused addr k s').
Proof. intros p E HE Hp. exact (set_diff_check HE Hp). Qed.
Print Assumptions C49_difference_prover.

(** The intersection: [l] and [m] are [a], [m] and [r] are [b], and [l] and [r] are disjoint. *)
Theorem C49_intersection_prover : forall (p : positive) (E : pairing p), pairing_laws E -> prime (Zpos p) ->
  forall (o : oracle p (gcar (PG1 E))) addr k ck vk ops vops s hs d D, setting o addr k ck vk ops vops s hs d D -> 1 <= D -> d <= D ->
  forall dbg a b lb mb rb rx al asl bl bsl ll lsl ml msl sl ssl rl rsl, bag_stands ops hs a al asl -> bag_stands ops hs b bl bsl -> bag_stands ops hs lb ll lsl -> bag_stands ops hs mb ml msl -> bag_stands ops hs rb sl ssl ->
  bag_stands ops hs rx rl rsl -> 1 <= d -> 2 * d + 3 <= D -> let n := Nat.max (b_nv lb) (b_nv rb) + 1 in n <= k -> boolean asl -> boolean bsl -> boolean lsl -> boolean msl -> boolean ssl -> 2 ^ n < fsize p ->
  length ll + length ml < fsize p -> length ml + length sl < fsize p -> length al < fsize p -> length bl < fsize p ->
  exists s' h1 h2 h g g1 g2 c cs wl, set_intersect_prove o dbg s a b lb mb rb rx = Ok s' /\ drawn (pt_tr s) (pt_tr s') = [h1; h2; h; g; g1; g2] /\
    length c = 2 ^ n /\ non_decreasing c /\ Permutation (rows c cs) (rows ll lsl ++ rows sl ssl) /\ length wl = length rl /\ counts_of (steps c) rl (combine rl wl) /\
    let verify debug v := set_intersect_verify o debug v (comm_of a) (comm_of b) (comm_of lb) (comm_of mb) (comm_of rb) (comm_of rx) in
    let avoid := ~ In h1 (ll ++ ml ++ al) /\ ~ In h2 (ml ++ sl ++ bl) /\ ~ In h (ll ++ sl ++ c) /\ sort_avoids n c rl g g1 g2 in
    let apart := NoDup (rows ll lsl ++ rows sl ssl) in
    let parts := Permutation (rows ll lsl ++ rows ml msl) (rows al asl) /\ Permutation (rows ml msl ++ rows sl ssl) (rows bl bsl) in
    (avoid -> apart -> parts -> incl (steps c) rl -> accepted o addr vk vops s' verify) /\
    (~ apart -> refused addr k s') /\
    (~ (parts /\ incl (steps c) rl) -> ~ unlucky (combine ll lsl ++ combine ml msl) (combine al asl) h1 -> ~ unlucky (combine ml msl ++ combine sl ssl) (combine bl bsl) h2 -> ~ unlucky (unit_bag (steps c)) (combine rl wl) g2 -> turned_down o addr k vk vops s' verify) /\
    (~ avoid -> refused addr k s').
Proof. intros p E HE Hp. exact (set_intersect_check HE Hp). Qed.
Print Assumptions C49_intersection_prover.

(** {5,3} against {4,x}: disjoint, or not. *)
Definition sdis_tabs (x : Z) : list (nat * list Z) := to7 ++ [(1, [5; 3]%Z); (1, [1; 1]%Z); (1, [4; x]%Z); (1, [1; 1]%Z)].
Definition sdis_run (x : Z) : option outcome :=
  ix_run 3 (commits (sdis_tabs x)) (nexts (sdis_tabs x)) (fun s hs => set_disjoint_prove ix_o true s (pbag hs 2) (pbag hs 4) (pbag hs 0))
    (fun v ids => set_disjoint_verify ix_o true v (vbag ids 2 1) (vbag ids 4 1) (vbag ids 0 3)) (columns (sdis_tabs x)).
Example C49_ex_disjoint : sdis_run 7 = Some Fine /\ sdis_run 5 = Some NotCompiled.
Proof. vm_compute. split; reflexivity. Qed.
(** {5,3} and {5,6} have the union {3,5,6}; the last selects only {3,5}. *)
Definition un_tabs (u us : list Z) : list (nat * list Z) := to7 ++ [(1, [5; 3]%Z); (1, [1; 1]%Z); (1, [5; 6]%Z); (1, [1; 1]%Z); (2, u); (2, us)].
Definition un_run (u us : list Z) : option outcome :=
  ix_run 3 (commits (un_tabs u us)) (nexts (un_tabs u us)) (fun s hs => set_union_prove ix_o true s (pbag hs 2) (pbag hs 4) (pbag hs 6) (pbag hs 0))
    (fun v ids => set_union_verify ix_o true v (vbag ids 2 1) (vbag ids 4 1) (vbag ids 6 2) (vbag ids 0 3)) (columns (un_tabs u us)).
Example C49_ex_union : un_run [0; 3; 5; 6]%Z [0; 1; 1; 1]%Z = Some Fine /\ un_run [2; 3; 5; 6]%Z [1; 1; 1; 1]%Z = Some NotCompiled /\ un_run [0; 0; 3; 5]%Z [0; 0; 1; 1]%Z = Some NotVerified.
Proof. vm_compute. repeat split. Qed.
(** {5,3} without {5,6} is {3}; not empty. *)
Definition df_tabs (ls : list Z) : list (nat * list Z) :=
  to7 ++ [(1, [5; 3]%Z); (1, [1; 1]%Z); (1, [5; 6]%Z); (1, [1; 1]%Z); (1, [3; 0]%Z); (1, ls); (1, [5; 0]%Z); (1, [1; 0]%Z); (1, [1; 0]%Z)].
Definition df_run (ls : list Z) : option outcome :=
  ix_run 3 (commits (df_tabs ls)) (nexts (df_tabs ls)) (fun s hs => set_diff_prove ix_o true s (pbag hs 2) (pbag hs 4) (pbag hs 6) (pbag hs 8) (th hs 10) (pbag hs 0))
    (fun v ids => set_diff_verify ix_o true v (vbag ids 2 1) (vbag ids 4 1) (vbag ids 6 1) (vbag ids 8 1) (vth ids 10) (vbag ids 0 3)) (columns (df_tabs ls)).
Example C49_ex_difference : df_run [1; 0]%Z = Some Fine /\ df_run [0; 0]%Z = Some NotVerified.
Proof. vm_compute. split; reflexivity. Qed.
(** {5,3} and {6,5} share {5}; the right part {6} cannot be left out. *)
Definition in_tabs (rs : list Z) : list (nat * list Z) :=
  to7 ++ [(1, [5; 3]%Z); (1, [1; 1]%Z); (1, [6; 5]%Z); (1, [1; 1]%Z); (1, [3; 0]%Z); (1, [1; 0]%Z); (1, [5; 0]%Z); (1, [1; 0]%Z); (1, [0; 6]%Z); (1, rs)].
Definition in_run (rs : list Z) : option outcome :=
  ix_run 3 (commits (in_tabs rs)) (nexts (in_tabs rs)) (fun s hs => set_intersect_prove ix_o true s (pbag hs 2) (pbag hs 4) (pbag hs 6) (pbag hs 8) (pbag hs 10) (pbag hs 0))
    (fun v ids => set_intersect_verify ix_o true v (vbag ids 2 1) (vbag ids 4 1) (vbag ids 6 1) (vbag ids 8 1) (vbag ids 10 1) (vbag ids 0 3)) (columns (in_tabs rs)).
Example C49_ex_intersection : in_run [0; 1]%Z = Some Fine /\ in_run [0; 0]%Z = Some NotVerified.
Proof. vm_compute. split; reflexivity. Qed.
Example C49_ex_verifier :
  (exists vk cp v ids v' A N, vrun ix_o true vk cp (nexts (sdis_tabs 7)) = Ok (v, ids) /\ set_disjoint_verify ix_o true v (vbag ids 2 1) (vbag ids 4 1) (vbag ids 0 3) = Ok v' /\ claims_hold A N v' /\
     forall id n l, In (id, n, l) (columns (sdis_tabs 7)) -> reads A N v id n l) /\
  (exists vk cp v ids v' A N, vrun ix_o true vk cp (nexts (un_tabs [0; 3; 5; 6]%Z [0; 1; 1; 1]%Z)) = Ok (v, ids) /\ set_union_verify ix_o true v (vbag ids 2 1) (vbag ids 4 1) (vbag ids 6 2) (vbag ids 0 3) = Ok v' /\ claims_hold A N v' /\
     forall id n l, In (id, n, l) (columns (un_tabs [0; 3; 5; 6]%Z [0; 1; 1; 1]%Z)) -> reads A N v id n l) /\
  (exists vk cp v ids v' A N, vrun ix_o true vk cp (nexts (df_tabs [1; 0]%Z)) = Ok (v, ids) /\ set_diff_verify ix_o true v (vbag ids 2 1) (vbag ids 4 1) (vbag ids 6 1) (vbag ids 8 1) (vth ids 10) (vbag ids 0 3) = Ok v' /\ claims_hold A N v' /\
     forall id n l, In (id, n, l) (columns (df_tabs [1; 0]%Z)) -> reads A N v id n l) /\
  (exists vk cp v ids v' A N, vrun ix_o true vk cp (nexts (in_tabs [0; 1]%Z)) = Ok (v, ids) /\ set_intersect_verify ix_o true v (vbag ids 2 1) (vbag ids 4 1) (vbag ids 6 1) (vbag ids 8 1) (vbag ids 10 1) (vbag ids 0 3) = Ok v' /\ claims_hold A N v' /\
     forall id n l, In (id, n, l) (columns (in_tabs [0; 1]%Z)) -> reads A N v id n l).
Proof.
  split; [exact (ix_fine _ _ _ _ _ _ (proj1 C49_ex_disjoint))|]. split; [exact (ix_fine _ _ _ _ _ _ (proj1 C49_ex_union))|].
  split; [exact (ix_fine _ _ _ _ _ _ (proj1 C49_ex_difference))|exact (ix_fine _ _ _ _ _ _ (proj1 C49_ex_intersection))].
Qed.

(** Their hypotheses are met by the histories below: {5,3} against {4,7}; the union of {5,3} and {5,6}; their difference; the intersection of {5,3} and {6,5}. *)
Definition met (tabs : list (nat * list Z)) : Prop := exists ck vk s hs, setting ix_o (fun n => n) 3 ck vk (commits tabs) (nexts tabs) s hs 1 30 /\
  forall i n x y, nth_error tabs i = Some (n, x) -> nth_error tabs (i + 1) = Some (n, y) -> bag_stands (commits tabs) hs (pbag hs i) (map ofZ x) (map ofZ y) /\ b_nv (pbag hs i) = n.
Example C49_ex_prover : met (sdis_tabs 7) /\ met (un_tabs [0; 3; 5; 6]%Z [0; 1; 1; 1]%Z) /\ met (df_tabs [1; 0]%Z) /\ met (in_tabs [0; 1]%Z).
Proof. repeat split; apply ex_bags; vm_compute; reflexivity. Qed.

(** Refuted: "an accepted disjointness proof makes the sets disjoint". A prover that is not the code's commits to the merged set (3, 5, 6) with the selector
    (1, 2, 1), so that 5 is counted twice, and then runs the code's checks. The proof that {5,3} and {5,6} are disjoint is accepted, and all its claims are true. *)
Definition merge_prove (c cs : list Z) (s : ptrk E101) (a b r : bag) : res (ptrk E101) :=
  let n := Nat.max (b_nv a) (b_nv b) + 1 in
  m <- from_evaluations n (map ofZ c) ;; ms <- from_evaluations n (map ofZ cs) ;;
  ' (x, s) <- tp_commit s m ;; ' (y, s) <- tp_commit s ms ;;
  s <- bag_sum_prove ix_o s a b (mkBag x y) ;; strict_sort_prove ix_o false s (mkBag x y) r.
Definition cheat_tabs : list (nat * list Z) := to7 ++ [(1, [5; 3]%Z); (1, [1; 1]%Z); (1, [5; 6]%Z); (1, [1; 1]%Z)].
Example cheat_run_fine : ix_run 3 (commits cheat_tabs) (nexts cheat_tabs) (fun s hs => merge_prove [0; 3; 5; 6]%Z [0; 1; 2; 1]%Z s (pbag hs 2) (pbag hs 4) (pbag hs 0))
  (fun v ids => set_disjoint_verify ix_o true v (vbag ids 2 1) (vbag ids 4 1) (vbag ids 0 3)) (columns cheat_tabs) = Some Fine.
Proof. vm_compute. reflexivity. Qed.
Theorem C49_disjoint_refuted : good_run 3 (commits cheat_tabs) (nexts cheat_tabs) (fun s hs => merge_prove [0; 3; 5; 6]%Z [0; 1; 2; 1]%Z s (pbag hs 2) (pbag hs 4) (pbag hs 0))
  (fun v ids => set_disjoint_verify ix_o true v (vbag ids 2 1) (vbag ids 4 1) (vbag ids 0 3)) (columns cheat_tabs).
Proof. exact (ix_good _ _ _ _ _ _ cheat_run_fine). Qed.
Print Assumptions C49_disjoint_refuted.

(** So the difference and the intersection are refuted as well: the difference {5,3} of {5,3} and {5,6} is accepted, and their empty intersection. *)
Definition cdf_tabs : list (nat * list Z) :=
  to7 ++ [(1, [5; 3]%Z); (1, [1; 1]%Z); (1, [5; 6]%Z); (1, [1; 1]%Z); (1, [5; 3]%Z); (1, [1; 1]%Z); (1, [0; 0]%Z); (1, [0; 0]%Z); (1, [0; 0]%Z)].
Definition cdf_prove (s : ptrk E101) (hs : list tpoly) : res (ptrk E101) :=
  s <- merge_prove [0; 3; 5; 6]%Z [0; 1; 2; 1]%Z s (pbag hs 6) (pbag hs 4) (pbag hs 0) ;; s <- bag_sum_prove ix_o s (pbag hs 6) (pbag hs 8) (pbag hs 2) ;; inclusion_prove_with_advice ix_o s (pbag hs 8) (pbag hs 4) (th hs 10).
Example cdf_run_fine : ix_run 3 (commits cdf_tabs) (nexts cdf_tabs) cdf_prove
  (fun v ids => set_diff_verify ix_o true v (vbag ids 2 1) (vbag ids 4 1) (vbag ids 6 1) (vbag ids 8 1) (vth ids 10) (vbag ids 0 3)) (columns cdf_tabs) = Some Fine.
Proof. vm_compute. reflexivity. Qed.
Theorem C49_difference_refuted : good_run 3 (commits cdf_tabs) (nexts cdf_tabs) cdf_prove
  (fun v ids => set_diff_verify ix_o true v (vbag ids 2 1) (vbag ids 4 1) (vbag ids 6 1) (vbag ids 8 1) (vth ids 10) (vbag ids 0 3)) (columns cdf_tabs).
Proof. exact (ix_good _ _ _ _ _ _ cdf_run_fine). Qed.
Print Assumptions C49_difference_refuted.
Definition cin_tabs : list (nat * list Z) :=
  to7 ++ [(1, [5; 3]%Z); (1, [1; 1]%Z); (1, [5; 6]%Z); (1, [1; 1]%Z); (1, [5; 3]%Z); (1, [1; 1]%Z); (1, [0; 0]%Z); (1, [0; 0]%Z); (1, [5; 6]%Z); (1, [1; 1]%Z)].
Definition cin_prove (s : ptrk E101) (hs : list tpoly) : res (ptrk E101) :=
  s <- bag_sum_prove ix_o s (pbag hs 6) (pbag hs 8) (pbag hs 2) ;; s <- bag_sum_prove ix_o s (pbag hs 8) (pbag hs 10) (pbag hs 4) ;; merge_prove [0; 3; 5; 6]%Z [0; 1; 2; 1]%Z s (pbag hs 6) (pbag hs 10) (pbag hs 0).
Example cin_run_fine : ix_run 3 (commits cin_tabs) (nexts cin_tabs) cin_prove
  (fun v ids => set_intersect_verify ix_o true v (vbag ids 2 1) (vbag ids 4 1) (vbag ids 6 1) (vbag ids 8 1) (vbag ids 10 1) (vbag ids 0 3)) (columns cin_tabs) = Some Fine.
Proof. vm_compute. reflexivity. Qed.
Theorem C49_intersection_refuted : good_run 3 (commits cin_tabs) (nexts cin_tabs) cin_prove
  (fun v ids => set_intersect_verify ix_o true v (vbag ids 2 1) (vbag ids 4 1) (vbag ids 6 1) (vbag ids 8 1) (vbag ids 10 1) (vbag ids 0 3)) (columns cin_tabs).
Proof. exact (ix_good _ _ _ _ _ _ cin_run_fine). Qed.
Print Assumptions C49_intersection_refuted.
