(** C42, C43, C44: bag equality, bag sum, bag inclusion. *)
From Coq Require Import String List Arith Bool ZArith Znumtheory Permutation.
Import ListNotations.
From Verif Require Import Res Fp FSum SpecMle SpecPoly SpecTracker SpecIop ModelMle ModelTranscript Pairing ModelKzg ModelProver ModelVerifier ModelAdvice ModelIop
  ProverHist VerifierHist SessHist CompileHist IopHist LogDeriv IopCheck IopClaims IopFix SessProofs.
Local Open Scope list_scope.
Local Open Scope nat_scope.

Local Notation "'i' n" := (@ofZ 101 n%Z) (at level 9).
Local Definition th (hs : list tpoly) (n : nat) : tpoly := nth n hs (mkTp 0 0).
Local Definition vth (ids : list nat) (n : nat) : nat := nth n ids 0.
(** A history that commits to the given tables, and its counterpart. *)
Local Definition commits (ts : list (nat * list Z)) : list (pop 101) := map (fun t => OCommit (fst t) (map ofZ (snd t))) ts.
Local Definition nexts (ts : list (nat * list Z)) : list (vop E101) := map (fun _ => VONext) ts.
Local Definition columns (ts : list (nat * list Z)) : list (nat * nat * list (F 101)) := map (fun t => (fst t, fst (snd t), map ofZ (snd (snd t)))) (combine (seq 0 (length ts)) ts).

(** ** C42: equality of bags *)

(** One challenge is drawn. If it is no element, permutations are accepted, and bags that are not permutations of each other are rejected unless the
    challenge is unlucky. If it is an element, a debug prover refuses to compile. *)
Theorem C42_prover : forall (p : positive) (E : pairing p), pairing_laws E -> prime (Zpos p) ->
  forall (o : oracle p (gcar (PG1 E))) addr k ck vk ops vops s hs d D, setting o addr k ck vk ops vops s hs d D -> 1 <= D -> d <= D ->
  forall fx gx l sl l' sl', bag_stands ops hs fx l sl -> bag_stands ops hs gx l' sl' -> b_nv fx = b_nv gx -> 1 <= d -> 2 * d + 1 <= D ->
  exists s' g, bag_eq_prove o s fx gx = Ok s' /\ drawn (pt_tr s) (pt_tr s') = [g] /\
    let verify debug v := bag_eq_verify o debug v (comm_of fx) (comm_of gx) in
    (~ In g (l ++ l') -> boolean sl -> boolean sl' -> length l < fsize p ->
      (Permutation (rows l sl) (rows l' sl') -> accepted o addr vk vops s' verify) /\
      (~ Permutation (rows l sl) (rows l' sl') -> ~ unlucky (combine l sl) (combine l' sl') g -> rejected o addr vk vops s' verify IOPInvalidVerifier)) /\
    (In g (l ++ l') -> refused addr k s').
Proof. intros p E HE Hp. exact (bag_eq_check HE Hp). Qed.
Print Assumptions C42_prover.

(** Bags of different shapes are an error for the prover. *)
Theorem C42_shapes : forall (p : positive) (E : pairing p) (o : oracle p (gcar (PG1 E))) (s : ptrk E) fx gx, b_nv fx <> b_nv gx -> bag_eq_prove o s fx gx = Err IOPInvalidParameters.
Proof. exact @bag_eq_shapes. Qed.
Print Assumptions C42_shapes.

(** Whatever the prover committed to: true claims make the bags permutations of each other, unless the challenge is unlucky. *)
Theorem C42_verifier : forall (p : positive) (E : pairing p) (o : oracle p (gcar (PG1 E))), prime (Zpos p) -> 2 < fsize p ->
  forall v v' v'', in_session o v -> vcalls o v' v'' ->
  forall A N, claims_hold A N v'' -> forall dbg fx gx l sl l' sl', bag_eq_verify o dbg v fx gx = Ok v' ->
  reads A N v (bc_poly fx) (bc_nv fx) l -> reads A N v (bc_sel fx) (bc_nv fx) sl -> reads A N v (bc_poly gx) (bc_nv gx) l' -> reads A N v (bc_sel gx) (bc_nv gx) sl' ->
  boolean sl -> boolean sl' -> length l < fsize p -> length l' < fsize p ->
  exists g, drawn (vt_tr v) (vt_tr v') = [g] /\ ~ In g (l ++ l') /\ (~ unlucky (combine l sl) (combine l' sl') g -> Permutation (rows l sl) (rows l' sl')).
Proof. intros p E o Hp H2 v v' v'' HV HL A N HC. exact (bag_eq_claims o Hp H2 v v' v'' A N (session_ready o Hp H2 v HV) (vcalls_go o Hp H2 v' v'' HL) HC). Qed.
Print Assumptions C42_verifier.

(** (3,5,5,7) with the last row not selected, and (5,3,x,5) with the third row not selected. *)
Definition ex_tabs (y : Z) : list (nat * list Z) := [(2, [3; 5; 5; 7]%Z); (2, [1; 1; 1; 0]%Z); (2, [5; 3; 9; y]%Z); (2, [1; 1; 0; 1]%Z)].
Definition ex_run (y : Z) : option outcome :=
  ix_run 2 (commits (ex_tabs y)) (nexts (ex_tabs y)) (fun s hs => bag_eq_prove ix_o s (mkBag (th hs 0) (th hs 1)) (mkBag (th hs 2) (th hs 3)))
    (fun v ids => bag_eq_verify ix_o true v (mkBagc (vth ids 0) (vth ids 1) 2) (mkBagc (vth ids 2) (vth ids 3) 2)) (columns (ex_tabs y)).
Example C42_ex : ex_run 5 = Some Fine /\ ex_run 6 = Some NotVerified /\ ex_run 45 = Some NotCompiled.
Proof. vm_compute. repeat split. Qed.
Example C42_ex_verifier : exists vk cp v ids v' A N, vrun ix_o true vk cp (nexts (ex_tabs 5)) = Ok (v, ids) /\
  bag_eq_verify ix_o true v (mkBagc (vth ids 0) (vth ids 1) 2) (mkBagc (vth ids 2) (vth ids 3) 2) = Ok v' /\ claims_hold A N v' /\ forall id n l, In (id, n, l) (columns (ex_tabs 5)) -> reads A N v id n l.
Proof. exact (ix_fine _ _ _ _ _ _ (proj1 C42_ex)). Qed.

(** ** C43: sums of bags *)
Theorem C43_prover : forall (p : positive) (E : pairing p), pairing_laws E -> prime (Zpos p) ->
  forall (o : oracle p (gcar (PG1 E))) addr k ck vk ops vops s hs d D, setting o addr k ck vk ops vops s hs d D -> 1 <= D -> d <= D ->
  forall f0 f1 gx l0 sl0 l1 sl1 l sl, bag_stands ops hs f0 l0 sl0 -> bag_stands ops hs f1 l1 sl1 -> bag_stands ops hs gx l sl -> 1 <= d -> 2 * d + 1 <= D ->
  exists s' g, bag_sum_prove o s f0 f1 gx = Ok s' /\ drawn (pt_tr s) (pt_tr s') = [g] /\
    let verify debug v := bag_sum_verify o debug v (comm_of f0) (comm_of f1) (comm_of gx) in
    (~ In g (l0 ++ l1 ++ l) -> boolean sl0 -> boolean sl1 -> boolean sl -> length l0 + length l1 < fsize p -> length l < fsize p ->
      (Permutation (rows l0 sl0 ++ rows l1 sl1) (rows l sl) -> accepted o addr vk vops s' verify) /\
      (~ Permutation (rows l0 sl0 ++ rows l1 sl1) (rows l sl) -> ~ unlucky (combine l0 sl0 ++ combine l1 sl1) (combine l sl) g -> rejected o addr vk vops s' verify IOPInvalidVerifier)) /\
    (In g (l0 ++ l1 ++ l) -> refused addr k s').
Proof. intros p E HE Hp. exact (bag_sum_check HE Hp). Qed.
Print Assumptions C43_prover.

Theorem C43_verifier : forall (p : positive) (E : pairing p) (o : oracle p (gcar (PG1 E))), prime (Zpos p) -> 2 < fsize p ->
  forall v v' v'', in_session o v -> vcalls o v' v'' ->
  forall A N, claims_hold A N v'' -> forall dbg f0 f1 gx l0 sl0 l1 sl1 l sl, bag_sum_verify o dbg v f0 f1 gx = Ok v' ->
  reads A N v (bc_poly f0) (bc_nv f0) l0 -> reads A N v (bc_sel f0) (bc_nv f0) sl0 -> reads A N v (bc_poly f1) (bc_nv f1) l1 -> reads A N v (bc_sel f1) (bc_nv f1) sl1 ->
  reads A N v (bc_poly gx) (bc_nv gx) l -> reads A N v (bc_sel gx) (bc_nv gx) sl ->
  boolean sl0 -> boolean sl1 -> boolean sl -> length l0 + length l1 < fsize p -> length l < fsize p ->
  exists g, drawn (vt_tr v) (vt_tr v') = [g] /\ ~ In g (l0 ++ l1 ++ l) /\
    (~ unlucky (combine l0 sl0 ++ combine l1 sl1) (combine l sl) g -> Permutation (rows l0 sl0 ++ rows l1 sl1) (rows l sl)).
Proof. intros p E o Hp H2 v v' v'' HV HL A N HC. exact (bag_sum_claims o Hp H2 v v' v'' A N (session_ready o Hp H2 v HV) (vcalls_go o Hp H2 v' v'' HL) HC). Qed.
Print Assumptions C43_verifier.

(** {3,5} + {5} = {3,5,5}: two variables, one variable, two variables. *)
Definition ux_tabs (y : Z) : list (nat * list Z) := [(2, [3; 5; 5; 7]%Z); (2, [1; 1; 0; 0]%Z); (1, [8; 5]%Z); (1, [0; 1]%Z); (2, [5; 3; 9; y]%Z); (2, [1; 1; 0; 1]%Z)].
Definition ux_run (y : Z) : option outcome :=
  ix_run 2 (commits (ux_tabs y)) (nexts (ux_tabs y)) (fun s hs => bag_sum_prove ix_o s (mkBag (th hs 0) (th hs 1)) (mkBag (th hs 2) (th hs 3)) (mkBag (th hs 4) (th hs 5)))
    (fun v ids => bag_sum_verify ix_o true v (mkBagc (vth ids 0) (vth ids 1) 2) (mkBagc (vth ids 2) (vth ids 3) 1) (mkBagc (vth ids 4) (vth ids 5) 2)) (columns (ux_tabs y)).
Example C43_ex : ux_run 5 = Some Fine /\ ux_run 3 = Some NotVerified /\ ux_run 47 = Some NotCompiled.
Proof. vm_compute. repeat split. Qed.

(** ** C44: inclusion of bags *)

(** The prover commits to multiplicities: a weighting of the super bag that counts the included rows. *)
Theorem C44_prover : forall (p : positive) (E : pairing p), pairing_laws E -> prime (Zpos p) ->
  forall (o : oracle p (gcar (PG1 E))) addr k ck vk ops vops s hs d D, setting o addr k ck vk ops vops s hs d D -> 1 <= D -> d <= D ->
  forall fx gx l sl l' sl', bag_stands ops hs fx l sl -> bag_stands ops hs gx l' sl' -> boolean sl' -> 1 <= d -> 2 * d + 1 <= D ->
  exists s' g ml, inclusion_prove o s fx gx = Ok s' /\ drawn (pt_tr s) (pt_tr s') = [g] /\ length ml = length l' /\ counts_of (rows l sl) (rows l' sl') (wcol l' sl' ml) /\
    let verify debug v := inclusion_verify o debug v (comm_of fx) (comm_of gx) in
    (~ In g (l ++ l') -> boolean sl -> length l < fsize p ->
      (incl (rows l sl) (rows l' sl') -> accepted o addr vk vops s' verify) /\
      (~ incl (rows l sl) (rows l' sl') -> ~ unlucky (combine l sl) (wcol l' sl' ml) g -> rejected o addr vk vops s' verify IOPInvalidVerifier)) /\
    (In g (l ++ l') -> refused addr k s').
Proof. intros p E HE Hp. exact (inclusion_check HE Hp). Qed.
Print Assumptions C44_prover.

(** With multiplicities given by the caller: the weighted super bag must be the included bag. *)
Theorem C44_prover_with_advice : forall (p : positive) (E : pairing p), pairing_laws E -> prime (Zpos p) ->
  forall (o : oracle p (gcar (PG1 E))) addr k ck vk ops vops s hs d D, setting o addr k ck vk ops vops s hs d D -> 1 <= D -> d <= D ->
  forall fx gx m l sl l' sl' ml, bag_stands ops hs fx l sl -> bag_stands ops hs gx l' sl' -> stands ops hs m ml -> b_nv gx = tp_nv m -> 1 <= d -> 2 * d + 1 <= D ->
  exists s' g, inclusion_prove_with_advice o s fx gx m = Ok s' /\ drawn (pt_tr s) (pt_tr s') = [g] /\
    let verify debug v := inclusion_verify_with_advice o debug v (comm_of fx) (comm_of gx) (tp_id m) in
    (~ In g (l ++ l') ->
      (same_bag (combine l sl) (wcol l' sl' ml) -> accepted o addr vk vops s' verify) /\
      (~ same_bag (combine l sl) (wcol l' sl' ml) -> ~ unlucky (combine l sl) (wcol l' sl' ml) g -> rejected o addr vk vops s' verify IOPInvalidVerifier)) /\
    (In g (l ++ l') -> refused addr k s').
Proof. intros p E HE Hp. exact (inclusion_wa_check HE Hp). Qed.
Print Assumptions C44_prover_with_advice.

(** Whatever multiplicities the prover committed to (under the id [m]): true claims prove the inclusion, unless the challenge is unlucky. *)
Theorem C44_verifier : forall (p : positive) (E : pairing p) (o : oracle p (gcar (PG1 E))), prime (Zpos p) -> 2 < fsize p ->
  forall v v' v'', in_session o v -> vcalls o v' v'' ->
  forall A N, claims_hold A N v'' -> forall dbg fx gx l sl l' sl', inclusion_verify o dbg v fx gx = Ok v' ->
  reads A N v (bc_poly fx) (bc_nv fx) l -> reads A N v (bc_sel fx) (bc_nv fx) sl -> reads A N v (bc_poly gx) (bc_nv gx) l' -> reads A N v (bc_sel gx) (bc_nv gx) sl' ->
  boolean sl -> length l < fsize p ->
  exists g m, drawn (vt_tr v) (vt_tr v') = [g] /\ mget (vt_virt v) m = None /\ mget (vt_virt v') m = Some (VQuery m) /\ ~ In g (l ++ l') /\
    (~ unlucky (combine l sl) (wcol l' sl' (averaged A N m (bc_nv gx))) g -> incl (rows l sl) (rows l' sl')).
Proof. intros p E o Hp H2 v v' v'' HV HL A N HC. exact (inclusion_claims o Hp H2 v v' v'' A N (session_ready o Hp H2 v HV) (vcalls_go o Hp H2 v' v'' HL) HC). Qed.
Print Assumptions C44_verifier.

Theorem C44_verifier_with_advice : forall (p : positive) (E : pairing p) (o : oracle p (gcar (PG1 E))), prime (Zpos p) -> 2 < fsize p ->
  forall v v' v'', in_session o v -> vcalls o v' v'' ->
  forall A N, claims_hold A N v'' -> forall dbg fx gx m l sl l' sl' ml, inclusion_verify_with_advice o dbg v fx gx m = Ok v' ->
  reads A N v (bc_poly fx) (bc_nv fx) l -> reads A N v (bc_sel fx) (bc_nv fx) sl -> reads A N v (bc_poly gx) (bc_nv gx) l' -> reads A N v (bc_sel gx) (bc_nv gx) sl' -> reads A N v m (bc_nv gx) ml ->
  boolean sl -> length l < fsize p ->
  exists g, drawn (vt_tr v) (vt_tr v') = [g] /\ ~ In g (l ++ l') /\
    (~ unlucky (combine l sl) (wcol l' sl' ml) g -> same_bag (combine l sl) (wcol l' sl' ml) /\ incl (rows l sl) (rows l' sl')).
Proof. intros p E o Hp H2 v v' v'' HV HL A N HC. exact (inclusion_wa_claims o Hp H2 v v' v'' A N (session_ready o Hp H2 v HV) (vcalls_go o Hp H2 v' v'' HL) HC). Qed.
Print Assumptions C44_verifier_with_advice.

(** The rows 3, 5, 5 of a bag with two variables are among the rows 5, 3 of one with one variable; 3, 5, 6 are not. *)
Definition wx_tabs (y : Z) : list (nat * list Z) := [(2, [3; 5; y; 7]%Z); (2, [1; 1; 1; 0]%Z); (1, [5; 3]%Z); (1, [1; 1]%Z); (1, [2; 1]%Z)].
Definition wx_run (y : Z) : option outcome :=
  ix_run 2 (commits (wx_tabs y)) (nexts (wx_tabs y)) (fun s hs => inclusion_prove ix_o s (mkBag (th hs 0) (th hs 1)) (mkBag (th hs 2) (th hs 3)))
    (fun v ids => inclusion_verify ix_o true v (mkBagc (vth ids 0) (vth ids 1) 2) (mkBagc (vth ids 2) (vth ids 3) 1)) (columns (wx_tabs y)).
Definition wx_run_with_advice (y : Z) : option outcome :=
  ix_run 2 (commits (wx_tabs y)) (nexts (wx_tabs y)) (fun s hs => inclusion_prove_with_advice ix_o s (mkBag (th hs 0) (th hs 1)) (mkBag (th hs 2) (th hs 3)) (th hs 4))
    (fun v ids => inclusion_verify_with_advice ix_o true v (mkBagc (vth ids 0) (vth ids 1) 2) (mkBagc (vth ids 2) (vth ids 3) 1) (vth ids 4)) (columns (wx_tabs y)).
Example C44_ex : wx_run 5 = Some Fine /\ wx_run 6 = Some NotVerified /\ wx_run_with_advice 5 = Some Fine /\ wx_run_with_advice 3 = Some NotVerified /\ wx_run_with_advice 46 = Some NotCompiled.
Proof. vm_compute. repeat split. Qed.
