(** C38, C39, C40, C41: selector validity, no zeros, and the multiset tool. *)
From Coq Require Import String List Arith Bool ZArith Znumtheory Permutation.
Import ListNotations.
From Verif Require Import Res Fp FSum SpecMle SpecPoly SpecTracker SpecIop ModelMle ModelTranscript Pairing ModelKzg ModelProver ModelVerifier ModelAdvice ModelIop
  ProverHist VerifierHist SessHist CompileHist IopHist LogDeriv IopCheck IopClaims IopFix SessProofs.
Local Open Scope list_scope.
Local Open Scope nat_scope.

Local Notation "'i' n" := (@ofZ 101 n%Z) (at level 9).

(** ** C38: the selector check *)

(** The honest prover's call succeeds. If the selector is 0/1-valued the proof is accepted, otherwise a debug prover refuses to compile it. *)
Theorem C38_prover : forall (p : positive) (E : pairing p), pairing_laws E -> prime (Zpos p) ->
  forall (o : oracle p (gcar (PG1 E))) addr k ck vk ops vops s hs d D, setting o addr k ck vk ops vops s hs d D -> 1 <= D -> d <= D ->
  forall sel l, stands ops hs sel l -> 1 <= d -> 2 * d <= D ->
  exists s', selector_valid_prove s sel = Ok s' /\ drawn (pt_tr s) (pt_tr s') = [] /\
    (boolean l -> accepted o addr vk vops s' (fun _ v => selector_valid_verify v (tp_id sel))) /\
    (~ boolean l -> refused addr k s').
Proof. intros p E HE Hp. exact (selector_check HE Hp). Qed.
Print Assumptions C38_prover.

(** A verifier whose claims are true holds a 0/1-valued selector. *)
Theorem C38_verifier : forall (p : positive) (E : pairing p) (o : oracle p (gcar (PG1 E))), prime (Zpos p) -> 2 < fsize p ->
  forall v v' v'', in_session o v -> vcalls o v' v'' ->
  forall A N, claims_hold A N v'' -> forall sel n l, selector_valid_verify v sel = Ok v' -> reads A N v sel n l ->
  drawn (vt_tr v) (vt_tr v') = [] /\ boolean l.
Proof. intros p E o Hp H2 v v' v'' HV HL A N HC. exact (selector_claims Hp H2 v v' v'' A N (session_ready o Hp H2 v HV) (vcalls_go o Hp H2 v' v'' HL) HC). Qed.
Print Assumptions C38_verifier.

(** The selector (1,0,1,1) with another polynomial in two variables; with (1,2,1,1) the debug prover does not compile. *)
Definition sx_ops (x : Z) : list (pop 101) := [OCommit 2 [i 1; i x; i 1; i 1]; OCommit 2 [i 3; i 5; i 0; i 7]].
Definition sx_vops : list (vop E101) := [VONext; VONext].
Definition th (hs : list tpoly) (n : nat) : tpoly := nth n hs (mkTp 0 0).
Definition sx_run (x : Z) : option outcome :=
  ix_run 2 (sx_ops x) sx_vops (fun s hs => selector_valid_prove s (th hs 0)) (fun v ids => selector_valid_verify v (nth 0 ids 0)) [(0, 2, [i 1; i x; i 1; i 1])].
Example C38_ex : sx_run 0 = Some Fine /\ sx_run 2 = Some NotCompiled.
Proof. vm_compute. split; reflexivity. Qed.
(** The hypotheses of the verifier's theorem are met by such a run. *)
Example C38_ex_verifier : exists vk cp v ids v' A N, vrun ix_o true vk cp sx_vops = Ok (v, ids) /\ selector_valid_verify v (nth 0 ids 0) = Ok v' /\ claims_hold A N v' /\
  reads A N v 0 2 [i 1; i 0; i 1; i 1].
Proof.
  destruct (ix_fine _ _ _ _ _ _ (proj1 C38_ex)) as [vk [cp [v [ids [v' [A [N [H1 [H2 [H3 H4]]]]]]]]]]. exists vk, cp, v, ids, v', A, N. split; [exact H1|]. split; [exact H2|]. split; [exact H3|]. apply H4. left. reflexivity.
Qed.
(** A setting of the theorems on honest provers, with a history of two commitments. *)
Example C38_ex_setting : exists ck vk s hs, setting ix_o (fun n => n) 2 ck vk (sx_ops 0) sx_vops s hs 1 5 /\ stands (sx_ops 0) hs (th hs 0) [i 1; i 0; i 1; i 1].
Proof. exact sx_setting. Qed.

(** ** C39: no zeros *)

(** The honest prover commits to inverses. If no selected row is zero the proof is accepted, otherwise a debug prover refuses to compile it. *)
Theorem C39_prover : forall (p : positive) (E : pairing p), pairing_laws E -> prime (Zpos p) ->
  forall (o : oracle p (gcar (PG1 E))) addr k ck vk ops vops s hs d D, setting o addr k ck vk ops vops s hs d D -> 1 <= D -> d <= D ->
  forall b l sl, bag_stands ops hs b l sl -> 1 <= d -> 2 * d + 1 <= D ->
  exists s', no_zeros_prove s b = Ok s' /\ drawn (pt_tr s) (pt_tr s') = [] /\
    (~ In F0 (rows l sl) -> accepted o addr vk vops s' (fun debug v => no_zeros_verify debug v (comm_of b))) /\
    (In F0 (rows l sl) -> refused addr k s').
Proof. intros p E HE Hp. exact (no_zeros_check HE Hp). Qed.
Print Assumptions C39_prover.

(** Whatever the prover committed to: a verifier whose claims are true holds a bag with no selected zero. *)
Theorem C39_verifier : forall (p : positive) (E : pairing p) (o : oracle p (gcar (PG1 E))), prime (Zpos p) -> 2 < fsize p ->
  forall v v' v'', in_session o v -> vcalls o v' v'' ->
  forall A N, claims_hold A N v'' -> forall dbg b l sl, no_zeros_verify dbg v b = Ok v' ->
  reads A N v (bc_poly b) (bc_nv b) l -> reads A N v (bc_sel b) (bc_nv b) sl ->
  drawn (vt_tr v) (vt_tr v') = [] /\ ~ In F0 (rows l sl).
Proof. intros p E o Hp H2 v v' v'' HV HL A N HC. exact (no_zeros_claims H2 v v' v'' A N (session_ready o Hp H2 v HV) (vcalls_go o Hp H2 v' v'' HL) HC). Qed.
Print Assumptions C39_verifier.

(** The column (3,5,0,7) has no zero selected by (1,x,0,1); by (1,1,1,1) it has. *)
Definition nx_ops (x : Z) : list (pop 101) := [OCommit 2 [i 3; i 5; i 0; i 7]; OCommit 2 [i 1; i 0; i x; i 1]].
Definition nx_run (x : Z) : option outcome :=
  ix_run 2 (nx_ops x) sx_vops (fun s hs => no_zeros_prove s (mkBag (th hs 0) (th hs 1))) (fun v ids => no_zeros_verify true v (mkBagc (nth 0 ids 0) (nth 1 ids 0) 2))
    [(0, 2, [i 3; i 5; i 0; i 7]); (1, 2, [i 1; i 0; i x; i 1])].
Example C39_ex : nx_run 0 = Some Fine /\ nx_run 1 = Some NotCompiled.
Proof. vm_compute. split; reflexivity. Qed.

(** ** C40: the multiset tool, honest prover *)

(** One challenge is drawn. If it is no element of a bag, the proof is accepted when the weighted bags agree, and the verifier's
    comparison of sums fails when they do not, unless the challenge is one of the few unlucky ones. If it is an element, a debug prover refuses to compile. *)
Theorem C40_prover : forall (p : positive) (E : pairing p), pairing_laws E -> prime (Zpos p) ->
  forall (o : oracle p (gcar (PG1 E))) addr k ck vk ops vops s hs d D, setting o addr k ck vk ops vops s hs d D -> 1 <= D -> d <= D ->
  forall fx gx mf mg ts us, fx <> [] -> gx <> [] -> length fx = length mf -> length gx = length mg ->
  Forall2 (item_stands ops hs) (combine fx mf) ts -> Forall2 (item_stands ops hs) (combine gx mg) us -> 1 <= d -> 2 * d + 1 <= D ->
  exists s' g, multitool_prove o s fx gx mf mg = Ok s' /\ drawn (pt_tr s) (pt_tr s') = [g] /\
    let verify debug v := multitool_verify o debug v (map comm_of fx) (map comm_of gx) (map tp_id mf) (map tp_id mg) in
    (~ In g (map fst (wcols ts ++ wcols us)) ->
      (same_bag (wcols ts) (wcols us) -> accepted o addr vk vops s' verify) /\
      (~ same_bag (wcols ts) (wcols us) -> ~ unlucky (wcols ts) (wcols us) g -> rejected o addr vk vops s' verify IOPInvalidVerifier)) /\
    (In g (map fst (wcols ts ++ wcols us)) -> refused addr k s').
Proof. intros p E HE Hp. exact (multitool_check HE Hp). Qed.
Print Assumptions C40_prover.

(** The unlucky challenges are fewer than the different elements of the bags. *)
Theorem C40_few_unlucky : forall (p : positive), prime (Zpos p) -> forall (a b : wbag (p:=p)) gs, NoDup gs -> Forall (unlucky a b) gs ->
  length gs = 0 \/ length gs < length (nodup F_dec (map fst (a ++ b))).
Proof. intros p Hp. exact (unlucky_few Hp). Qed.
Print Assumptions C40_few_unlucky.

(** (3,5,5,7) with selector (1,1,1,0) and multiplicities (2,1,x,9) against (5,3) with multiplicities (4,2): the bags agree for x = 3. The two sides have two and
    one variables. With the challenge 47 that the run draws made an element, the prover does not compile. *)
Definition mx_ops (x y : Z) : list (pop 101) :=
  [OCommit 2 [i 3; i 5; i 5; i y]; OCommit 2 [i 1; i 1; i 1; i 0]; OCommit 2 [i 2; i 1; i x; i 9]; OCommit 1 [i 5; i 3]; OCommit 1 [i 1; i 1]; OCommit 1 [i 4; i 2]].
Definition mx_vops : list (vop E101) := [VONext; VONext; VONext; VONext; VONext; VONext].
Definition mx_run (x y : Z) : option outcome :=
  ix_run 2 (mx_ops x y) mx_vops (fun s hs => multitool_prove ix_o s [mkBag (th hs 0) (th hs 1)] [mkBag (th hs 3) (th hs 4)] [th hs 2] [th hs 5])
    (fun v ids => multitool_verify ix_o true v [mkBagc (nth 0 ids 0) (nth 1 ids 0) 2] [mkBagc (nth 3 ids 0) (nth 4 ids 0) 1] [nth 2 ids 0] [nth 5 ids 0])
    [(0, 2, [i 3; i 5; i 5; i y]); (1, 2, [i 1; i 1; i 1; i 0]); (2, 2, [i 2; i 1; i x; i 9]); (3, 1, [i 5; i 3]); (4, 1, [i 1; i 1]); (5, 1, [i 4; i 2])].
Definition mx_challenge : option Z :=
  match ix_keys 2 with
  | Ok (ck, _) => match prun ix_o ck (mx_ops 3 7) with
                  | Ok (s, hs) => match multitool_prove ix_o s [mkBag (th hs 0) (th hs 1)] [mkBag (th hs 3) (th hs 4)] [th hs 2] [th hs 5] with
                                  | Ok s' => match drawn (pt_tr s) (pt_tr s') with [g] => Some (val g) | _ => None end
                                  | _ => None
                                  end
                  | _ => None
                  end
  | _ => None
  end.
Example C40_ex : mx_run 3 7 = Some Fine /\ mx_run 4 7 = Some NotVerified /\ mx_challenge = Some 47%Z /\ mx_run 3 47 = Some NotCompiled.
Proof. vm_compute. repeat split. Qed.

(** ** C41: the multiset tool, true claims *)

(** Whatever the prover committed to: if the claims are true, the challenge is no element, and the weighted bags agree unless it is unlucky. *)
Theorem C41_verifier : forall (p : positive) (E : pairing p) (o : oracle p (gcar (PG1 E))), prime (Zpos p) -> 2 < fsize p ->
  forall v v' v'', in_session o v -> vcalls o v' v'' ->
  forall A N, claims_hold A N v'' -> forall dbg fx gx mf mg ts us, multitool_verify o dbg v fx gx mf mg = Ok v' -> length fx = length mf -> length gx = length mg ->
  Forall2 (item_reads A N v) (combine fx mf) ts -> Forall2 (item_reads A N v) (combine gx mg) us ->
  exists g, drawn (vt_tr v) (vt_tr v') = [g] /\ ~ In g (map fst (wcols ts ++ wcols us)) /\
    (~ unlucky (wcols ts) (wcols us) g -> same_bag (wcols ts) (wcols us)).
Proof. intros p E o Hp H2 v v' v'' HV HL A N HC. exact (multitool_claims o Hp H2 v v' v'' A N (session_ready o Hp H2 v HV) (vcalls_go o Hp H2 v' v'' HL) HC). Qed.
Print Assumptions C41_verifier.

Example C41_ex : exists vk cp v ids v' A N, vrun ix_o true vk cp mx_vops = Ok (v, ids) /\
  multitool_verify ix_o true v [mkBagc (nth 0 ids 0) (nth 1 ids 0) 2] [mkBagc (nth 3 ids 0) (nth 4 ids 0) 1] [nth 2 ids 0] [nth 5 ids 0] = Ok v' /\ claims_hold A N v' /\
  item_reads A N v (mkBagc 0 1 2, 2) ([i 3; i 5; i 5; i 7], [i 1; i 1; i 1; i 0], [i 2; i 1; i 3; i 9]) /\ item_reads A N v (mkBagc 3 4 1, 5) ([i 5; i 3], [i 1; i 1], [i 4; i 2]).
Proof.
  destruct (ix_fine _ _ _ _ _ _ (proj1 C40_ex)) as [vk [cp [v [ids [v' [A [N [H1 [H2 [H3 H4]]]]]]]]]]. exists vk, cp, v, ids, v', A, N. split; [exact H1|]. split; [exact H2|]. split; [exact H3|].
  split; (split; [|split]); cbn [fst snd bc_poly bc_sel bc_nv]; apply H4; cbn [In]; tauto.
Qed.
