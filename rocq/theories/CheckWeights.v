(** The comparison and the challenge of the multiset tool together: how often bags with different weights pass. *)
From Coq Require Import String List Arith Lia Bool ZArith Znumtheory Permutation.
Import ListNotations.
From Verif Require Import Res ResLemmas Fp FSum SpecMle SpecPoly SpecTracker SpecIop ModelTranscript SumcheckHist PolyLemmas Pairing ModelKzg ModelBatch ModelProver ModelVerifier ModelIop
  LogDeriv BagLemmas SortSound IopHist IopClaims SessHist SessProofs CheckHist CheckProofs CheckIopHist CheckIop.
Local Open Scope list_scope.
Local Open Scope nat_scope.

Section P.
Context {p : positive} {E : pairing p}.
Hypothesis Hp : prime (Zpos p).
Hypothesis H22 : 2 < fsize p.
Notation F := (F p).
Notation comm := (gcar (PG1 E)).

Lemma multitool_count : forall (A : list F -> reading) N d D m st q (last : list F -> option (vtrk E)) debug fx gx mf mg ts us,
  1 <= d -> d < fsize p -> length fx = length mf -> length gx = length mg ->
  (forall gs u, length gs = 1 -> last gs = Some u -> checkable (A gs) N d D m u /\ (forall ch, queries_true (A gs) (facing (st gs) (q gs) u ch)) /\
     exists v v', after_call (fun o v => multitool_verify o debug v fx gx mf mg) gs v v' u /\
       Forall2 (item_reads (A gs) N v) (combine fx mf) ts /\ Forall2 (item_reads (A gs) N v) (combine gx mg) us) ->
  ~ same_bag (wcols ts) (wcols us) ->
  count (passes_after 1 st q last) (allV p (1 + (m + N))) <= (length (wcols ts) + length (wcols us) + (N + 2 + N * Nat.max d (D + 1))) * fsize p ^ (m + N).
Proof.
  intros A N d D m st q last debug fx gx mf mg ts us H1 H2 L1 L2 HL Hno.
  replace (m + N) with (1 + (m + N) - 1) at 2 by lia.
  apply (after_count_any Hp H22 1 (fun _ g => unlucky (wcols ts) (wcols us) g) (fun _ => length (wcols ts) + length (wcols us)) A N d D m st q last (length (wcols ts) + length (wcols us)) H1 H2).
  - intros pre _. exact (unlucky_count Hp H22 (wcols ts) (wcols us)).
  - intros gs u Hk Hu. destruct (HL gs u Hk Hu) as [C [Q [v [v' [Ha [R0 R1]]]]]].
    split; [apply (after_session (fun o v => multitool_verify o debug v fx gx mf mg) gs v v' u); [intros o0 v0 v1 H0; eapply vc_multitool; exact H0|exact Ha]|]. split; [exact C|]. split; [exact Q|].
    intros Hc Hgood. destruct Ha as [o [S1 [S2 [S3 S4]]]]. pose proof (session_ready o Hp H22 v S1) as RV. pose proof (vcalls_go o Hp H22 v' u S4) as RL.
    destruct (multitool_claims o Hp H22 v v' u (A gs) N RV RL Hc debug fx gx mf mg ts us S2 L1 L2 R0 R1) as [g [X1 [_ X3]]].
    rewrite S3 in X1. clear S3. subst gs. specialize (Hgood 0 Nat.lt_0_1). cbn [firstn nth] in Hgood. apply Hno. apply (X3 Hgood).
  - cbn [seq map list_sum fold_right]. lia.
Qed.
End P.
