(** A concrete wrong-value batch proof, over every pairing on the field with 13 elements. *)
From Coq Require Import String List Arith Lia Bool ZArith Znumtheory.
Import ListNotations.
From Verif Require Import Res Fp FSum SpecMle SpecPoly SpecSumcheck SpecKzg SpecBatch ModelMle ModelTranscript ModelSumcheck Pairing ModelKzg KzgHist KzgExtra ModelBatch BatchProofs BatchExtra.
Local Open Scope string_scope.
Local Open Scope list_scope.
Local Open Scope nat_scope.
Local Notation "'i13' n" := (@ofZ 13 n%Z) (at level 9).

Definition bx_f : mle 13 := mkMle 2 [i13 3; i13 1; i13 4; i13 5].
Definition bx_g : mle 13 := mkMle 2 [i13 2; i13 7; i13 1; i13 8].
Definition bx_polys : list (mle 13) := [bx_f; bx_g; bx_f].
Definition bx_points : list (list (F 13)) := [[i13 6; i13 9]; [i13 2; i13 0]; [i13 2; i13 0]].
Definition bx_rnd (i : nat) : F 13 := ofN (2 * i + 5).
Definition bx_o : oracle 13 nat := fun h _ => ofN (length h + 2).
Definition bx_t : tr 13 nat := append "start" (PF (i13 1)) (mkTr [] true).
(** The forged sum-check proof and the wrong values. *)
Definition bx_vs : list (F 13) := [i13 1; i13 1; i13 1].
Definition bx_pf : proof 13 := mkProof [i13 5; i13 7] [[i13 0; i13 12; i13 0]; [i13 0; i13 11; i13 0]].

Lemma bx_wf : batch_wf 2 bx_polys bx_points.
Proof.
  split; [reflexivity|]. split.
  - intros f [<-|[<-|[<-|[]]]]; split; reflexivity.
  - intros z [<-|[<-|[<-|[]]]]; reflexivity.
Qed.

Lemma bx_forged : exists ts t1 sub t', draw_vecT bx_o "t" (Nat.log2_up (length bx_polys)) bx_t = Ok (ts, t1) /\
  sc_verify bx_o (combination ts bx_vs) bx_pf 2 2 t1 = Ok (sub, t') /\
  Feqb (sub_eval sub) (batch_poly bx_polys bx_points ts (pf_point bx_pf)) = true /\
  Feqb (combination ts bx_vs) (combination ts (open_values bx_polys bx_points)) = false /\
  map val (sub_point sub) <> map val (pf_point bx_pf).
Proof.
  eexists. eexists. eexists. eexists. split; [vm_compute; reflexivity|]. split; [vm_compute; reflexivity|].
  split; [vm_compute; reflexivity|]. split; [vm_compute; reflexivity|]. vm_compute. discriminate.
Qed.

Lemma batch_forge_point : forall (E : pairing 13), pairing_laws E -> forall (g : gcar (PG1 E)) (h : gcar (PG2 E)) rnd N n,
  1 <= N -> 2 <= n -> n <= N -> exists s ck vk comms opening t',
    gen_srs E g h rnd N = Ok s /\ kzg_trim s None (Some n) = Ok (ck, vk) /\ mapM (kzg_commit ck) bx_polys = Ok comms /\
    batch_verify bx_o vk comms bx_points (mkBatch bx_pf bx_vs opening) bx_t = Ok (true, t') /\
    bx_vs <> open_values bx_polys bx_points /\
    exists ts t1, draw_vecT bx_o "t" (Nat.log2_up (length bx_polys)) bx_t = Ok (ts, t1) /\
      combination ts bx_vs <> combination ts (open_values bx_polys bx_points).
Proof.
  intros E HE g h rnd N n HN H2 Hn. destruct (kzg_trim_srs HE g h rnd N n HN Hn) as [s [ck [vk [S [T [Ec Ev]]]]]].
  destruct bx_forged as [ts [t1 [sub [t' [D [Sv [Q [W _]]]]]]]]. apply Feqb_eq in Q. apply Feqb_neq in W.
  assert (HC : mapM (kzg_commit ck) bx_polys = Ok (map (fun f => gmul (value f (suffix 2 (suffix n (trapdoor rnd N)))) g) bx_polys)).
  { rewrite Ec. apply (commits_ok HE g h _ 2 bx_polys bx_points); [|exact bx_wf]. rewrite suffix_length; [exact H2|]. rewrite trapdoor_length. exact Hn. }
  destruct (batch_point_free HE prime_13 bx_o g h rnd N n 2 s ck vk bx_polys bx_points _ bx_vs bx_pf bx_t ts t1 sub t' S T HC) as [op V];
    try assumption; try reflexivity; try (simpl; lia); [exact bx_wf|].
  exists s, ck, vk, (map (fun f => gmul (value f (suffix 2 (suffix n (trapdoor rnd N)))) g) bx_polys), op, t'.
  split; [exact S|]. split; [exact T|]. split; [exact HC|]. split; [exact V|]. split.
  - intros Z. apply W. rewrite <- Z. reflexivity.
  - exists ts, t1. split; [exact D|exact W].
Qed.
