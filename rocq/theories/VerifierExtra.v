(** Lockstep and evaluation of virtual commitments, in the vocabulary of the API. *)
From Coq Require Import String List Arith Lia Bool ZArith.
Import ListNotations.
From Verif Require Import Res ResLemmas Fp FSum SpecMle SpecKzg SpecTracker ModelMle MleLemmas MleProofs MleExtra ModelVp ModelTranscript ModelSumcheck Pairing ModelKzg ModelBatch
  ModelProver ModelVerifier ProverHist VerifierHist TmapLemmas ProverProofs ProverExtra ProverStep LockProofs.
Local Open Scope string_scope.
Local Open Scope list_scope.
Local Open Scope nat_scope.

Section S.
Context {p : positive} {E : pairing p}.
Implicit Types (s : ptrk E) (v : vtrk E).

Lemma hist_lockstep : forall (o : oracle p (gcar (PG1 E))) debug exact pp vk cp ops vops s hs,
  mirror exact pp ops vops -> prun o pp ops = Ok (s, hs) -> proof_covers cp s ->
  exists v, vrun o debug vk cp vops = Ok (v, map tp_id hs) /\
    v_get_next_id v = get_next_id s /\ vt_tr v = pt_tr s /\ vt_mat v = pt_comm s /\ vt_zc v = pt_zc s /\ map fst (vt_sc v) = map fst (pt_sc s) /\
    (forall l c s', pt_challenge o l s = Ok (c, s') -> exists v', vt_challenge o l v = Ok (c, v') /\ vt_tr v' = pt_tr s').
Proof.
  intros o debug exact pp vk cp ops vops s hs Hm H Hc. destruct (lockstep o debug exact pp vk cp ops vops s hs Hm H Hc) as [v [A [B _]]].
  exists v. split; [exact A|]. split; [apply B|]. split; [apply B|]. split; [apply B|]. split; [apply B|]. split; [apply B|].
  intros l c s' Hp. unfold pt_challenge, vt_challenge in *. rewrite (l_tr _ _ _ _ _ B).
  destruct (drawT o l (pt_tr s)) as [[c1 t1]| |]; try discriminate. simpl in Hp. inversion Hp; subst. eexists. split; reflexivity.
Qed.

Lemma hist_agree : forall (o : oracle p (gcar (PG1 E))) debug pp vk cp ops vops s hs v cs i h x,
  mirror true pp ops vops -> prun o pp ops = Ok (s, hs) -> proof_covers cp s -> back_calls [] ops ->
  vrun o debug vk cp vops = Ok (v, cs) -> nth_error hs i = Some h -> length x = tp_nv h ->
  (linear_calls [] ops \/ exists k, k < 2 ^ tp_nv h /\ x = bpoint (tp_nv h) k) ->
  query_holds v (vt_query v) cs (denote ops) x ->
  exists y, tp_evaluate s h x = Ok (Some y) /\ eval_virtual_comm v (tp_id h) x = Ok y.
Proof.
  intros o debug pp vk cp ops vops s hs v cs i h x Hm H Hc Hb Hv Hi Hx Hl Hq.
  assert (Hd : exists d b, nth_error (denote ops) i = Some d /\ agrees s (points b) h d /\ points b (tp_nv h) x).
  { destruct Hl as [Hl | Hl].
    - pose proof (prun_den o pp ops s hs true H (fun _ => Hl)) as F2. destruct (Forall2_nth _ _ _ _ _ i h (0, fun _ => F0) F2 Hi) as [D1 D2].
      eexists _, true. split; [exact D1|]. split; [exact D2|exact Hx].
    - pose proof (prun_den o pp ops s hs false H ltac:(discriminate)) as F2. destruct (Forall2_nth _ _ _ _ _ i h (0, fun _ => F0) F2 Hi) as [D1 D2].
      eexists _, false. split; [exact D1|]. split; [exact D2|exact Hl]. }
  destruct Hd as [d [b [D1 [[D2 D3] D4]]]].
  exists (snd d x). split.
  - rewrite <- (D3 x D4). eapply hist_eval; [exact H|eapply nth_error_In; exact Hi|exact Hx].
  - assert (Hx' : length x = fst d) by congruence.
    destruct (eval_comm o debug pp vk cp ops vops s hs v cs i d x Hm H Hc Hb Hv D1 Hx' Hq) as [id [I1 I2]].
    destruct (lockstep o debug true pp vk cp ops vops s hs Hm H Hc) as [v' [A _]]. rewrite Hv in A. inversion A; subst v' cs.
    rewrite nth_error_map, Hi in I1. simpl in I1. inversion I1; subst id. exact I2.
Qed.

(** The closure of an uncommitted table, as the verifier code writes it. *)
Lemma back_mismatch : forall (o : oracle p (gcar (PG1 E))) debug pp vk cp n k (l : list (F p)), length l = 2 ^ n -> k <> n ->
  exists s hs h v, prun o pp [OTrack n l; OBack 0 k] = Ok (s, hs) /\
    vrun o debug vk cp [VOFun (fun x => a <- ark_evaluate (mkMle n l) x ;; ounwrap a); VOBack 0 k] = Ok (v, map tp_id hs) /\
    nth_error hs 1 = Some h /\ tp_nv h = n + k /\
    forall x, length x = n + k -> (exists y, tp_evaluate s h x = Ok (Some y)) /\ eval_virtual_comm v (tp_id h) x = Panic.
Proof.
  intros o debug pp vk cp n k l Hl Hk.
  assert (H0 : exists s0, prun o pp [OTrack n l] = Ok (s0, [mkTp 0 n])).
  { unfold prun. simpl. unfold from_evaluations. rewrite Hl, Nat.eqb_refl. eexists. reflexivity. }
  destruct H0 as [s0 H0]. pose proof (hist_increase o pp _ s0 _ (mkTp 0 n) k H0 (or_introl eq_refl)) as [vs [s1 [_ [_ [h [s [B1 [B2 B3]]]]]]]].
  assert (Hr : prun o pp [OTrack n l; OBack 0 k] = Ok (s, [mkTp 0 n; h])).
  { change [OTrack n l; OBack 0 k] with ([OTrack n l] ++ [OBack 0 k]). unfold prun in *. rewrite foldM_app, H0. cbn. rewrite B1. reflexivity. }
  assert (Hm : mirror false pp [OTrack n l; OBack 0 k] [VOFun (fun x => a <- ark_evaluate (mkMle n l) x ;; ounwrap a); VOBack 0 k]).
  { constructor; [discriminate|]. constructor. constructor. }
  assert (Hid : tp_id h = 1).
  { destruct (hist_fresh o pp _ _ _ Hr) as [F1 [F2 _]].
    destruct (lockstep o debug false pp vk (mkCproof (pt_comm s) (pt_sc s) (mkProof [] []) 0 0 [] []) _ _ _ _ Hm Hr) as [v [A _]].
    { split; [intros id c Hc; exact Hc|]. intros id c Hc. simpl. intros Hn. apply mget_none in Hn. apply Hn. apply in_map_iff. exists (id, c). auto. }
    unfold vrun in A. simpl in A. congruence. }
  exists s, [mkTp 0 n; h]. eexists h, _. split; [exact Hr|]. split; [unfold vrun; simpl; rewrite Hid; reflexivity|].
  split; [reflexivity|]. split; [exact B2|]. intros x Hx. split.
  - eexists. eapply hist_eval; [exact Hr|right; left; reflexivity|]. rewrite B2. exact Hx.
  - rewrite Hid. unfold eval_virtual_comm. cbn [vt_virt vt_query].
    assert (G : forall fuel virt q f, mget virt 1 = Some (VBack 0 k) -> mget virt 0 = Some (VFun f) ->
      (forall y, length y = k -> f y = Panic) -> eval_loop fuel virt q 1 x = Panic).
    { intros fuel virt q f M1 M0 Hf. destruct fuel as [|fuel]; [reflexivity|]. cbn [eval_loop]. rewrite M1. cbn [ounwrap bind run_vexp].
      unfold slice_to. replace (k <=? length x) with true by (symmetry; apply Nat.leb_le; lia). cbn [bind].
      destruct fuel as [|fuel]; [reflexivity|]. cbn [eval_loop]. rewrite M0. cbn [ounwrap bind run_vexp]. apply Hf.
      rewrite firstn_length. lia. }
    eapply G; [reflexivity|reflexivity|]. intros y Hy. cbv beta. unfold ark_evaluate. cbn [nv]. rewrite Hy.
    destruct (Nat.eqb_spec n k); [congruence|]. reflexivity.
Qed.
End S.
