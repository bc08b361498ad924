(** C65: what the verifier answers to any proof, honest or not. *)
From Coq Require Import String List Arith Lia Bool ZArith Znumtheory.
Import ListNotations.
From Verif Require Import Res Fp FSum SpecMle SpecKzg SpecPoly SpecSumcheck SpecBatch SpecTracker ModelMle ModelTranscript ModelSumcheck Pairing ModelKzg ModelBatch ModelProver ModelVerifier
  ProverHist VerifierHist CompileHist KzgExtra EndHist RoundHist AnswerHist AnswerProofs.
Local Open Scope string_scope.
Local Open Scope list_scope.
Local Open Scope nat_scope.

(** The proofs that make the verifier panic instead of answering, if the challenges that it meets are outside the nodes of interpolation (C14, C33): those
    with too few or degree-0 messages; and, once the sum-check has passed, those that name a commitment that the verifier has not
    taken over, that have no opening, or whose opening has too few values or messages. *)
Theorem C65_panics : forall (p : positive) (E : pairing p), prime (Zpos p) -> forall (o : oracle p (gcar (PG1 E))) v,
  is_empty (vt_tr v) = false -> length (vk_mask (vt_vk v)) = vk_nv (vt_vk v) -> 2 < fsize p -> cp_deg (vt_proof v) < fsize p ->
  Forall (nonnode (cp_deg (vt_proof v) + 1)) (sum_challenges o v) -> Forall (nonnode 3) (opening_challenges o v) ->
  let cp := vt_proof v in let n := cp_nv cp in let k := length (cp_comms cp) in
  verify_claims o v = Panic <->
    panicking_messages (pf_msgs (cp_sc cp)) (cp_deg cp) n
    \/ (exists x y, sc_end o v = Ok (x, y)) /\
       ((exists id, In id (map fst (cp_comms cp)) /\ mget (vt_mat v) id = None) \/ cp_pcs cp = [] \/
        exists b rest, cp_pcs cp = b :: rest /\ panicking_opening b k n).
Proof. intros p E Hp. exact (answer Hp). Qed.
Print Assumptions C65_panics.

(** A verifier that has not absorbed anything answers no proof at all. *)
Theorem C65_empty : forall (p : positive) (E : pairing p) (o : oracle p (gcar (PG1 E))) v, is_empty (vt_tr v) = true -> verify_claims o v = Panic.
Proof. intros p E. exact answer_empty. Qed.
Print Assumptions C65_empty.

(** Asking for a commitment or a claimed sum that the proof does not have is a panic as well. *)
Theorem C65_missing : forall (p : positive) (E : pairing p) debug (v : vtrk E) id,
  (mget (cp_comms (vt_proof v)) id = None -> transfer_prover_comm debug v id = Panic) /\ (mget (cp_sums (vt_proof v)) id = None -> get_prover_claimed_sum v id = Panic) /\
  (transfer_prover_comm debug v id = Panic -> mget (cp_comms (vt_proof v)) id = None \/ debug = true /\ id <> vt_next v) /\ (get_prover_claimed_sum v id = Panic -> mget (cp_sums (vt_proof v)) id = None).
Proof. intros p E. exact missing. Qed.
Print Assumptions C65_missing.

(** What every accepted proof has. *)
Theorem C65_accepts : forall (p : positive) (E : pairing p), prime (Zpos p) -> forall (o : oracle p (gcar (PG1 E))) v v',
  2 < fsize p ->
  let cp := vt_proof v in let n := cp_nv cp in let k := length (cp_comms cp) in
  verify_claims o v = Ok v' ->
  (exists x y, sc_end o v = Ok (x, y)) /\ (forall id, In id (map fst (cp_comms cp)) -> mget (vt_mat v) id <> None) /\ 2 <= k /\ 1 <= n <= vk_nv (vt_vk v) /\
  exists b rest, cp_pcs cp = b :: rest /\ length (pf_point (bp_sc b)) = n /\ k <= length (bp_evals b) /\ n <= length (pf_msgs (bp_sc b)) /\ Forall (fun m => length m = 3) (firstn n (pf_msgs (bp_sc b))).
Proof. intros p E Hp. exact (accepted_shape Hp). Qed.
Print Assumptions C65_accepts.

(** The answer depends on nothing else: the commitments in the proof, its claimed sums, its query results, its two points and the
    group elements of its opening can be replaced at will. *)
Theorem C65_unread : forall (p : positive) (E : pairing p) (o : oracle p (gcar (PG1 E))) v cp, same_read (vt_proof v) cp ->
  verdict (verify_claims o (set_compiled_proof v cp)) = verdict (verify_claims o v).
Proof. intros p E. exact unread. Qed.
Print Assumptions C65_unread.

(** ** A history over F 101 *)
Local Notation "'i101' n" := (@ofZ 101 n%Z) (at level 9).
Local Notation E101 := (exp_pairing 101).
Definition ax_o : oracle 101 (gcar (PG1 E101)) := fun h _ => ofN (5 + length h mod 90).
Definition ax_sc : nat -> nat -> sched := fun _ _ => SSplit 1 SLeaf SLeaf.
Definition ax_ops : list (pop 101) := [OCommit 2 [i101 1; i101 0; i101 1; i101 1]; OCommit 2 [i101 3; i101 5; i101 0; i101 7]; OMul 0 0; OSub 2 0; OZero 3; OSum 1 (i101 0)].
Definition ax_vops : list (vop E101) := [VONext; VONext; VOMul 0 0; VOSub 2 0; VOZero 3; VOSum 1 (i101 15)].
Definition ax_run (setup : res (srs E101)) {T} (k : vtrk E101 -> T) : option T :=
  match setup with
  | Ok s => match kzg_trim s None (Some 2) with
            | Ok (ck, vk) => match prun ax_o ck ax_ops with
                             | Ok (s, hs) => match compile_proof ax_o ax_sc ax_sc (fun i => i) false s with
                                             | Ok (cp, _) => match vrun ax_o true vk cp ax_vops with Ok (v, _) => Some (k v) | _ => None end
                                             | _ => None
                                             end
                             | _ => None
                             end
            | _ => None
            end
  | _ => None
  end.
Local Notation ax_setup := (gen_srs E101 (i101 2) (i101 7) (fun i => ofN (i + 3)) 3).
(** 0: accepted, 1: rejected, 2: panic. *)
Definition ax_code {A} (r : res A) : nat := match r with Ok _ => 0 | Err _ => 1 | Panic => 2 end.
Definition ax_opening (f : batch_proof E101 -> batch_proof E101) (cp : cproof E101) : cproof E101 :=
  mkCproof (cp_comms cp) (cp_sums cp) (cp_sc cp) (cp_deg cp) (cp_nv cp) (cp_query cp) (map f (cp_pcs cp)).
(** Other proofs in place of an honest one. *)
Definition ax_edit (i : nat) (cp : cproof E101) : cproof E101 :=
  match i with
  | 0 => cp
  | 1 => mkCproof (map (fun c => (fst c, @gzero _ (PG1 E101))) (cp_comms cp)) [] (mkProof [] (pf_msgs (cp_sc cp) ++ [[]])) (cp_deg cp) (cp_nv cp) []
                  (map (fun b => mkBatch (mkProof (map (fun _ => F0) (pf_point (bp_sc b))) (pf_msgs (bp_sc b))) (bp_evals b) []) (cp_pcs cp))
  | 2 => mkCproof (cp_comms cp) (cp_sums cp) (mkProof [] (firstn 1 (pf_msgs (cp_sc cp)))) (cp_deg cp) (cp_nv cp) (cp_query cp) (cp_pcs cp)
  | 3 => mkCproof (cp_comms cp) (cp_sums cp) (mkProof [] [[F0]; [F0]]) 0 (cp_nv cp) (cp_query cp) (cp_pcs cp)
  | 4 => mkCproof ((9, @gzero _ (PG1 E101)) :: cp_comms cp) (cp_sums cp) (cp_sc cp) (cp_deg cp) (cp_nv cp) (cp_query cp) (cp_pcs cp)
  | 5 => mkCproof (cp_comms cp) (cp_sums cp) (cp_sc cp) (cp_deg cp) (cp_nv cp) (cp_query cp) []
  | 6 => ax_opening (fun b => mkBatch (bp_sc b) (firstn 1 (bp_evals b)) (bp_open b)) cp
  | 7 => ax_opening (fun b => mkBatch (mkProof (pf_point (bp_sc b)) (firstn 1 (pf_msgs (bp_sc b)))) (bp_evals b) (bp_open b)) cp
  | 8 => ax_opening (fun b => mkBatch (mkProof (F0 :: pf_point (bp_sc b)) (pf_msgs (bp_sc b))) (bp_evals b) (bp_open b)) cp
  | 9 => mkCproof (firstn 1 (cp_comms cp)) (cp_sums cp) (cp_sc cp) (cp_deg cp) (cp_nv cp) (cp_query cp) (cp_pcs cp)
  | 10 => mkCproof (cp_comms cp) (cp_sums cp) (mkProof [] (map (map (fun x => x + F1)%F) (pf_msgs (cp_sc cp)))) (cp_deg cp) (cp_nv cp) (cp_query cp) (cp_pcs cp)
  | _ => ax_opening (fun b => mkBatch (bp_sc b) (map (fun x => x + F1)%F (bp_evals b)) (bp_open b)) cp
  end.
Example C65_ex : ax_run ax_setup (fun v => map (fun i => ax_code (verify_claims ax_o (set_compiled_proof v (ax_edit i (vt_proof v))))) (seq 0 12)) = Some [0; 0; 2; 2; 2; 2; 2; 2; 1; 1; 1; 1].
Proof. vm_compute. reflexivity. Qed.
Print Assumptions C65_ex.
(** The hypotheses hold of this verifier. *)
Example C65_ex_hyps : ax_run ax_setup (fun v => (is_empty (vt_tr v), length (vk_mask (vt_vk v)), vk_nv (vt_vk v), cp_deg (vt_proof v), cp_nv (vt_proof v), map fst (cp_comms (vt_proof v)))) = Some (false, 2, 2, 3, 2, [1; 0]).
Proof. vm_compute. reflexivity. Qed.
(** The challenges met with each of the proofs above: none of the first is below 4, none of the second below 3. *)
Definition ax_clear (d : nat) (l : list (F 101)) : bool := forallb (fun x => forallb (fun i => negb (Feqb x (ofN i))) (seq 0 d)) l.
Example C65_ex_challenges :
  ax_run ax_setup (fun v => map (fun i => let w := set_compiled_proof v (ax_edit i (vt_proof v)) in
    (ax_clear (cp_deg (vt_proof w) + 1) (sum_challenges ax_o w) && ax_clear 3 (opening_challenges ax_o w), length (sum_challenges ax_o w), length (opening_challenges ax_o w))) (seq 0 12)) =
  Some [(true, 2, 2); (true, 2, 2); (true, 1, 0); (true, 2, 0); (true, 2, 2); (true, 2, 0); (true, 2, 2); (true, 2, 1); (true, 2, 2); (true, 2, 2); (true, 2, 0); (true, 2, 2)].
Proof. vm_compute. reflexivity. Qed.
Example C65_ex_clear : forall d l, ax_clear d l = true -> Forall (nonnode d) l.
Proof.
  intros d l H. apply Forall_forall. intros x Hx i Hi ->. unfold ax_clear in H. rewrite forallb_forall in H. specialize (H _ Hx). rewrite forallb_forall in H.
  specialize (H i (proj2 (in_seq _ _ _) (conj (Nat.le_0_l i) Hi))). rewrite Feqb_refl in H. discriminate.
Qed.
(** The replaced proof number 1 is one that C65_unread is about. *)
Example C65_ex_unread : forall cp, same_read cp (ax_edit 1 cp) \/ length (pf_msgs (cp_sc cp)) < cp_nv cp.
Proof.
  intros cp. destruct (Nat.le_gt_cases (cp_nv cp) (length (pf_msgs (cp_sc cp)))) as [L|L]; [left|right; exact L]. unfold same_read. cbn [ax_edit cp_comms cp_deg cp_nv cp_sc cp_pcs pf_msgs].
  split; [rewrite map_map; reflexivity|]. split; [reflexivity|]. split; [reflexivity|]. split; [rewrite firstn_app; replace (cp_nv cp - length (pf_msgs (cp_sc cp))) with 0 by lia; cbn [firstn]; rewrite app_nil_r; reflexivity|].
  destruct (cp_pcs cp) as [|b rest]; [exact I|]. unfold same_opening. cbn [map bp_sc bp_evals pf_point pf_msgs]. rewrite map_length. auto.
Qed.
