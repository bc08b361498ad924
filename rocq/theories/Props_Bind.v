(** C63: which of the things a prover sends are in the transcript when the challenges are drawn. *)
From Coq Require Import String List Arith Bool ZArith Znumtheory Sorting.Sorted.
Import ListNotations.
From Verif Require Import Res Fp FSum SpecMle SpecPoly SpecSumcheck SpecTracker SpecIop ModelMle ModelVp ModelTranscript ModelSumcheck Pairing ModelKzg ModelBatch ModelProver ModelVerifier ModelIop
  ProverHist VerifierHist SessHist CheckHist BindHist BindProofs IopFix IopEx.
Local Open Scope list_scope.
Local Open Scope nat_scope.

(** ** C63: the commitments are fixed before the challenges, the claimed sums are not *)

(** Commitments are: those that a verifier holds are the ones of its transcript, in the order of their ids. *)
Theorem C63_commitments : forall (p : positive) (E : pairing p), prime (Zpos p) -> 2 < fsize p -> forall (o : oracle p (gcar (PG1 E))) (v : vtrk E), in_session o v ->
  exists ids, StronglySorted lt ids /\ Forall2 (fun id c => mget (vt_mat v) id = Some c) ids (absorbed (hist (vt_tr v))) /\
    forall id c, mget (vt_mat v) id = Some c -> In id ids.
Proof. intros p E Hp H2 o v H. destruct (session_bound Hp H2 o v H) as [ids [A [_ [B C]]]]. exists ids. auto. Qed.
Print Assumptions C63_commitments.

(** Sums are not: with other sums in the same proof the same calls lead to the same transcript, ... *)
Theorem C63_transcript_refuted : forall (p : positive) (E : pairing p) (o : oracle p (gcar (PG1 E))) debug vk (cp : cproof E) s ops v hs,
  (forall id, mget (cp_sums cp) id <> None -> mget s id <> None) -> vrun o debug vk cp ops = Ok (v, hs) ->
  exists w, vrun o debug vk (with_sums cp s) ops = Ok (w, hs) /\ vt_tr w = vt_tr v /\ map fst (vt_sc w) = map fst (vt_sc v).
Proof. intros p E. exact run_alike. Qed.
Print Assumptions C63_transcript_refuted.

(** ... and the verdict depends only on the combination of the sums with the challenges. So in an accepted run every sum but one can be
    replaced by any value, if the last one is then chosen to fit. The comparison of C60 does not help. *)
Theorem C63_sums_refuted : forall (p : positive) (E : pairing p), prime (Zpos p) -> forall (o : oracle p (gcar (PG1 E))) (v v' : vtrk E), verify_claims o v = Ok v' ->
  exists a cs b, drawn (vt_tr v) (vt_tr v') = a ++ cs ++ b /\ length a = length (vt_zc v) + cp_nv (vt_proof v) /\ length cs = length (vt_sc v) /\
    forall i sums, nth i cs F0 <> F0 -> length sums = length (vt_sc v) ->
      exists y v'', verify_claims o (claiming v (firstn i sums ++ y :: skipn (S i) sums)) = Ok v'' /\ vt_tr v'' = vt_tr v' /\
        last_check o (claiming v (firstn i sums ++ y :: skipn (S i) sums)) = last_check o v.
Proof. intros p E Hp. exact (sums_free Hp). Qed.
Print Assumptions C63_sums_refuted.

(** Two different bags over F 101: the rows 3, 5, 6, 7 and 5, 3, 6, 8. A prover runs the sum-check on the right polynomial and gives the
    true query results. Its two sums are false: it puts one value in both places, the one for which the combination with the two
    challenges is that of the true sums. The equality check accepts, and so does the verification, also with the comparison of C60. *)
Definition bx_ts : list (nat * list Z) := [(2, [3; 5; 6; 7]%Z); (2, [1; 1; 1; 1]%Z); (2, [5; 3; 6; 8]%Z); (2, [1; 1; 1; 1]%Z)].
Definition bx_true (s : ptrk E101) (cp : cproof E101) : cproof E101 :=
  let pt := pf_point (cp_sc cp) in
  mkCproof (cp_comms cp) (cp_sums cp) (cp_sc cp) (cp_deg cp) (cp_nv cp) (map (fun e => ((fst e, pt), extension (reading_of s) (fst e) pt)) (cp_comms cp)) (cp_pcs cp).
(** compile_proof without the replacement of the claimed polynomials by their multilinear extensions (C64). *)
Definition bx_compile (s : ptrk E101) : res (cproof E101) :=
  s2 <- convert_zerocheck_claims ix_o 2 s ;;
  ' (agg, _, s3) <- aggregate_sumcheck_claims ix_o 2 s2 ;;
  w <- to_arithmatic_virtual_poly s3 agg ;;
  ' (pf, t) <- unwrap (sc_prove ix_o ix_sc w (pt_tr s3)) ;;
  let ids := sort_ids (map fst (pt_comm s3)) in
  polys <- mapM (fun id => a <- ounwrap (mget (pt_mat s3) id) ;; Ok (snd a)) ids ;;
  evals <- mapM (fun m => x <- ark_evaluate m (pf_point pf) ;; ounwrap x) polys ;;
  ' (bp, _) <- multi_open ix_o ix_sc (fun n => n) (pt_pp s3) polys (map (fun _ => pf_point pf) ids) evals t ;;
  Ok (mkCproof (pt_comm s3) (fold_left (fun m (cl : nat * F 101) => mput m (fst cl) (snd cl)) (pt_sc s3) []) pf (max_degree w) (num_variables w) [] [bp]).
(** The verifier after the equality check. *)
Definition bx_check (vk : vparam E101) (cp : cproof E101) : res (vtrk E101) :=
  ' (v, ids) <- vrun ix_o true vk cp (nexts bx_ts ++ [VOTransferEvals]) ;;
  bag_eq_verify ix_o true v (vbag ids 0 2) (vbag ids 2 2).
(** The challenges of the sum claims: they are known once the commitments are. *)
Definition bx_coeffs (v : vtrk E101) : list (F 101) :=
  match v_convert_zerocheck_claims ix_o (cp_nv (vt_proof v)) v with
  | Ok v1 => match v_aggregate_sumcheck_claims ix_o v1 with Ok (_, _, v2) => drawn (vt_tr v1) (vt_tr v2) | _ => [] end
  | _ => []
  end.
Definition bx_same (c : F 101) (cp : cproof E101) : cproof E101 := with_sums cp (map (fun e => (fst e, c)) (cp_sums cp)).
Definition bx_fit (vk : vparam E101) (cp : cproof E101) : F 101 :=
  match bx_check vk (bx_same F0 cp) with
  | Ok v => match bx_coeffs v, map (fun cl => mget (cp_sums cp) (fst cl)) (vt_sc v) with
            | [a; b; _], [Some s1; Some s2] => ((a * s1 + b * s2) / (a + b))%F
            | _, _ => F0
            end
  | _ => F0
  end.
Definition bx_accepts (vk : vparam E101) (cp : cproof E101) : bool * bool :=
  match bx_check vk cp with
  | Ok v => (true, match verify_claims_checked ix_o v with Ok _ => true | _ => false end)
  | _ => (false, false)
  end.
Definition bx_run : option ((bool * bool) * (bool * bool) * (bool * bool) * (Z * list Z)) :=
  match ix_keys 2 with
  | Ok (ck, vk) => match prun ix_o ck (commits bx_ts) with
                   | Ok (s, hs) => match bag_eq_prove ix_o s (pbag hs 0) (pbag hs 2) with
                                   | Ok s' => match bx_compile s' with
                                              | Ok cp0 =>
                                                  let cp := bx_true s' cp0 in let c := bx_fit vk cp in
                                                  Some (bx_accepts vk cp, bx_accepts vk (bx_same F0 cp), bx_accepts vk (bx_same c cp), (val c, map (fun e => val (snd e)) (cp_sums cp)))
                                              | _ => None
                                              end
                                   | _ => None
                                   end
                   | _ => None
                   end
  | _ => None
  end.
(** The true sums (0 and 38) are rejected by the equality check, equal sums in general by the verification; 35 in both places is accepted. *)
Example C63_ex : bx_run = Some ((false, false), (true, false), (true, true), (35%Z, [0%Z; 38%Z; 0%Z])).
Proof. vm_compute. reflexivity. Qed.
Print Assumptions C63_ex.

(** A session of this kind, with six commitments, two claimed sums and challenges other than zero. *)
Definition bx_end : option (vparam E101 * cproof E101) :=
  match ix_keys 2 with
  | Ok (ck, vk) => match prun ix_o ck (commits bx_ts) with
                   | Ok (s, hs) => match bag_eq_prove ix_o s (pbag hs 0) (pbag hs 2) with
                                   | Ok s' => match bx_compile s' with Ok cp0 => Some (vk, bx_same (ofZ 35) (bx_true s' cp0)) | _ => None end
                                   | _ => None
                                   end
                   | _ => None
                   end
  | _ => None
  end.
Definition bx_facts (x : option (vparam E101 * cproof E101)) : option (nat * nat * list Z * bool) :=
  match x with
  | Some (vk, cp) => match bx_check vk cp with
                     | Ok v => Some (length (absorbed (hist (vt_tr v))), length (vt_sc v), map val (firstn 2 (bx_coeffs v)), match verify_claims ix_o v with Ok _ => true | _ => false end)
                     | _ => None
                     end
  | None => None
  end.
Example C63_ex_hyps : exists v v', in_session ix_o v /\ length (absorbed (hist (vt_tr v))) = 6 /\ length (vt_sc v) = 2 /\ map val (firstn 2 (bx_coeffs v)) = [57%Z; 59%Z] /\ verify_claims ix_o v = Ok v'.
Proof.
  assert (X : bx_facts bx_end = Some (6, 2, [57%Z; 59%Z], true)) by (vm_compute; reflexivity).
  destruct bx_end as [[vk cp]|]; [|discriminate X]. unfold bx_facts in X. destruct (bx_check vk cp) as [v| |] eqn:C; try discriminate X. exists v.
  destruct (verify_claims ix_o v) as [v'| |] eqn:V; try discriminate X. exists v'. injection X as X1 X2 X3. split; [|split; [exact X1|split; [exact X2|split; [exact X3|reflexivity]]]].
  unfold bx_check in C. destruct (vrun ix_o true vk cp _) as [[u ids]| |] eqn:R; cbn [bind] in C; try discriminate C.
  destruct (SessProofs.run_session ix_o _ _ _ _ _ _ R) as [vk' [cp' S]]. exists vk', cp'. eapply vcs_more; [exact S|]. eapply vc_bag_eq. exact C.
Qed.
Print Assumptions C63_ex_hyps.
