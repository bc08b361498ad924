(** C32, C33, C34, C36, C37: compiled proofs, what their verification establishes, and copies of trackers. *)
From Coq Require Import String List Arith Bool ZArith Znumtheory.
Import ListNotations.
From Verif Require Import Res Fp FSum SpecMle SpecKzg SpecPoly SpecSumcheck SpecBatch SpecTracker ModelMle ModelTranscript ModelSumcheck Pairing ModelKzg ModelBatch ModelProver ModelVerifier
  ProverHist VerifierHist CompileHist CopyHist KzgExtra CompileSound ForgeProofs CopyProofs QueryProofs.
Local Open Scope string_scope.
Local Open Scope list_scope.
Local Open Scope nat_scope.

Local Notation "'i13' n" := (@ofZ 13 n%Z) (at level 9).
(** A history over F 13: a 0/1-valued f and a g in two variables, an h in one; f*f - f is claimed to vanish and sums of f and h
    are claimed. Challenges avoid the nodes 0..3. *)
Definition cx_o : oracle 13 (gcar (PG1 (exp_pairing 13))) := fun h _ => ofN (4 + length h mod 9).
Definition cx_ops (x : Z) : list (pop 13) :=
  [OCommit 2 [i13 1; i13 x; i13 1; i13 1]; OCommit 2 [i13 3; i13 5; i13 0; i13 7]; OCommit 1 [i13 2; i13 9]; OMul 0 0; OSub 3 0;
   OZero 4; OSum 0 (i13 0); OSum 2 (i13 0)].
Definition cx_vops (c : Z) : list (vop (exp_pairing 13)) := [VONext; VONext; VONext; VOMul 0 0; VOSub 3 0; VOZero 4; VOClaimed 0; VOSum 2 (i13 c)].
Definition cx_sc : nat -> nat -> sched := fun _ _ => SSplit 1 SLeaf SLeaf.
(** Does the prover (with or without its debug check) produce a proof, and does the verifier accept it? *)
Definition cx_accepts (debug : bool) (x c : Z) : option bool :=
  match gen_srs (exp_pairing 13) (i13 2) (i13 7) (fun i => ofN (i + 3)) 3 with
  | Ok s => match kzg_trim s None (Some 2) with
            | Ok (ck, vk) => match prun cx_o ck (cx_ops x) with
                             | Ok (s, hs) => match compile_proof cx_o cx_sc cx_sc (fun i => i) debug s with
                                             | Ok (cp, _) => match vrun cx_o true vk cp (cx_vops c) with
                                                             | Ok (v, _) => match verify_claims cx_o v with Ok _ => Some true | _ => Some false end
                                                             | _ => None
                                                             end
                                             | _ => None
                                             end
                             | _ => None
                             end
            | _ => None
            end
  | _ => None
  end.

(** ** C32: completeness *)

(** A proof of true claims is compiled and carries the true sums of the extended polynomials; it is accepted, unless a
    challenge is one of the points the round messages are sampled at: then the verifier panics. *)
Theorem C32_complete : forall (p : positive) (E : pairing p), pairing_laws E -> prime (Zpos p) ->
  forall (o : oracle p (gcar (PG1 E))) sc sc' addr debug vdebug g h rnd N k srs ck vk ops vops s hs D,
  1 <= N -> k <= N -> gen_srs E g h rnd N = Ok srs -> kzg_trim srs None (Some k) = Ok (ck, vk) -> distinct_addresses addr ->
  prun o ck ops = Ok (s, hs) -> mirror false ck ops vops ->
  (forall d, In d (degrees ops) -> d <= D) -> 1 <= D -> D + 1 < fsize p -> 2 < fsize p ->
  2 <= commit_calls ops -> 0 < max_nv hs <= k -> zeros_hold ops ->
  exists cp s' v, compile_proof o sc sc' addr debug s = Ok (cp, s') /\ length (pf_point (cp_sc cp)) = max_nv hs /\ cp_comms cp = pt_comm s /\
    vrun o vdebug vk cp vops = Ok (v, map tp_id hs) /\
    (forall i, In i (sum_calls ops) -> get_prover_claimed_sum v (tp_id (nth i hs (mkTp 0 0))) = Ok (sum_at ops (max_nv hs) i)) /\
    ((forall i c, In (VOSum i c) vops -> c = sum_at ops (max_nv hs) i) -> (off_nodes cp -> exists v', verify_claims o v = Ok v') /\ (~ off_nodes cp -> verify_claims o v = Panic)).
Proof. intros p E HE Hp. exact (hist_complete HE Hp). Qed.
Print Assumptions C32_complete.

(** f = (1,0,1,1) is 0/1-valued; the sum of h over two variables is 2 * (2 + 9) = 9 mod 13. Claims with another sum or
    with f = (1,5,1,1) are not accepted. *)
Example C32_ex : cx_accepts true 0 9 = Some true /\ cx_accepts false 0 9 = Some true /\ cx_accepts true 0 11 = Some false /\
  cx_accepts false 5 9 = Some false /\ cx_accepts true 5 9 = None.
Proof. vm_compute. repeat split. Qed.
Example C32_ex_hyps : degrees (cx_ops 0) = [1; 1; 1; 2; 2] /\ commit_calls (cx_ops 0) = 3 /\ zeros_hold (cx_ops 0) /\ val (sum_at (cx_ops 0) 2 2) = 9%Z.
Proof.
  repeat split. unfold zeros_hold. cbn [zero_calls cx_ops flat_map app]. intros i [<-|[]].
  apply Forall_forall. intros y Hy. apply Feqb_eq.
  assert (H : forallb (fun y => Feqb y F0) (corners (poly_at (cx_ops 0) 4)) = true) by (vm_compute; reflexivity).
  rewrite forallb_forall in H. apply H. exact Hy.
Qed.

(** ** C33: an honest prover's proof of false claims *)

(** If a zero-check claim is false, or a sum the verifier holds differs from the true one, all but a fraction of
    (n + 2) / p of the challenge vectors lead to rejection. *)
Theorem C33_false_claims_rejected : forall (p : positive) (E : pairing p), pairing_laws E -> prime (Zpos p) ->
  forall (oh : oracle p (gcar (PG1 E))) sc sc' addr debug vdebug g h rnd N k srs ck vk ops vops s hs D M,
  1 <= N -> k <= N -> gen_srs E g h rnd N = Ok srs -> kzg_trim srs None (Some k) = Ok (ck, vk) -> distinct_addresses addr ->
  prun oh ck ops = Ok (s, hs) -> mirror false ck ops vops ->
  (forall d, In d (degrees ops) -> d <= D) -> 1 <= D -> D + 1 < fsize p -> 2 < fsize p ->
  2 <= commit_calls ops -> 0 < max_nv hs <= k ->
  (~ zeros_hold ops \/ exists i c, In (VOSum i c) vops /\ c <> sum_at ops (max_nv hs) i) ->
  let L := length (zero_calls ops) + max_nv hs + length (sum_calls ops) + 1 in
  count (compile_verify oh sc sc' addr debug vdebug vk vops s) (allV p (L + M)) <= (max_nv hs + 2) * fsize p ^ (L + M - 1).
Proof. intros p E HE Hp. exact (hist_caught HE Hp). Qed.
Print Assumptions C33_false_claims_rejected.

(** In a debug build the prover itself refuses, with the same exceptions. *)
Theorem C33_debug_prover_refuses : forall (p : positive) (E : pairing p), pairing_laws E -> prime (Zpos p) ->
  forall (oh : oracle p (gcar (PG1 E))) sc sc' addr g h rnd N k srs ck vk ops s hs D M,
  1 <= N -> k <= N -> gen_srs E g h rnd N = Ok srs -> kzg_trim srs None (Some k) = Ok (ck, vk) -> distinct_addresses addr ->
  prun oh ck ops = Ok (s, hs) ->
  (forall d, In d (degrees ops) -> d <= D) -> 1 <= D -> D + 1 < fsize p -> 2 < fsize p ->
  2 <= commit_calls ops -> 0 < max_nv hs <= k -> ~ zeros_hold ops ->
  let L := length (zero_calls ops) + max_nv hs + length (sum_calls ops) + 1 in
  count (compiles sc sc' addr true s) (allV p (L + M)) <= (max_nv hs + 2) * fsize p ^ (L + M - 1).
Proof. intros p E HE Hp. exact (hist_refuses HE Hp). Qed.
Print Assumptions C33_debug_prover_refuses.

(** The false claim of f = (1,5,1,1), with scripted challenges: an ordinary vector rejects, and a vector with 0 for the weight of
    the zero-check claim is one of the exceptions. *)
Definition cx_script (x c : Z) (ch : list Z) : option bool :=
  match gen_srs (exp_pairing 13) (i13 2) (i13 7) (fun i => ofN (i + 3)) 3 with
  | Ok s => match kzg_trim s None (Some 2) with
            | Ok (ck, vk) => match prun cx_o ck (cx_ops x) with
                             | Ok (s, hs) => Some (compile_verify cx_o cx_sc cx_sc (fun i => i) false true vk (cx_vops c) s (map ofZ ch))
                             | _ => None
                             end
            | _ => None
            end
  | _ => None
  end.
Example C33_ex : cx_script 5 9 [5; 6; 7; 8; 9; 10; 5; 6; 7; 8; 9; 10; 11]%Z = Some false /\ cx_script 5 9 [0; 6; 7; 8; 9; 10; 5; 6; 7; 8; 9; 10; 11]%Z = Some true /\
  cx_script 0 8 [5; 6; 7; 8; 9; 10; 5; 6; 7; 8; 9; 10; 11]%Z = Some false /\ cx_script 0 8 [5; 6; 7; 8; 0; 10; 5; 6; 7; 8; 9; 10; 11]%Z = Some true.
Proof. vm_compute. repeat split. Qed.

(** ** C34: verify_claims is not sound *)

(** Whatever a verifier with at least two received commitments claims, there is a proof with the same commitments, sums and
    query results that makes it accept: neither the value of the last sum-check evaluation nor the boolean result of the
    batch opening is looked at. *)
Theorem C34_refuted : forall (p : positive) (E : pairing p), pairing_laws E -> prime (Zpos p) ->
  forall (o : oracle p (gcar (PG1 E))) debug g h rnd N k srs ck vk cp0 vops v cs,
  1 <= N -> 1 <= k <= N -> gen_srs E g h rnd N = Ok srs -> kzg_trim srs None (Some k) = Ok (ck, vk) -> 2 < fsize p -> (forall hh l, nonnode 3 (o hh l)) ->
  vrun o debug vk cp0 vops = Ok (v, cs) -> 2 <= length (cp_comms cp0) -> (forall id c, mget (cp_comms cp0) id = Some c -> mget (vt_mat v) id <> None) ->
  exists cp v' v'', cp_comms cp = cp_comms cp0 /\ cp_sums cp = cp_sums cp0 /\ cp_query cp = cp_query cp0 /\
    vrun o debug vk cp vops = Ok (v', cs) /\ vt_sc v' = vt_sc v /\ vt_zc v' = vt_zc v /\ vt_mat v' = vt_mat v /\
    verify_claims o v' = Ok v''.
Proof. intros p E HE Hp. exact (forge_srs HE Hp). Qed.
Print Assumptions C34_refuted.

(** For any oracle: only two challenges of the forged proof matter, one that must not be 0 or 1 and one that must not be 0, 1 or 2. *)
Theorem C34_every_oracle_refuted : forall (p : positive) (E : pairing p), pairing_laws E -> prime (Zpos p) ->
  forall (o : oracle p (gcar (PG1 E))) debug g h rnd N k srs ck vk cp0 vops v cs,
  1 <= N -> 1 <= k <= N -> gen_srs E g h rnd N = Ok srs -> kzg_trim srs None (Some k) = Ok (ck, vk) -> 2 < fsize p ->
  vrun o debug vk cp0 vops = Ok (v, cs) -> 2 <= length (cp_comms cp0) -> (forall id c, mget (cp_comms cp0) id = Some c -> mget (vt_mat v) id <> None) ->
  exists cp v', cp_comms cp = cp_comms cp0 /\ cp_sums cp = cp_sums cp0 /\ cp_query cp = cp_query cp0 /\
    vrun o debug vk cp vops = Ok (v', cs) /\ vt_sc v' = vt_sc v /\ vt_zc v' = vt_zc v /\ vt_mat v' = vt_mat v /\
    cp_deg cp = 1 /\ (exists b c c', cp_pcs cp = [b] /\ pf_point (cp_sc cp) = [c] /\ pf_point (bp_sc b) = [c'] /\ (exists hh l, c = o hh l) /\ (exists hh l, c' = o hh l)) /\
    (off_nodes cp -> exists v'', verify_claims o v' = Ok v'').
Proof. intros p E HE Hp. exact (forge_srs_any HE Hp). Qed.
Print Assumptions C34_every_oracle_refuted.

(** A verifier that received commitments to (1,0,1,1) and (3,5,0,7) and holds the false claim that the second vanishes meets the hypotheses. *)
Definition fx_state : option (nat * list nat * bool) :=
  match gen_srs (exp_pairing 13) (i13 2) (i13 7) (fun i => ofN (i + 3)) 3 with
  | Ok s => match kzg_trim s None (Some 2) with
            | Ok (ck, vk) => match prun cx_o ck [OCommit 2 [i13 1; i13 0; i13 1; i13 1]; OCommit 2 [i13 3; i13 5; i13 0; i13 7]] with
                             | Ok (s, hs) => let cp0 := mkCproof (pt_comm s) [] (mkProof [] []) 0 0 [] [] in
                                             match vrun cx_o true vk cp0 [VONext; VONext; VOZero 1] with
                                             | Ok (v, cs) => Some (length (cp_comms cp0), vt_zc v, forallb (fun e => match mget (vt_mat v) (fst e) with Some _ => true | None => false end) (cp_comms cp0))
                                             | _ => None
                                             end
                             | _ => None
                             end
            | _ => None
            end
  | _ => None
  end.
Example C34_ex : fx_state = Some (2, [1], true).
Proof. vm_compute. reflexivity. Qed.

(** ** C36: deep copies *)

(** Calls on a prover tracker and its copy, interleaved in any way, have the effect of the two projections. *)
Theorem C36_prover_copies : forall (p : positive) (E : pairing p) (o : oracle p (gcar (PG1 E))) s hs calls a b,
  prun2 o s hs calls = Ok (a, b) <-> foldM (pstep o) (s, hs) (calls_of false calls) = Ok a /\ foldM (pstep o) (s, hs) (calls_of true calls) = Ok b.
Proof. exact @prover_copies. Qed.
Print Assumptions C36_prover_copies.

(** Not so for the verifier: both copies give out the same id, and the entry of the second overwrites that of the first. *)
Theorem C36_verifier_refuted : forall (p : positive) (E : pairing p) (o : oracle p (gcar (PG1 E))) debug (v : vtrk E) hs f g x, exists a b,
  vrun2 o debug v hs [(false, VOFun f); (true, VOFun g)] = Ok (a, b) /\
  snd a = hs ++ [vt_next v] /\ snd b = hs ++ [vt_next v] /\
  (exists v', vstep o debug (v, hs) (VOFun f) = Ok (v', hs ++ [vt_next v]) /\ eval_virtual_comm v' (vt_next v) x = f x) /\
  eval_virtual_comm (fst a) (vt_next v) x = g x.
Proof. exact @verifier_copies_refuted. Qed.
Print Assumptions C36_verifier_refuted.

(** In every interleaving the two copies of a verifier evaluate every commitment alike, whichever copy made it. *)
Theorem C36_verifier_shared : forall (p : positive) (E : pairing p) (o : oracle p (gcar (PG1 E))) debug (v : vtrk E) hs calls a b,
  vrun2 o debug v hs calls = Ok (a, b) -> forall id x, eval_virtual_comm (fst a) id x = eval_virtual_comm (fst b) id x.
Proof. exact @copies_shared. Qed.
Print Assumptions C36_verifier_shared.

(** In particular, query results loaded into one copy are found by the other. *)
Theorem C36_queries_refuted : forall (p : positive) (E : pairing p) (o : oracle p (gcar (PG1 E))) debug (v : vtrk E) hs id i x y,
  mget (vt_virt v) id = Some (VQuery i) -> vt_query v = [] -> cp_query (vt_proof v) = [((i, x), y)] ->
  eval_virtual_comm v id x = Panic /\ exists a b, vrun2 o debug v hs [(true, VOTransferEvals)] = Ok (a, b) /\ eval_virtual_comm (fst a) id x = Ok y.
Proof. exact @copies_queries. Qed.
Print Assumptions C36_queries_refuted.

(** What the copies of a verifier do not share: key, transcript, next id, commitments, claims and proof. *)
Theorem C36_verifier_own_state : forall (p : positive) (E : pairing p) (o : oracle p (gcar (PG1 E))) debug (v : vtrk E) hs calls a b,
  vrun2 o debug v hs calls = Ok (a, b) ->
  exists a' b', foldM (vstep o debug) (v, hs) (calls_of false calls) = Ok a' /\ foldM (vstep o debug) (v, hs) (calls_of true calls) = Ok b' /\
    vt_tr (fst a) = vt_tr (fst a') /\ vt_next (fst a) = vt_next (fst a') /\ vt_mat (fst a) = vt_mat (fst a') /\ vt_sc (fst a) = vt_sc (fst a') /\ vt_zc (fst a) = vt_zc (fst a') /\ snd a = snd a' /\
    vt_tr (fst b) = vt_tr (fst b') /\ vt_next (fst b) = vt_next (fst b') /\ vt_mat (fst b) = vt_mat (fst b') /\ vt_sc (fst b) = vt_sc (fst b') /\ vt_zc (fst b) = vt_zc (fst b') /\ snd b = snd b'.
Proof. exact @copies_own. Qed.
Print Assumptions C36_verifier_own_state.

Definition dx_calls : list (bool * pop 13) := [(false, OMul 0 0); (true, OAddS 0 (i13 3)); (true, OAdd 1 0); (false, OSum 1 (i13 4))].
Definition dx_run : option (list nat * list nat * nat * nat) :=
  match prun (E:=exp_pairing 13) cx_o (mkPp (E:=exp_pairing 13) 0 [] (i13 2) (i13 7)) [OTrack 1 [i13 2; i13 3]] with
  | Ok (s, hs) => match prun2 (E:=exp_pairing 13) cx_o s hs dx_calls with
                  | Ok ((a, ha), (b, hb)) => Some (map tp_id ha, map tp_id hb, length (pt_sc a), length (pt_sc b))
                  | _ => None
                  end
  | _ => None
  end.
(** The copies of a verifier: one makes a commitment and loads the query results, both evaluate. *)
Definition dx_vrun : option (list (list (option Z))) :=
  let cp := mkCproof (E:=exp_pairing 13) [(0, i13 5)] [] (mkProof [] []) 0 0 [((0, [i13 2]), i13 7)] [] in
  match vrun (E:=exp_pairing 13) cx_o true (mkVpar (E:=exp_pairing 13) 1 (i13 2) (i13 7) [i13 3]) cp [VONext] with
  | Ok (v, hs) => match vrun2 cx_o true v hs [(true, VOMulS 0 (i13 3)); (true, VOTransferEvals)] with
                  | Ok ((a, _), (b, _)) => Some (map (fun w => map (fun i => match eval_virtual_comm w i [i13 2] with Ok y => Some (val y) | _ => None end) [0; 1]) [v; a; b])
                  | _ => None
                  end
  | _ => None
  end.
Example C36_ex_verifier : dx_vrun = Some [[None; None]; [Some 7; Some 8]; [Some 7; Some 8]]%Z.
Proof. vm_compute. reflexivity. Qed.
Example C36_ex : dx_run = Some ([0; 1], [0; 2; 3], 1, 0).
Proof. vm_compute. reflexivity. Qed.

(** ** C37: the query results of a proof *)

(** Every query result of a compiled proof is zero, for every committed polynomial. *)
Theorem C37_all_zero : forall (p : positive) (E : pairing p) (o : oracle p (gcar (PG1 E))) sc sc' addr debug (s : ptrk E) cp s', compile_proof o sc sc' addr debug s = Ok (cp, s') ->
  (forall id x y, In ((id, x), y) (cp_query cp) -> y = F0 /\ x = pf_point (cp_sc cp)) /\
  (forall id, mget (cp_comms cp) id <> None <-> In ((id, pf_point (cp_sc cp)), F0) (cp_query cp)).
Proof. exact @query_entries. Qed.
Print Assumptions C37_all_zero.

(** Two commitments to the constant c: the prover's value at the sum-check point is c, the verifier's, read from the accepted proof, is 0. *)
Theorem C37_refuted : forall (p : positive) (E : pairing p), pairing_laws E -> prime (Zpos p) ->
  forall (o : oracle p (gcar (PG1 E))) sc sc' addr debug vdebug g h rnd N k srs ck vk c,
  1 <= N -> k <= N -> 1 <= k -> gen_srs E g h rnd N = Ok srs -> kzg_trim srs None (Some k) = Ok (ck, vk) -> distinct_addresses addr -> 2 < fsize p -> c <> F0 ->
  let ops := [OCommit 1 [c; c]; OCommit 1 [c; c]] in let vops := [VONext; VONext] in
  exists s h0 h1 cp s' v, prun o ck ops = Ok (s, [h0; h1]) /\ compile_proof o sc sc' addr debug s = Ok (cp, s') /\
    vrun o vdebug vk cp vops = Ok (v, [tp_id h0; tp_id h1]) /\ (off_nodes cp -> exists v', verify_claims o v = Ok v') /\
    length (pf_point (cp_sc cp)) = 1 /\
    tp_evaluate s h0 (pf_point (cp_sc cp)) = Ok (Some c) /\
    eval_virtual_comm (transfer_proof_poly_evals v) (tp_id h0) (pf_point (cp_sc cp)) = Ok F0.
Proof. intros p E HE Hp. exact (query_refuted HE Hp). Qed.
Print Assumptions C37_refuted.

(** Reading a received polynomial after the query results of the current proof have been taken over: the proof's entry if it has one,
    otherwise what was read before, for instance from an earlier proof. *)
Theorem C37_read : forall (p : positive) (E : pairing p) (v : vtrk E) id x, mget (vt_virt v) id = Some (VQuery id) -> NoDup (map fst (cp_query (vt_proof v))) ->
  (forall y, In ((id, x), y) (cp_query (vt_proof v)) -> eval_virtual_comm (transfer_proof_poly_evals v) id x = Ok y) /\
  ((forall y, ~ In ((id, x), y) (cp_query (vt_proof v))) -> eval_virtual_comm (transfer_proof_poly_evals v) id x = eval_virtual_comm v id x).
Proof. exact @query_read. Qed.
Print Assumptions C37_read.
(** Two proofs in turn, each with a result for the received polynomial 0 at another point: both can be read. *)
Definition qx_cp (x y : Z) : cproof (exp_pairing 13) := mkCproof (E:=exp_pairing 13) [(0, i13 5)] [] (mkProof [] []) 3 1 [((0, [i13 x]), i13 y)] [].
Definition qx_two : option (vtrk (exp_pairing 13)) :=
  match transfer_prover_comm true (set_compiled_proof (vt_new (E:=exp_pairing 13) (mkVpar (E:=exp_pairing 13) 1 F1 F1 [])) (qx_cp 2 7)) 0 with
  | Ok (_, v) => Some (set_compiled_proof (transfer_proof_poly_evals v) (qx_cp 3 8)) | _ => None end.
Example C37_ex_read : exists v, qx_two = Some v /\ mget (vt_virt v) 0 = Some (VQuery 0) /\ NoDup (map fst (cp_query (vt_proof v))) /\
  eval_virtual_comm (transfer_proof_poly_evals v) 0 [i13 3] = Ok (i13 8) /\ eval_virtual_comm (transfer_proof_poly_evals v) 0 [i13 2] = Ok (i13 7).
Proof.
  assert (X : match qx_two with Some v => mget (vt_virt v) 0 = Some (VQuery 0) /\ NoDup (map fst (cp_query (vt_proof v))) /\ eval_virtual_comm v 0 [i13 2] = Ok (i13 7) /\ cp_query (vt_proof v) = [((0, [i13 3]), i13 8)] | None => False end).
  { split; [reflexivity|]. split; [constructor; [intros []|constructor]|]. split; reflexivity. }
  destruct qx_two as [v|]; [|destruct X]. destruct X as [H1 [H2 [H3 H4]]]. exists v. split; [reflexivity|]. split; [exact H1|]. split; [exact H2|]. split.
  - apply (C37_read 13 _ v 0 [i13 3] H1 H2). rewrite H4. left. reflexivity.
  - rewrite <- H3. apply (C37_read 13 _ v 0 [i13 2] H1 H2). rewrite H4. intros y [Y|[]]. discriminate Y.
Qed.

Definition qx_run : option (list (nat * list Z * Z) * list (option Z)) :=
  match gen_srs (exp_pairing 13) (i13 2) (i13 7) (fun i => ofN (i + 3)) 3 with
  | Ok s => match kzg_trim s None (Some 2) with
            | Ok (ck, vk) => match prun cx_o ck (cx_ops 0) with
                             | Ok (s, hs) => match compile_proof cx_o cx_sc cx_sc (fun i => i) true s with
                                             | Ok (cp, s') => Some (map (fun e => (fst (fst e), map val (snd (fst e)), val (snd e))) (cp_query cp),
                                                  map (fun h => match tp_evaluate s h (pf_point (cp_sc cp)) with Ok (Some y) => Some (val y) | _ => None end) (firstn 2 hs))
                                             | _ => None
                                             end
                             | _ => None
                             end
            | _ => None
            end
  | _ => None
  end.
Example C37_ex : match qx_run with Some (q, [Some a; Some b]) => forallb (fun e => Z.eqb (snd e) 0) q && negb (Z.eqb a 0) && (length q =? 3) | _ => false end = true.
Proof. vm_compute. reflexivity. Qed.
