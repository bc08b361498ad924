(** C66: several proofs from one prover tracker to one verifier tracker. *)
From Coq Require Import String List Arith Bool ZArith Znumtheory.
Import ListNotations.
From Verif Require Import Res Fp FSum SpecMle SpecKzg SpecPoly SpecSumcheck SpecBatch SpecTracker ModelMle ModelTranscript ModelSumcheck Pairing ModelKzg ModelBatch ModelProver ModelVerifier
  ProverHist VerifierHist CompileHist SessionHist KzgExtra SessionRounds SessionSound.
Local Open Scope string_scope.
Local Open Scope list_scope.
Local Open Scope nat_scope.

(** After any number of accepted rounds the two sides hold the same ids and every handle still has the table its calls
    gave it. If the polynomials all have the same number of variables and the claims of all rounds so far are true, then
    the prover's next proof is compiled, the verifier's mirroring calls succeed and read the true sums, of the earlier
    rounds too, and the proof is accepted, unless a challenge is one of the points the round messages are sampled at:
    then the verifier panics. *)
Theorem C66_complete : forall (p : positive) (E : pairing p), pairing_laws E -> prime (Zpos p) ->
  forall (o : oracle p (gcar (PG1 E))) vdebug g h rd N k srs ck vk rs r s hs v cs s1 hs1 n D,
  1 <= N -> k <= N -> gen_srs E g h rd N = Ok srs -> kzg_trim srs None (Some k) = Ok (ck, vk) ->
  Forall (fun r => distinct_addresses (r_addr r) /\ mirror false ck (r_ops r) (r_vops r)) (rs ++ [r]) ->
  session o vdebug ck vk rs = Ok ((s, hs), (v, cs)) -> foldM (pstep o) (s, hs) (r_ops r) = Ok (s1, hs1) ->
  (forall hd, In hd hs1 -> tp_nv hd = n) -> 0 < n <= k ->
  let ops := calls (rs ++ [r]) in
  (forall d, In d (degrees ops) -> d <= D) -> 1 <= D -> D + 1 < fsize p -> 2 < fsize p ->
  2 <= commit_calls (r_ops (hd r rs)) -> zeros_hold ops ->
  (forall i c, In (VOSum i c) (vcalls (rs ++ [r])) -> c = Fsum (corners (poly_at ops i))) ->
  cs = map tp_id hs /\ Forall2 (fun hd d => tp_nv hd = fst d /\ exists s', tp_evaluations s hd = Ok (corners d, s')) hs (denote (calls rs)) /\
  exists cp s2 v1, compile_round o r s1 = Ok (cp, s2) /\ cp_comms cp = pt_comm s1 /\
    foldM (vstep o vdebug) (set_compiled_proof v cp, cs) (r_vops r) = Ok (v1, map tp_id hs1) /\
    (forall i, In i (sum_calls ops) -> get_prover_claimed_sum v1 (tp_id (nth i hs1 (mkTp 0 0))) = Ok (Fsum (corners (poly_at ops i)))) /\
    (off_nodes cp -> exists v2, verify_claims o v1 = Ok v2) /\ (~ off_nodes cp -> verify_claims o v1 = Panic).
Proof. intros p E HE Hp. exact (session_complete HE Hp). Qed.
Print Assumptions C66_complete.

Local Notation "'i13' n" := (@ofZ 13 n%Z) (at level 9).
(** Three rounds over F 13. The first claims that a 0/1-valued polynomial is one and sums g = (3,5,0,7); the second commits
    to u = (2,9,4,1) and sums g * u with the verifier's own value; the third reads a table and claims g * u - g * u = 0. *)
Definition sx_o : oracle 13 (gcar (PG1 (exp_pairing 13))) := fun h _ => ofN (4 + length h mod 9).
Definition sx_sc : nat -> nat -> sched := fun _ _ => SSplit 1 SLeaf SLeaf.
Definition sx_rnd (ops : list (pop 13)) (vops : list (vop (exp_pairing 13))) : rnd (exp_pairing 13) := mkRnd ops vops sx_sc sx_sc S true.
Definition sx_r1 := sx_rnd
  [OCommit 2 [i13 1; i13 0; i13 1; i13 1]; OCommit 2 [i13 3; i13 5; i13 0; i13 7]; OMul 0 0; OSub 2 0; OZero 3; OSum 1 (i13 0)]
  [VONext; VONext; VOMul 0 0; VOSub 2 0; VOZero 3; VOClaimed 1].
Definition sx_r2 (c : Z) := sx_rnd
  [OCommit 2 [i13 2; i13 9; i13 4; i13 1]; OMul 1 4; OSum 5 (i13 0); OChal "x"] [VONext; VOMul 1 4; VOSum 5 (i13 c); VOChal "x"].
Definition sx_r3 := sx_rnd [OEvals 5; OSub 5 5; OZero 6; OSum 0 (i13 0)] [VOSub 5 5; VOZero 6; VOClaimed 0].
Definition sx_keys := s <- gen_srs (exp_pairing 13) (i13 2) (i13 7) (fun i => ofN (i + 3)) 3 ;; kzg_trim s None (Some 3).
Definition sx_run (rs : list (rnd (exp_pairing 13))) := ' (ck, vk) <- sx_keys ;; session sx_o true ck vk rs.
Definition sx_end (rs : list (rnd (exp_pairing 13))) : res nat := w <- sx_run rs ;; Ok (length (snd (fst w))).

(** All three rounds are accepted; with a wrong sum (6 is right) the second is not. Rounds without calls prove the old claims again. *)
Example C66_ex : sx_end [sx_r1; sx_r2 6; sx_r3] = Ok 7 /\ sx_end [sx_r1; sx_r2 7] = Err IOPInvalidVerifier /\
  sx_end [sx_r1; sx_rnd [] []; sx_rnd [] []] = Ok 4.
Proof. vm_compute. repeat split. Qed.
Example C66_ex_hyps : let ops := calls [sx_r1; sx_r2 6; sx_r3] in
  degrees ops = [1; 1; 2; 2; 1; 2; 2] /\ commit_calls (r_ops sx_r1) = 2 /\ zeros_hold ops /\ val (Fsum (corners (poly_at ops 5))) = 6%Z /\
  forall ck, Forall (fun r => distinct_addresses (r_addr r) /\ mirror false ck (r_ops r) (r_vops r)) [sx_r1; sx_r2 6; sx_r3].
Proof.
  cbv zeta. split; [reflexivity|]. split; [reflexivity|]. split; [|split; [reflexivity|]].
  - unfold zeros_hold. cbn [zero_calls calls sx_r1 sx_r2 sx_r3 sx_rnd r_ops flat_map app].
    intros i Hi. apply Forall_forall. intros y Hy. apply Feqb_eq.
    assert (H : forallb (fun i => forallb (fun y => Feqb y F0) (corners (poly_at (calls [sx_r1; sx_r2 6; sx_r3]) i))) [3; 6] = true) by (vm_compute; reflexivity).
    rewrite forallb_forall in H. specialize (H i Hi). rewrite forallb_forall in H. apply H. exact Hy.
  - intros ck. assert (D : distinct_addresses S) by (intros i j H; injection H; trivial).
    repeat (constructor; [split; [exact D|repeat constructor; discriminate]|]). constructor.
Qed.

(** ** Later proofs of false claims *)

(** Whatever was claimed and accepted in earlier rounds: if one of the claims made in any round so far is false, a zero-check
    claim or a sum the verifier's caller gave, then the next round is accepted for at most n + 2 in |F| of its challenges.
    A proof repeats all earlier claims, so a false claim that slipped through once is tested again each time. *)
Theorem C66_false_claims_rejected : forall (p : positive) (E : pairing p), pairing_laws E -> prime (Zpos p) ->
  forall (oh : oracle p (gcar (PG1 E))) vdebug g h rd N k srs ck vk rs r s hs v cs s1 hs1 n D M,
  1 <= N -> k <= N -> gen_srs E g h rd N = Ok srs -> kzg_trim srs None (Some k) = Ok (ck, vk) ->
  Forall (fun r => distinct_addresses (r_addr r) /\ mirror false ck (r_ops r) (r_vops r)) (rs ++ [r]) ->
  session oh vdebug ck vk rs = Ok ((s, hs), (v, cs)) -> foldM (pstep oh) (s, hs) (r_ops r) = Ok (s1, hs1) ->
  (forall hd, In hd hs1 -> tp_nv hd = n) -> 0 < n <= k ->
  let ops := calls (rs ++ [r]) in
  (forall d, In d (degrees ops) -> d <= D) -> 1 <= D -> D + 1 < fsize p -> 2 < fsize p ->
  2 <= commit_calls (r_ops (hd r rs)) ->
  (~ zeros_hold ops \/ exists i c, In (VOSum i c) (vcalls (rs ++ [r])) /\ c <> Fsum (corners (poly_at ops i))) ->
  let L := length (zero_calls ops) + n + (length (sum_calls ops) + length rs) + 1 in
  count (round_accepts oh vdebug v cs r s1) (allV p (L + M)) <= (n + 2) * fsize p ^ (L + M - 1).
Proof.
  intros p E HE Hp oh vdebug g h rd N k srs ck vk rs r s hs v cs s1 hs1 n D M H1 H2 H3 H4 H5 H6 H7 H8 H9 ops H10 H11 H12 H13 H14 H15.
  exact (proj1 (session_caught HE Hp oh vdebug g h rd N k srs ck vk rs r s hs v cs s1 hs1 n D M H1 H2 H3 H4 H5 H6 H7 H8 H9 H10 H11 H12 H13 H14) H15).
Qed.
Print Assumptions C66_false_claims_rejected.

(** In a debug build the prover itself refuses to compile, with the same exceptions. *)
Theorem C66_debug_prover_refuses : forall (p : positive) (E : pairing p), pairing_laws E -> prime (Zpos p) ->
  forall (oh : oracle p (gcar (PG1 E))) vdebug g h rd N k srs ck vk rs r s hs v cs s1 hs1 n D M,
  1 <= N -> k <= N -> gen_srs E g h rd N = Ok srs -> kzg_trim srs None (Some k) = Ok (ck, vk) ->
  Forall (fun r => distinct_addresses (r_addr r) /\ mirror false ck (r_ops r) (r_vops r)) (rs ++ [r]) ->
  session oh vdebug ck vk rs = Ok ((s, hs), (v, cs)) -> foldM (pstep oh) (s, hs) (r_ops r) = Ok (s1, hs1) ->
  (forall hd, In hd hs1 -> tp_nv hd = n) -> 0 < n <= k ->
  let ops := calls (rs ++ [r]) in
  (forall d, In d (degrees ops) -> d <= D) -> 1 <= D -> D + 1 < fsize p -> 2 < fsize p ->
  2 <= commit_calls (r_ops (hd r rs)) -> ~ zeros_hold ops -> r_debug r = true ->
  let L := length (zero_calls ops) + n + (length (sum_calls ops) + length rs) + 1 in
  count (round_compiles r s1) (allV p (L + M)) <= (n + 2) * fsize p ^ (L + M - 1).
Proof.
  intros p E HE Hp oh vdebug g h rd N k srs ck vk rs r s hs v cs s1 hs1 n D M H1 H2 H3 H4 H5 H6 H7 H8 H9 ops H10 H11 H12 H13 H14 H15 H16.
  exact (proj2 (session_caught HE Hp oh vdebug g h rd N k srs ck vk rs r s hs v cs s1 hs1 n D M H1 H2 H3 H4 H5 H6 H7 H8 H9 H10 H11 H12 H13 H14) H15 H16).
Qed.
Print Assumptions C66_debug_prover_refuses.

(** After the first two rounds the third claims that g * u - g vanishes, which is false, or nothing. With scripted challenges
    an ordinary vector rejects the false claim, and a vector with 0 for its weight, the second challenge, is an exception. *)
Definition sx_false := mkRnd (E:=exp_pairing 13) [OSub 5 1; OZero 6] [VOSub 5 1; VOZero 6] sx_sc sx_sc S false.
Definition sx_third (r : rnd (exp_pairing 13)) (ch : list Z) : option bool :=
  match sx_run [sx_r1; sx_r2 6] with
  | Ok ((s, hs), (v, cs)) => match foldM (pstep sx_o) (s, hs) (r_ops r) with
                             | Ok (s1, _) => Some (round_accepts sx_o true v cs r s1 (map ofZ ch))
                             | _ => None
                             end
  | _ => None
  end.
Example C66_ex_false : let v w := [5; w; 7; 8; 9; 10; 11; 12; 6; 7; 8; 9; 10; 11; 12; 5; 6; 7; 8; 9]%Z in
  sx_third sx_false (v 6)%Z = Some false /\ sx_third sx_false (v 0)%Z = Some true /\ sx_third (sx_rnd [] []) (v 6)%Z = Some true /\
  forall ck, mirror false ck (r_ops sx_false) (r_vops sx_false).
Proof. cbv zeta. split; [vm_compute; reflexivity|]. split; [vm_compute; reflexivity|]. split; [vm_compute; reflexivity|]. intros ck. repeat constructor; discriminate. Qed.
Example C66_ex_zeros : ~ zeros_hold (calls [sx_r1; sx_r2 6; sx_false]).
Proof.
  intros H. specialize (H 6 (or_intror (or_introl eq_refl))). assert (X : forallb (fun y => Feqb y F0) (corners (poly_at (calls [sx_r1; sx_r2 6; sx_false]) 6)) = true).
  { apply forallb_forall. intros y Hy. rewrite Forall_forall in H. apply Feqb_eq. apply H. exact Hy. }
  vm_compute in X. discriminate.
Qed.

(** ** What the equal sizes are needed for *)
Definition sx_m := sx_rnd [OCommit 2 [i13 1; i13 0; i13 1; i13 1]; OCommit 1 [i13 3; i13 5]; OSum 1 (i13 0)] [VONext; VONext; VOClaimed 1].

(** Compiling extends the tables in place: after an accepted round with polynomials in two and in one variable the smaller
    handle, which says one variable, has a table of four entries. Adding a new polynomial in one variable to it passes the
    check of the sizes, and reading the table of the result panics. *)
Theorem C66_smaller_handles_refuted :
  exists (r : rnd (exp_pairing 13)) s hs w (a : tpoly) l s',
    sx_run [r] = Ok ((s, hs), w) /\ nth_error hs 1 = Some a /\ tp_nv a = 1 /\ tp_evaluations s a = Ok (l, s') /\ length l = 4 /\
    foldM (pstep sx_o) (s, hs) [OCommit 1 [i13 3; i13 5]; OAdd 1 2; OEvals 3] = Panic.
Proof.
  exists sx_m. assert (H : match sx_run [sx_m] with
    | Ok ((s, hs), _) => match nth_error hs 1 with
                         | Some a => match tp_evaluations s a with
                                     | Ok (l, _) => (tp_nv a =? 1) && (length l =? 4) &&
                                         match foldM (pstep sx_o) (s, hs) [OCommit 1 [i13 3; i13 5]; OAdd 1 2; OEvals 3] with Panic => true | _ => false end
                                     | _ => false
                                     end
                         | None => false
                         end
    | _ => false
    end = true) by (vm_compute; reflexivity).
  destruct (sx_run [sx_m]) as [[[s hs] w]| |]; try discriminate. destruct (nth_error hs 1) as [a|] eqn:Ea; try discriminate.
  destruct (tp_evaluations s a) as [[l s']| |] eqn:Ee; try discriminate. apply andb_prop in H. destruct H as [H H3]. apply andb_prop in H. destruct H as [H1 H2].
  apply Nat.eqb_eq in H1, H2. destruct (foldM (pstep sx_o) (s, hs) _) eqn:Ef in H3; try discriminate.
  exists s, hs, w, a, l, s'. repeat (split; [assumption || reflexivity|]). exact Ef.
Qed.
Print Assumptions C66_smaller_handles_refuted.

(** A later polynomial with more variables makes the next honest proof fail: the verifier keeps the sums of the first round,
    which the larger domain doubles. *)
Theorem C66_larger_later_refuted :
  exists (r r' : rnd (exp_pairing 13)), zeros_hold (calls [r; r']) /\ (forall i c, ~ In (VOSum i c) (vcalls [r; r'])) /\
    (forall ck, mirror false ck (r_ops r) (r_vops r) /\ mirror false ck (r_ops r') (r_vops r')) /\
    (exists w, sx_run [r] = Ok w) /\ sx_run [r; r'] = Err IOPInvalidVerifier.
Proof.
  exists (sx_rnd [OCommit 2 [i13 1; i13 0; i13 1; i13 1]; OCommit 2 [i13 3; i13 5; i13 0; i13 7]; OSum 1 (i13 0)] [VONext; VONext; VOClaimed 1]),
    (sx_rnd [OCommit 3 (repeat (i13 1) 8)] [VONext]).
  split; [intros i []|]. split; [cbn; intros i c H; intuition discriminate|]. split; [intros ck; split; repeat constructor|]. split.
  - match goal with |- exists w, ?x = _ => assert (H : match x with Ok _ => true | _ => false end = true) by (vm_compute; reflexivity); destruct x as [w| |]; try discriminate H; exists w; reflexivity end.
  - match goal with |- ?x = _ => assert (H : match x with Err IOPInvalidVerifier => true | _ => false end = true) by (vm_compute; reflexivity); destruct x as [w|[]|]; try discriminate H; reflexivity end.
Qed.
Print Assumptions C66_larger_later_refuted.

Definition sx_n := sx_rnd [OSum 0 (i13 0)] [VOClaimed 0].
(** A verifier that is only handed the second of two proofs rejects it, though all claims are true and it made all the
    calls: the first proof left challenges in the transcript of the prover and one more claim in its list. *)
Theorem C66_skipped_proof_refuted :
  exists (r r' : rnd (exp_pairing 13)) ck vk s1 hs1 cp1 s2 s3 hs3 cp s4,
    sx_keys = Ok (ck, vk) /\ (exists w, session sx_o true ck vk [r; r'] = Ok w) /\
    foldM (pstep sx_o) (pt_new ck, []) (r_ops r) = Ok (s1, hs1) /\ compile_round sx_o r s1 = Ok (cp1, s2) /\
    foldM (pstep sx_o) (s2, hs1) (r_ops r') = Ok (s3, hs3) /\ compile_round sx_o r' s3 = Ok (cp, s4) /\
    (v <- vrun sx_o false vk cp (r_vops r ++ r_vops r') ;; verify_claims sx_o (fst v)) = Err IOPInvalidVerifier.
Proof.
  exists sx_r1, (sx_n). assert (H : match sx_keys with
    | Ok (ck, vk) => match session sx_o true ck vk [sx_r1; sx_n] with
      | Ok _ => match foldM (pstep sx_o) (pt_new ck, []) (r_ops sx_r1) with
        | Ok (s1, hs1) => match compile_round sx_o sx_r1 s1 with
          | Ok (cp1, s2) => match foldM (pstep sx_o) (s2, hs1) (r_ops (sx_n)) with
            | Ok (s3, hs3) => match compile_round sx_o (sx_n) s3 with
              | Ok (cp, s4) => match (v <- vrun sx_o false vk cp (r_vops sx_r1 ++ r_vops (sx_n)) ;; verify_claims sx_o (fst v)) with Err IOPInvalidVerifier => true | _ => false end
              | _ => false end
            | _ => false end
          | _ => false end
        | _ => false end
      | _ => false end
    | _ => false end = true) by (vm_compute; reflexivity).
  destruct sx_keys as [[ck vk]| |]; try discriminate. destruct (session sx_o true ck vk _) as [w| |] eqn:E0; try discriminate.
  destruct (foldM (pstep sx_o) (pt_new ck, []) _) as [[s1 hs1]| |] eqn:E1; try discriminate. destruct (compile_round sx_o sx_r1 s1) as [[cp1 s2]| |] eqn:E2; try discriminate.
  destruct (foldM (pstep sx_o) (s2, hs1) _) as [[s3 hs3]| |] eqn:E3; try discriminate. destruct (compile_round sx_o (sx_n) s3) as [[cp s4]| |] eqn:E4; try discriminate.
  destruct (bind (vrun sx_o false vk cp _) _) as [w'|[]|] eqn:E5 in H; try discriminate H.
  exists ck, vk, s1, hs1, cp1, s2, s3, hs3, cp, s4. split; [reflexivity|]. split; [exists w; exact E0|]. repeat (split; [assumption|]). exact E5.
Qed.
Print Assumptions C66_skipped_proof_refuted.
