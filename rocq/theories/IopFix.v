(** Concrete runs of the relational protocols over F 101, and an evaluator for the claims they leave. *)
From Coq Require Import String List Arith Lia Bool ZArith Znumtheory.
Import ListNotations.
From Verif Require Import Res Fp FSum SpecMle SpecPoly SpecTracker SpecIop ModelMle ModelVp ModelTranscript ModelSumcheck Pairing ModelKzg ModelBatch ModelProver ModelVerifier
  ModelAdvice ModelIop ProverHist VerifierHist CompileHist IopHist.
Local Open Scope string_scope.
Local Open Scope list_scope.
Local Open Scope nat_scope.

Section V.
Context {p : positive} {E : pairing p}.
Notation F := (F p).

(** The value of a virtual commitment at a corner, by [means]. *)
Fixpoint veval (fuel : nat) (A : reading (p:=p)) (m : tmap (vexp p)) (id M j : nat) : option F :=
  match fuel with
  | 0 => None
  | S fuel =>
    match mget m id with
    | Some (VQuery i) => if fst (A i) <=? M then Some (snd (A i) (j mod 2 ^ fst (A i))) else None
    | Some (VFun f) => let y := snd (A id) (j mod 2 ^ fst (A id)) in
        if fst (A id) <=? M then match f (bpoint (fst (A id)) (j mod 2 ^ fst (A id))) with Ok z => if Feqb z y then Some y else None | _ => None end else None
    | Some (VAdd a b) => match veval fuel A m a M j, veval fuel A m b M j with Some x, Some y => Some (x + y)%F | _, _ => None end
    | Some (VSub a b) => match veval fuel A m a M j, veval fuel A m b M j with Some x, Some y => Some (x - y)%F | _, _ => None end
    | Some (VMul a b) => match veval fuel A m a M j, veval fuel A m b M j with Some x, Some y => Some (x * y)%F | _, _ => None end
    | Some (VAddS a c) => match veval fuel A m a M j with Some x => Some (x + c)%F | _ => None end
    | Some (VMulS a c) => match veval fuel A m a M j with Some x => Some (c * x)%F | _ => None end
    | Some (VFront a k) => if k <=? M then veval fuel A m a (M - k) (j / 2 ^ k) else None
    | Some (VBack a k) => if k <=? M then veval fuel A m a k (j mod 2 ^ k) else None
    | None => None
    end
  end.
Lemma veval_means : forall fuel A m id M j y, veval fuel A m id M j = Some y -> means A m id M j y.
Proof.
  induction fuel as [|fuel IH]; intros A m id M j y H; [discriminate|]. cbn [veval] in H. destruct (mget m id) as [e|] eqn:Q; [|discriminate].
  assert (two : forall a b (f : F -> F -> F) z, match veval fuel A m a M j, veval fuel A m b M j with Some x, Some y => Some (f x y) | _, _ => None end = Some z ->
    exists x y, veval fuel A m a M j = Some x /\ veval fuel A m b M j = Some y /\ z = f x y).
  { intros a b f z Hz. destruct (veval fuel A m a M j) as [x0|]; [|discriminate]. destruct (veval fuel A m b M j) as [y0|]; [|discriminate]. injection Hz as Hz. eauto. }
  assert (one : forall a (f : F -> F) z, match veval fuel A m a M j with Some x => Some (f x) | _ => None end = Some z -> exists x, veval fuel A m a M j = Some x /\ z = f x).
  { intros a f z Hz. destruct (veval fuel A m a M j) as [x0|]; [|discriminate]. injection Hz as Hz. eauto. }
  destruct e.
  - destruct (fst (A id0) <=? M) eqn:L; [|discriminate]. apply Nat.leb_le in L. injection H as H. subst y. apply me_query; assumption.
  - destruct (fst (A id) <=? M) eqn:L; [|discriminate]. apply Nat.leb_le in L. destruct (f (bpoint (fst (A id)) (j mod 2 ^ fst (A id)))) as [z| |] eqn:Qf; try discriminate.
    destruct (Feqb z (snd (A id) (j mod 2 ^ fst (A id)))) eqn:Qz; [|discriminate]. apply Feqb_eq in Qz. injection H as H. subst y. eapply me_fun; [exact Q|exact L|rewrite Qf, Qz; reflexivity].
  - destruct (two a b Fadd y H) as [x [y0 [H1 [H2 ->]]]]. eapply me_add; eauto.
  - destruct (two a b Fsub y H) as [x [y0 [H1 [H2 ->]]]]. eapply me_sub; eauto.
  - destruct (two a b Fmul y H) as [x [y0 [H1 [H2 ->]]]]. eapply me_mul; eauto.
  - destruct (one a (fun x => x + c)%F y H) as [x [H1 ->]]. eapply me_adds; eauto.
  - destruct (one a (fun x => c * x)%F y H) as [x [H1 ->]]. eapply me_muls; eauto.
  - destruct (k <=? M) eqn:L; [|discriminate]. apply Nat.leb_le in L. eapply me_front; eauto.
  - destruct (k <=? M) eqn:L; [|discriminate]. apply Nat.leb_le in L. eapply me_back; eauto.
Qed.
Definition is_some_zero (x : option F) : bool := match x with Some y => Feqb y F0 | None => false end.
Definition orz (x : option F) : F := match x with Some y => y | None => F0 end.
Definition is_some (x : option F) : bool := match x with Some _ => true | None => false end.
Definition claimsb (fuel : nat) (A : reading (p:=p)) (N : nat) (v : vtrk E) : bool :=
  forallb (fun id => forallb (fun j => is_some_zero (veval fuel A (vt_virt v) id N j)) (seq 0 (2 ^ N))) (vt_zc v) &&
  forallb (fun ic => forallb (fun j => is_some (veval fuel A (vt_virt v) (fst ic) N j)) (seq 0 (2 ^ N)) &&
                     Feqb (snd ic) (Fsum (map (fun j => orz (veval fuel A (vt_virt v) (fst ic) N j)) (seq 0 (2 ^ N))))) (vt_sc v).
Lemma claimsb_ok : forall fuel A N v, claimsb fuel A N v = true -> claims_hold A N v.
Proof.
  intros fuel A N v H. apply andb_true_iff in H. destruct H as [H1 H2]. rewrite forallb_forall in H1, H2. split.
  - intros id Hi j Hj. specialize (H1 id Hi). rewrite forallb_forall in H1. specialize (H1 j ltac:(apply in_seq; lia)). unfold is_some_zero in H1.
    destruct (veval fuel A (vt_virt v) id N j) as [y|] eqn:Q; [|discriminate]. apply Feqb_eq in H1. subst y. eapply veval_means. exact Q.
  - intros id c Hi. specialize (H2 (id, c) Hi). cbn [fst snd] in H2. apply andb_true_iff in H2. destruct H2 as [H2 H3]. apply Feqb_eq in H3. rewrite forallb_forall in H2.
    exists (fun j => orz (veval fuel A (vt_virt v) id N j)). split; [|exact H3]. intros j Hj. specialize (H2 j ltac:(apply in_seq; lia)).
    destruct (veval fuel A (vt_virt v) id N j) as [y|] eqn:Q; [|discriminate]. eapply veval_means. exact Q.
Qed.
Definition readsb (fuel : nat) (A : reading (p:=p)) (N : nat) (v : vtrk E) (c : nat * nat * list F) : bool :=
  (snd (fst c) <=? N) && (length (snd c) =? 2 ^ snd (fst c)) &&
  forallb (fun j => match veval fuel A (vt_virt v) (fst (fst c)) N j with Some y => Feqb y (nth (j mod 2 ^ snd (fst c)) (snd c) F0) | None => false end) (seq 0 (2 ^ N)).
Lemma readsb_ok : forall fuel A N v id n l, readsb fuel A N v (id, n, l) = true -> reads A N v id n l.
Proof.
  intros fuel A N v id n l H. unfold readsb in H. cbn [fst snd] in H. apply andb_true_iff in H. destruct H as [H H3]. apply andb_true_iff in H. destruct H as [H1 H2].
  apply Nat.leb_le in H1. apply Nat.eqb_eq in H2. split; [exact H1|]. split; [exact H2|]. intros j Hj. rewrite forallb_forall in H3. specialize (H3 j ltac:(apply in_seq; lia)).
  destruct (veval fuel A (vt_virt v) id N j) as [y|] eqn:Q; [|discriminate]. apply Feqb_eq in H3. subst y. eapply veval_means. exact Q.
Qed.

(** The committed and tracked tables of a prover, as a reading. *)
Definition reading_of (s : ptrk E) : reading (p:=p) := fun id =>
  match mget (pt_mat s) id with Some a => (nv (snd a), fun k => nth k (evs (snd a)) F0) | None => (0, fun _ => F0) end.
End V.

Local Notation "'i' n" := (@ofZ 101 n%Z) (at level 9).
Notation E101 := (exp_pairing 101).
(** Challenges from 40 on, so none is a small number. *)
Definition ix_o : oracle 101 (gcar (PG1 E101)) := fun h _ => ofN (40 + length h mod 50).
Definition ix_sc : nat -> nat -> sched := fun _ _ => SSplit 1 SLeaf SLeaf.
Definition ix_keys (k : nat) : res (pparam E101 * vparam E101) :=
  s <- gen_srs E101 (i 2) (i 7) (fun n => ofN (n + 3)) k ;; kzg_trim s None (Some k).

(** What happens to a run: 0 the prover's call fails, 1 its debug build refuses to compile, 2 the verifier's call fails,
    3 the proof is rejected, 4 it is accepted but a claim is false or a column is not read as given, 5 it is accepted, all claims are
    true for the prover's tables, and the columns are read as given. *)
Inductive outcome := NoProof | NotCompiled | NotVerified | Rejected | Untrue | Fine.
Definition ix_run (k : nat) (ops : list (pop 101)) (vops : list (vop E101)) (prove : ptrk E101 -> list tpoly -> res (ptrk E101)) (verify : vtrk E101 -> list nat -> res (vtrk E101))
  (cols : list (nat * nat * list (F 101))) : option outcome :=
  match ix_keys k with
  | Ok (ck, vk) => match prun ix_o ck ops with
    | Ok (s, hs) => match prove s hs with
      | Ok s' => match compile_proof ix_o ix_sc ix_sc (fun n => n) true s' with
        | Ok (cp, _) => match vrun ix_o true vk cp vops with
          | Ok (v, ids) => match verify v ids with
            | Ok v' => match verify_claims ix_o v' with
              | Ok _ => let A := reading_of s' in let N := max_nv (hs) in
                        Some (if claimsb 40 A N v' && forallb (readsb 40 A N v) cols then Fine else Untrue)
              | _ => Some Rejected
              end
            | _ => Some NotVerified
            end
          | _ => None
          end
        | _ => Some NotCompiled
        end
      | _ => Some NoProof
      end
    | _ => None
    end
  | _ => None
  end.

(** Unfold the names of runs before the runner itself. *)
Strategy 100 [ix_run].

(** A run that ends well meets the hypotheses of the theorems about true claims. *)
Lemma ix_fine : forall k ops vops prove verify cols, ix_run k ops vops prove verify cols = Some Fine ->
  exists vk cp v ids v' A N, vrun ix_o true vk cp vops = Ok (v, ids) /\ verify v ids = Ok v' /\ claims_hold A N v' /\ forall id n l, In (id, n, l) cols -> reads A N v id n l.
Proof.
  intros k ops vops prove verify cols H. unfold ix_run in H.
  destruct (ix_keys k) as [[ck vk]| |]; try discriminate. destruct (prun ix_o ck ops) as [[s hs]| |]; try discriminate. destruct (prove s hs) as [s'| |]; try discriminate.
  destruct (compile_proof ix_o ix_sc ix_sc (fun n => n) true s') as [[cp ?]| |]; try discriminate. destruct (vrun ix_o true vk cp vops) as [[v ids]| |] eqn:Q; try discriminate.
  destruct (verify v ids) as [v'| |] eqn:Qv; try discriminate. destruct (verify_claims ix_o v'); try discriminate. cbv zeta in H.
  destruct (claimsb 40 (reading_of s') (max_nv hs) v' && forallb (readsb 40 (reading_of s') (max_nv hs) v) cols) eqn:Qc; [|discriminate]. apply andb_true_iff in Qc. destruct Qc as [C1 C2].
  exists vk, cp, v, ids, v', (reading_of s'), (max_nv hs). split; [exact Q|]. split; [exact Qv|]. split; [eapply claimsb_ok; exact C1|]. intros id n l Hin. rewrite forallb_forall in C2. eapply readsb_ok. apply (C2 _ Hin).
Qed.

(** The whole of a run that ends well. *)
Definition good_run (k : nat) (ops : list (pop 101)) (vops : list (vop E101)) (prove : ptrk E101 -> list tpoly -> res (ptrk E101)) (verify : vtrk E101 -> list nat -> res (vtrk E101))
  (cols : list (nat * nat * list (F 101))) : Prop :=
  exists ck vk s hs s' cp s2 v ids v' v2 N, ix_keys k = Ok (ck, vk) /\ prun ix_o ck ops = Ok (s, hs) /\ prove s hs = Ok s' /\ compile_proof ix_o ix_sc ix_sc (fun n => n) true s' = Ok (cp, s2) /\
    vrun ix_o true vk cp vops = Ok (v, ids) /\ verify v ids = Ok v' /\ verify_claims ix_o v' = Ok v2 /\
    claims_hold (reading_of s') N v' /\ forall id n l, In (id, n, l) cols -> reads (reading_of s') N v id n l.
Lemma ix_good : forall k ops vops prove verify cols, ix_run k ops vops prove verify cols = Some Fine -> good_run k ops vops prove verify cols.
Proof.
  intros k ops vops prove verify cols H. unfold ix_run in H. unfold good_run.
  destruct (ix_keys k) as [[ck vk]| |] eqn:Q1; try discriminate. destruct (prun ix_o ck ops) as [[s hs]| |] eqn:Q2; try discriminate. destruct (prove s hs) as [s'| |] eqn:Q3; try discriminate.
  destruct (compile_proof ix_o ix_sc ix_sc (fun n => n) true s') as [[cp s2]| |] eqn:Q4; try discriminate. destruct (vrun ix_o true vk cp vops) as [[v ids]| |] eqn:Q; try discriminate.
  destruct (verify v ids) as [v'| |] eqn:Qv; try discriminate. destruct (verify_claims ix_o v') as [v2| |] eqn:Q5; try discriminate. cbv zeta in H.
  destruct (claimsb 40 (reading_of s') (max_nv hs) v' && forallb (readsb 40 (reading_of s') (max_nv hs) v) cols) eqn:Qc; [|discriminate]. apply andb_true_iff in Qc. destruct Qc as [C1 C2].
  exists ck, vk, s, hs, s', cp, s2, v, ids, v', v2, (max_nv hs). repeat (split; [first [reflexivity|assumption]|]). split; [eapply claimsb_ok; exact C1|]. intros id n l Hin. rewrite forallb_forall in C2. eapply readsb_ok. apply (C2 _ Hin).
Qed.

(** In a run, the functions registered by the verifier's call are read with [n] variables, or differ from the column of indices. *)
Definition ix_index (k : nat) (ops : list (pop 101)) (vops : list (vop E101)) (prove : ptrk E101 -> list tpoly -> res (ptrk E101)) (verify : vtrk E101 -> list nat -> res (vtrk E101)) (n : nat) : bool :=
  match ix_keys k with
  | Ok (ck, vk) => match prun ix_o ck ops with
    | Ok (s, hs) => match prove s hs with
      | Ok s' => match compile_proof ix_o ix_sc ix_sc (fun n => n) true s' with
        | Ok (cp, _) => match vrun ix_o true vk cp vops with
          | Ok (v, ids) => match verify v ids with
            | Ok v' => forallb (fun e => match snd e with
                                         | VFun f => (fst (reading_of s' (fst e)) =? n) || negb (match f (bpoint n 1) with Ok y => Feqb y F1 | _ => false end)
                                         | _ => true end) (vt_virt v')
            | _ => false end
          | _ => false end
        | _ => false end
      | _ => false end
    | _ => false end
  | _ => false end.
Strategy 100 [ix_index].
Lemma mget_in : forall A (m : tmap A) id a, mget m id = Some a -> In (id, a) m.
Proof. induction m as [|[e x] m IH]; intros id a H; cbn in H; [discriminate|]. destruct (e =? id) eqn:Q; [apply Nat.eqb_eq in Q; injection H as ->; subst; left; reflexivity|right; apply IH; exact H]. Qed.
Lemma ix_fine_index : forall k ops vops prove verify cols n, 1 <= n -> ix_run k ops vops prove verify cols = Some Fine -> ix_index k ops vops prove verify n = true ->
  exists vk cp v ids v' A N, vrun ix_o true vk cp vops = Ok (v, ids) /\ verify v ids = Ok v' /\ claims_hold A N v' /\ (forall id n l, In (id, n, l) cols -> reads A N v id n l) /\ index_over A v v' n.
Proof.
  intros k ops vops prove verify cols n Hn H HI. apply ix_good in H. destruct H as [ck [vk [s [hs [s' [cp [s2 [v [ids [v' [v2 [N [Q1 [Q2 [Q3 [Q4 [Q5 [Q6 [_ [C1 C2]]]]]]]]]]]]]]]]]]]].
  unfold ix_index in HI. rewrite Q1, Q2, Q3, Q4, Q5, Q6 in HI. exists vk, cp, v, ids, v', (reading_of s'), N. split; [exact Q5|]. split; [exact Q6|]. split; [exact C1|]. split; [exact C2|].
  intros id f _ Hm Hf. rewrite forallb_forall in HI. specialize (HI _ (mget_in _ _ _ _ Hm)). cbn [fst snd] in HI. rewrite (Hf n 1) in HI by (pose proof (Nat.pow_le_mono_r 2 1 n); cbn in *; lia).
  apply orb_true_iff in HI. destruct HI as [HI|HI]; [apply Nat.eqb_eq; exact HI|vm_compute in HI; discriminate].
Qed.

(** A concrete setting. *)
Lemma ix_nonnode : forall n hh l, n <= 40 -> nonnode n (ix_o hh l).
Proof.
  intros n hh l Hn k Hk H. unfold ix_o in H. pose proof (Nat.mod_upper_bound (length hh) 50 ltac:(lia)) as Hm. apply ofN_inj in H; [|lia|lia]. lia.
Qed.
Lemma sx_setting : exists ck vk s hs, setting ix_o (fun n => n) 2 ck vk [OCommit 2 [i 1; i 0; i 1; i 1]; OCommit 2 [i 3; i 5; i 0; i 7]] [VONext; VONext] s hs 1 5 /\
  stands [OCommit 2 [i 1; i 0; i 1; i 1]; OCommit 2 [i 3; i 5; i 0; i 7]] hs (nth 0 hs (mkTp 0 0)) [i 1; i 0; i 1; i 1].
Proof.
  set (ops := [OCommit 2 [i 1; i 0; i 1; i 1]; OCommit 2 [i 3; i 5; i 0; i 7]]).
  assert (H : match ix_keys 2 with Ok (ck, _) => match prun ix_o ck ops with Ok (_, hs) => (length hs =? 2) && (max_nv hs =? 2) | _ => false end | _ => false end = true) by (vm_compute; reflexivity).
  destruct (ix_keys 2) as [[ck vk]| |] eqn:K; try discriminate. destruct (prun ix_o ck ops) as [[s hs]| |] eqn:R; try discriminate. apply andb_true_iff in H. destruct H as [H1 H2]. apply Nat.eqb_eq in H1, H2.
  exists ck, vk, s, hs. split.
  - constructor.
    + unfold ix_keys in K. destruct (gen_srs E101 (i 2) (i 7) (fun n => ofN (n + 3)) 2) as [srs| |] eqn:G; try discriminate. cbn [bind] in K. exists (i 2), (i 7), (fun n => ofN (n + 3)), 2, srs. repeat split; auto.
    + intros a b H. exact H.
    + exact R.
    + repeat constructor.
    + repeat constructor.
    + intros a c [H|[H|[]]]; discriminate.
    + intros a [].
    + intros x [<-|[<-|[]]]; lia.
    + lia.
    + cbn. lia.
    + vm_compute. lia.
    + vm_compute. lia.
  - exists 0. split; [destruct hs; [discriminate|reflexivity]|]. assert (Q : forallb (fun xy => Feqb (fst xy) (snd xy)) (combine (corners (poly_at ops 0)) [i 1; i 0; i 1; i 1]) && (length (corners (poly_at ops 0)) =? 4) = true) by (vm_compute; reflexivity).
    apply andb_true_iff in Q. destruct Q as [Q1 Q2]. apply Nat.eqb_eq in Q2. revert Q1 Q2. generalize (corners (poly_at ops 0)). intros l Q1 Q2.
    do 4 (destruct l as [|? l]; [discriminate|]). destruct l; [|discriminate]. cbn [combine forallb fst snd] in Q1. repeat match goal with Q : (_ && _)%bool = true |- _ => apply andb_true_iff in Q; destruct Q end.
    repeat match goal with Q : Feqb _ _ = true |- _ => apply Feqb_eq in Q end. congruence.
Qed.
