(** Tools for the examples of C67: a session in which the verifier receives some commitments and makes one call, whose hypotheses
    are checked by computation. Nothing here stands for code in /repo. *)
From Coq Require Import String List Arith Bool ZArith Znumtheory Permutation Lia.
Import ListNotations.
From Verif Require Import Res Fp FSum SpecMle SpecPoly SpecSumcheck SpecTracker SpecIop ModelTranscript ModelSumcheck Pairing ModelKzg ModelBatch ModelProver ModelVerifier ModelIop
  ModelMle MleProofs ProverHist VerifierHist SessHist SessProofs CheckHist CheckProofs CheckIopHist.
Local Open Scope list_scope.
Local Open Scope nat_scope.

Section X.
Context {p : positive} {E : pairing p}.
Notation F := (F p).

Fixpoint valb (A : reading) (m : tmap (vexp p)) (fuel id M j : nat) : option F :=
  match fuel with
  | 0 => None
  | S fuel =>
      let two a b k := match valb A m fuel a M j, valb A m fuel b M j with Some x, Some y => Some (k x y) | _, _ => None end in
      match mget m id with
      | Some (VQuery i) => if fst (A i) <=? M then Some (snd (A i) (j mod 2 ^ fst (A i))) else None
      | Some (VFun f) => if fst (A id) <=? M then match f (bpoint (fst (A id)) (j mod 2 ^ fst (A id))) with
                           Ok y => if Feqb y (snd (A id) (j mod 2 ^ fst (A id))) then Some (snd (A id) (j mod 2 ^ fst (A id))) else None | _ => None end else None
      | Some (VAdd a b) => two a b Fadd
      | Some (VSub a b) => two a b Fsub
      | Some (VMul a b) => two a b Fmul
      | Some (VAddS a c) => option_map (fun x => Fadd x c) (valb A m fuel a M j)
      | Some (VMulS a c) => option_map (fun x => Fmul c x) (valb A m fuel a M j)
      | _ => None
      end
  end.
(** Is there a value? This does not compute it. *)
Fixpoint hasb (A : reading) (m : tmap (vexp p)) (fuel id M j : nat) : bool :=
  match fuel with
  | 0 => false
  | S fuel =>
      match mget m id with
      | Some (VQuery i) => fst (A i) <=? M
      | Some (VFun f) => (fst (A id) <=? M) && match f (bpoint (fst (A id)) (j mod 2 ^ fst (A id))) with Ok y => Feqb y (snd (A id) (j mod 2 ^ fst (A id))) | _ => false end
      | Some (VAdd a b) | Some (VSub a b) | Some (VMul a b) => hasb A m fuel a M j && hasb A m fuel b M j
      | Some (VAddS a _) | Some (VMulS a _) => hasb A m fuel a M j
      | _ => false
      end
  end.
Lemma hasb_valb : forall A m fuel id M j, hasb A m fuel id M j = true -> exists x, valb A m fuel id M j = Some x.
Proof.
  intros A m. induction fuel as [|fuel IH]; intros id M j H; [discriminate H|]. cbn [hasb] in H. cbn [valb]. destruct (mget m id) as [e|]; [|discriminate H].
  destruct e as [i|f|a b|a b|a b|a c|a c|a k|a k]; try discriminate H.
  - rewrite H. eexists. reflexivity.
  - apply andb_true_iff in H. destruct H as [H1 H2]. rewrite H1. destruct (f (bpoint (fst (A id)) (j mod 2 ^ fst (A id)))); try discriminate H2. rewrite H2. eexists. reflexivity.
  - apply andb_true_iff in H. destruct H as [H1 H2]. destruct (IH _ _ _ H1) as [x ->]. destruct (IH _ _ _ H2) as [y ->]. eexists. reflexivity.
  - apply andb_true_iff in H. destruct H as [H1 H2]. destruct (IH _ _ _ H1) as [x ->]. destruct (IH _ _ _ H2) as [y ->]. eexists. reflexivity.
  - apply andb_true_iff in H. destruct H as [H1 H2]. destruct (IH _ _ _ H1) as [x ->]. destruct (IH _ _ _ H2) as [y ->]. eexists. reflexivity.
  - destruct (IH _ _ _ H) as [x ->]. eexists. reflexivity.
  - destruct (IH _ _ _ H) as [x ->]. eexists. reflexivity.
Qed.
Lemma valb_means : forall A m fuel id M j x, valb A m fuel id M j = Some x -> means A m id M j x.
Proof.
  intros A m. induction fuel as [|fuel IH]; intros id M j x H; [discriminate H|]. cbn [valb] in H. destruct (mget m id) as [e|] eqn:G; [|discriminate H].
  destruct e as [i|f|a b|a b|a b|a c|a c|a k|a k]; try discriminate H.
  - destruct (Nat.leb_spec (fst (A i)) M) as [L|L]; [|discriminate H]. injection H as <-. apply (me_query A m id i); assumption.
  - destruct (Nat.leb_spec (fst (A id)) M) as [L|L]; [|discriminate H]. destruct (f (bpoint (fst (A id)) (j mod 2 ^ fst (A id)))) as [y| |] eqn:Y; try discriminate H.
    destruct (Feqb y (snd (A id) (j mod 2 ^ fst (A id)))) eqn:Q; [|discriminate H]. injection H as <-. apply Feqb_eq in Q. apply (me_fun A m id f); [exact G|exact L|]. rewrite Y, Q. reflexivity.
  - destruct (valb A m fuel a M j) eqn:V1; [|discriminate H]. destruct (valb A m fuel b M j) eqn:V2; [|discriminate H]. injection H as <-. eapply me_add; [exact G|apply IH; exact V1|apply IH; exact V2].
  - destruct (valb A m fuel a M j) eqn:V1; [|discriminate H]. destruct (valb A m fuel b M j) eqn:V2; [|discriminate H]. injection H as <-. eapply me_sub; [exact G|apply IH; exact V1|apply IH; exact V2].
  - destruct (valb A m fuel a M j) eqn:V1; [|discriminate H]. destruct (valb A m fuel b M j) eqn:V2; [|discriminate H]. injection H as <-. eapply me_mul; [exact G|apply IH; exact V1|apply IH; exact V2].
  - destruct (valb A m fuel a M j) eqn:V1; [|discriminate H]. injection H as <-. eapply me_adds; [exact G|apply IH; exact V1].
  - destruct (valb A m fuel a M j) eqn:V1; [|discriminate H]. injection H as <-. eapply me_muls; [exact G|apply IH; exact V1].
Qed.
Fixpoint degb (m : tmap (vexp p)) (fuel id : nat) : option nat :=
  match fuel with
  | 0 => None
  | S fuel =>
      let two a b k := match degb m fuel a, degb m fuel b with Some x, Some y => Some (k x y) | _, _ => None end in
      match mget m id with
      | Some (VQuery _) | Some (VFun _) => Some 1
      | Some (VAdd a b) | Some (VSub a b) => two a b Nat.max
      | Some (VMul a b) => two a b Nat.add
      | Some (VAddS a _) | Some (VMulS a _) | Some (VFront a _) | Some (VBack a _) => degb m fuel a
      | None => None
      end
  end.
Lemma degb_le : forall m fuel id d D, degb m fuel id = Some d -> d <= D -> degree_le m id D.
Proof.
  intros m. induction fuel as [|fuel IH]; intros id d D H L; [discriminate H|]. cbn [degb] in H. destruct (mget m id) as [e|] eqn:G; [|discriminate H].
  destruct e as [i|f|a b|a b|a b|a c|a c|a k|a k].
  - injection H as <-. eapply dl_query; [exact G|exact L].
  - injection H as <-. eapply dl_fun; [exact G|exact L].
  - destruct (degb m fuel a) as [x|] eqn:V1; [|discriminate H]. destruct (degb m fuel b) as [y|] eqn:V2; [|discriminate H]. injection H as <-. eapply dl_add; [exact G|eapply IH; [exact V1|lia]|eapply IH; [exact V2|lia]].
  - destruct (degb m fuel a) as [x|] eqn:V1; [|discriminate H]. destruct (degb m fuel b) as [y|] eqn:V2; [|discriminate H]. injection H as <-. eapply dl_sub; [exact G|eapply IH; [exact V1|lia]|eapply IH; [exact V2|lia]].
  - destruct (degb m fuel a) as [x|] eqn:V1; [|discriminate H]. destruct (degb m fuel b) as [y|] eqn:V2; [|discriminate H]. injection H as <-. eapply (dl_mul m id a b x y); [exact G|eapply IH; [exact V1|lia]|eapply IH; [exact V2|lia]|exact L].
  - eapply dl_adds; [exact G|eapply IH; [exact H|exact L]].
  - eapply dl_muls; [exact G|eapply IH; [exact H|exact L]].
  - eapply dl_front; [exact G|eapply IH; [exact H|exact L]].
  - eapply dl_back; [exact G|eapply IH; [exact H|exact L]].
Qed.

(** Every column has one variable; [tab i] is the table under id [i]. *)
Definition rd (tab : nat -> list F) : reading := fun i => (1, fun j => nth j (tab i) F0).
Definition truthful (m : nat) (ids : list nat) (tab : nat -> list F) (ch : list F) : list ((nat * list F) * F) :=
  map (fun i => ((i, skipn m ch), extension (rd tab) i (skipn m ch))) ids.
Lemma truthful_true : forall m ids tab st u ch, queries_true (E:=E) (rd tab) (facing st (truthful m ids tab) u ch).
Proof.
  intros m ids tab st u ch id i x y _ Hq _. apply CheckProofs.qget_in in Hq. apply in_map_iff in Hq. destruct Hq as [i' [Hq _]]. injection Hq as H1 H2 H3. rewrite <- H1, <- H2. symmetry. exact H3.
Qed.
Definition fine (fuel : nat) (tab : nat -> list F) (vm : tmap (vexp p)) (D id : nat) : bool :=
  hasb (rd tab) vm fuel id 1 0 && hasb (rd tab) vm fuel id 1 1 && match degb vm fuel id with Some d => d <=? D | _ => false end.
Definition closure_ok (tab : nat -> list F) (e : nat * vexp p) : Prop :=
  match snd e with VFun f => forall x y, f [x] = Ok y -> y = extension (rd tab) (fst e) [x] | _ => True end.
Lemma mget_in : forall {X} (m : tmap X) i e, mget m i = Some e -> In (i, e) m.
Proof.
  intros X m i e. unfold mget. induction m as [|[k x] m IH]; cbn; [discriminate|]. destruct (Nat.eqb_spec k i) as [->|]; intros H; [injection H as ->; left; reflexivity|right; apply IH; exact H].
Qed.
Lemma fine_checkable : forall fuel tab vm zc sc cp d D m (u : vtrk E), vt_virt u = vm -> vt_zc u = zc -> map fst (vt_sc u) = sc -> vt_proof u = cp -> cp_nv cp = 1 -> cp_deg cp = d ->
  length zc + 1 + length sc + 1 = m -> forallb (fine fuel tab vm D) (zc ++ sc) = true -> Forall (closure_ok tab) vm -> checkable (rd tab) 1 d D m u.
Proof.
  intros fuel tab vm zc sc cp d D m u <- <- <- <- H1 H2 H3 Hf Hc. rewrite forallb_forall in Hf. rewrite map_length in H3.
  assert (Hv : forall id, In id (claimed_ids u) -> exists x y dd, valb (rd tab) (vt_virt u) fuel id 1 0 = Some x /\ valb (rd tab) (vt_virt u) fuel id 1 1 = Some y /\ degb (vt_virt u) fuel id = Some dd /\ dd <= D).
  { intros id Hid. specialize (Hf id Hid). unfold fine in Hf. apply andb_true_iff in Hf. destruct Hf as [Hf H]. apply andb_true_iff in Hf. destruct Hf as [Hf0 Hf1]. destruct (hasb_valb _ _ _ _ _ _ Hf0) as [x Hx]. destruct (hasb_valb _ _ _ _ _ _ Hf1) as [y Hy].
    destruct (degb (vt_virt u) fuel id) as [dd|]; [|discriminate H]. exists x, y, dd. apply Nat.leb_le in H. auto. }
  split; [exact H1|]. split; [exact H2|]. split; [unfold drawn_before; lia|]. split; [|split].
  - exists (fun id j => match valb (rd tab) (vt_virt u) fuel id 1 j with Some x => x | None => F0 end). intros id j Hid Hj. destruct (Hv id Hid) as [x [y [_ [X [Y _]]]]]. apply (valb_means _ _ fuel).
    destruct j as [|[|j]]; [rewrite X; reflexivity|rewrite Y; reflexivity|cbn in Hj; lia].
  - intros id Hid. destruct (Hv id Hid) as [_ [_ [dd [_ [_ [X L]]]]]]. exact (degb_le _ _ _ _ _ X L).
  - intros id f x y G Hy Hx. rewrite Forall_forall in Hc. specialize (Hc _ (mget_in _ _ _ G)). unfold closure_ok in Hc. cbn [fst snd] in Hc. cbn [rd fst] in Hx.
    destruct x as [|x0 [|x1 x]]; cbn [length] in Hx; [lia|apply Hc; exact Hy|lia].
Qed.
Lemma rd_reads : forall tab (v : vtrk E) i, mget (vt_virt v) i = Some (VQuery i) -> length (tab i) = 2 -> reads (rd tab) 1 v i 1 (tab i).
Proof. intros tab v i Hi Hl. split; [constructor|]. split; [exact Hl|]. intros j _. apply (me_query (rd tab) (vt_virt v) i i 1 j Hi). constructor. Qed.
Lemma rd_const : forall tab (v : vtrk E) i x, mget (vt_virt v) i = Some (VQuery i) -> tab i = [x; x] -> reads (rd tab) 1 v i 0 [x].
Proof.
  intros tab v i x Hi Ht. split; [repeat constructor|]. split; [reflexivity|]. intros j Hj. pose proof (me_query (rd tab) (vt_virt v) i i 1 j Hi ltac:(constructor)) as M. cbn [rd fst snd] in M. rewrite Ht in M.
  destruct j as [|[|j]]; [exact M|exact M|cbn in Hj; lia].
Qed.
Lemma closure_one : forall tab i f, (forall x, f x = one_fun x) -> tab i = [F1; F1] -> closure_ok tab (i, VFun f).
Proof.
  intros tab i f Hf H x y Hy. rewrite Hf in Hy. injection Hy as <-. unfold extension, rd. cbn [fst snd firstn]. rewrite H. transitivity (mle_ext 1 (fun _ => F1 (p:=p)) [x]); [symmetry; apply MleLemmas.mle_ext_const; reflexivity|].
  apply CheckProofs.mle_ext_table. intros [|[|k]] Hk; [reflexivity|reflexivity|cbn in Hk; lia].
Qed.
Add Ring FR : (@F_ring p).
Lemma closure_index : forall tab i f, (forall x, f x = ordered_fun x) -> tab i = [F0; F1] -> ofN (2 ^ 0) = F1 (p:=p) -> closure_ok tab (i, VFun f).
Proof.
  intros tab i f Hf H H1 x y Hy. rewrite Hf in Hy. unfold ordered_fun in Hy. cbn [length seq combine fold_left fst snd] in Hy. rewrite H1 in Hy. injection Hy as <-. unfold extension, rd. cbn [fst snd firstn]. rewrite H.
  unfold mle_ext, sumN. change (seq 0 (2 ^ 1)) with [0; 1]. cbn [map Fsum fold_right nth]. unfold eqk, bits. cbn.
  ring.
Qed.

Lemma closure_mle : forall tab i a b f, (forall x, f x = mle_fun (mkMle 1 [a; b]) x) -> tab i = [a; b] -> closure_ok tab (i, VFun f).
Proof.
  intros tab i a b f Hf H x y Hy. rewrite Hf in Hy. unfold mle_fun in Hy. rewrite ark_evaluate_spec in Hy by reflexivity. cbn [bind ounwrap] in Hy. injection Hy as <-. unfold extension, rd. cbn [fst snd firstn]. rewrite H. reflexivity.
Qed.

(** The verifier receives the commitments [0, .., n - 1] and makes the call. *)
Definition session (o : oracle p (gcar (PG1 E))) (vk : vparam E) (cp : cproof E) (n : nat) (call : oracle p (gcar (PG1 E)) -> vtrk E -> res (vtrk E)) : option (vtrk E * vtrk E) :=
  match vrun o true vk cp (repeat VONext n) with Ok (v, _) => match call o v with Ok u => Some (v, u) | _ => None end | _ => None end.
Lemma session_inv : forall o vk cp n call v u gs, session o vk cp n call = Some (v, u) -> SpecIop.drawn (vt_tr v) (vt_tr u) = gs -> after_call call gs v u u.
Proof.
  unfold session. intros o vk cp n call v u gs H G. destruct (vrun o true vk cp (repeat VONext n)) as [[w hs]| |] eqn:R; try discriminate H. destruct (call o w) as [u0| |] eqn:R1; try discriminate H. injection H as <- <-.
  exists o. split; [exact (SessProofs.run_session o _ _ _ _ _ _ R)|]. split; [exact R1|]. split; [exact G|constructor].
Qed.
(** What there is to see of the two trackers of a session. *)
Definition seen (r : vtrk E * vtrk E) := (vt_virt (fst r), vt_virt (snd r), vt_zc (snd r), map fst (vt_sc (snd r)), vt_proof (snd r), SpecIop.drawn (vt_tr (fst r)) (vt_tr (snd r))).
Lemma session_meets : forall fuel tab vm0 vm zc sc cp d D m ids o vk n call gs u r, r = session o vk cp n call -> option_map seen r = Some (vm0, vm, zc, sc, cp, gs) ->
  option_map (fun vu => snd vu) r = Some u -> cp_nv cp = 1 -> cp_deg cp = d -> length zc + 1 + length sc + 1 = m -> forallb (fine fuel tab vm D) (zc ++ sc) = true -> Forall (closure_ok tab) vm ->
  checkable (rd tab) 1 d D m u /\ (forall st ch, queries_true (rd tab) (facing st (truthful m ids tab) u ch)) /\ exists v, after_call call gs v u u /\ vt_virt v = vm0 /\ vt_virt u = vm /\ r = Some (v, u).
Proof.
  intros fuel tab vm0 vm zc sc cp d D m ids o vk n call gs u r Hr Hs Hu H1 H2 H3 Hf Hc. destruct r as [[v u0]|]; [|discriminate Hu]. symmetry in Hr. rename Hr into R. injection Hu as ->. unfold seen in Hs. cbn [option_map fst snd] in Hs.
  injection Hs as S1 S2 S3 S4 S5 S6. split; [exact (fine_checkable fuel tab vm zc sc cp d D m u S2 S3 S4 S5 H1 H2 H3 Hf Hc)|]. split; [intros st ch; apply truthful_true|].
  exists v. split; [exact (session_inv o vk cp n call v u gs R S6)|]. auto.
Qed.
End X.
Notation final r := (option_map (fun vu => snd vu) r).
