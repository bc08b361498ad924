(** What the verifiers' claims force: the basic protocols and the multiset tool. *)
From Coq Require Import String List Arith Lia Bool ZArith Znumtheory.
Import ListNotations.
From Verif Require Import Res ResLemmas Fp FSum SpecMle SpecPoly PolyLemmas SpecTracker SpecIop ModelMle MleLemmas ModelTranscript Pairing ModelKzg ModelBatch
  ModelProver ModelVerifier ModelAdvice ModelIop ProverHist VerifierHist CompileHist IopHist TmapLemmas LogDeriv BagLemmas EqualizeProofs IopWorld IopBasic IopMulti IopVer InterpProofs MleExtra.
Local Open Scope string_scope.
Local Open Scope list_scope.
Local Open Scope nat_scope.

(** Keep the kernel from running the calls when it compares runs. *)
#[local] Opaque track_virtual v_add_scalar.
(** [G] records all calls so far, [H] is the equation of the run still to go. *)
Ltac vjoin G Ig := apply (vgo_trans _ _ _ _ _ G) in Ig; rewrite ?app_nil_r in Ig; cbn [app] in Ig; clear G; rename Ig into G.
Ltac vone G t e :=
  let i := fresh "i" in let u := fresh "u" in let E1 := fresh "Ex" in let Ii := fresh "Ii" in let Inx := fresh "Nx" in let Im := fresh "Im" in let Ig := fresh "Ig" in
  destruct t as [i u] eqn:E1; destruct (go_virtual _ e i u (y_ready _ _ _ G) E1) as [Ii [Inx [Im Ig]]]; clear E1; fwd Ig; vjoin G Ig.
Ltac vvirt G H := lazymatch type of H with
  | (let '(_, _) := ?t in _) = _ => lazymatch type of t with (nat * @vtrk ?q _)%type => lazymatch t with
      | mul_comms ?v ?a ?b => vone G t (@VMul q a b)
      | sub_comms ?v ?a ?b => vone G t (@VSub q a b)
      | add_comms ?v ?a ?b => vone G t (@VAdd q a b)
      | v_mul_scalar ?v ?a ?c => vone G t (VMulS a c)
      | track_virtual_comm ?v ?f => vone G t (VFun f)
      | v_increase_nv_front ?v ?a ?k => vone G t (@VFront q a k)
      | v_increase_nv_back ?v ?a ?k => vone G t (@VBack q a k)
      end end
  end.
Ltac vadds G H := match type of H with context [v_add_scalar ?v ?a ?c] =>
  let i := fresh "i" in let u := fresh "u" in let E1 := fresh "Ex" in let Ii := fresh "Ii" in let Inx := fresh "Nx" in let Im := fresh "Im" in let Ig := fresh "Ig" in
  destruct (v_add_scalar v a c) as [i u] eqn:E1; destruct (go_adds v a c i u (y_ready _ _ _ G) E1) as [Ii [Inx [Im Ig]]]; clear E1; fwd Ig; vjoin G Ig end.
Ltac vtrans G H := match type of H with context [v_transfer ?d ?v] =>
  let i := fresh "i" in let u := fresh "u" in let E1 := fresh "Ex" in let Ii := fresh "Ii" in let Inx := fresh "Nx" in let Im := fresh "Im" in let Ig := fresh "Ig" in
  destruct (v_transfer d v) as [[i u]| |] eqn:E1; cbn [bind] in H; try discriminate H;
  destruct (go_transfer d v i u (y_ready _ _ _ G) E1) as [Ii [Inx [Im Ig]]]; clear E1; fwd Ig; vjoin G Ig end.
Ltac vchal G H g := match type of H with context [vt_challenge ?o ?l ?v] =>
  let u := fresh "u" in let E1 := fresh "Ex" in let Inx := fresh "Nx" in let Ig := fresh "Ig" in
  destruct (vt_challenge o l v) as [[g u]| |] eqn:E1; cbn [bind] in H; try discriminate H;
  destruct (go_chal o l v g u (y_ready _ _ _ G) E1) as [Ig Inx]; clear E1; fwd Ig; vjoin G Ig end.
Ltac vzero G H := match type of H with context [v_add_zerocheck_claim ?v ?a] =>
  let Ig := fresh "Ig" in let Iz := fresh "Iz" in
  pose proof (go_zero v a (y_ready _ _ _ G)) as Ig; fwd Ig; vjoin G Ig;
  assert (Iz : In a (vt_zc (v_add_zerocheck_claim v a))) by (cbn; apply in_or_app; right; left; reflexivity) end.
(** Lift the recorded nodes to the final map. *)
Ltac lift S := repeat match goal with X : mget (vt_virt _) _ = Some _ |- _ => apply S in X end.

Section P.
Context {p : positive} {E : pairing p}.
Add Ring Fq : (@F_ring p).
Notation comm := (gcar (PG1 E)).
Implicit Types (v : vtrk E) (V : tmap (vexp p)) (A : reading (p:=p)).
Variable o : oracle p comm.

Lemma selector_sound : forall v v' sel, vready v -> selector_valid_verify v sel = Ok v' ->
  sound v v' [] (fun A N V => forall f, psem A V N sel f -> forall j, j < 2 ^ N -> (f j * (F1 - f j))%F = F0).
Proof.
  intros v v' sel R H. pose proof (vgo_refl v R) as G. unfold selector_valid_verify in H.
  vvirt G H. vadds G H. vvirt G H. vzero G H. injection H as H. subst v'. split; [exact G|]. intros A N V S C f Hf j Hj. cbn [vt_virt v_add_zerocheck_claim] in S. lift S.
  pose proof (ps_mul _ _ _ _ _ _ _ _ Im1 Hf (ps_adds _ _ _ _ _ _ _ Im0 (ps_muls _ _ _ _ _ _ _ Im Hf))) as Q. pose proof (zclaim _ _ _ _ _ _ C Iz Q j Hj) as Z. cbn in Z. rewrite <- Z. ring.
Qed.

Lemma no_zeros_sound : forall debug v v' b, vready v -> no_zeros_verify debug v b = Ok v' ->
  sound v v' [] (fun A N V => forall f g, psem A V N (bc_poly b) f -> psem A V N (bc_sel b) g -> forall j, j < 2 ^ N -> g j <> F0 -> f j <> F0).
Proof.
  intros debug v v' b R H. pose proof (vgo_refl v R) as G. unfold no_zeros_verify in H.
  vtrans G H. vvirt G H. vvirt G H. vvirt G H. vzero G H. injection H as H. subst v'. split; [exact G|]. intros A N V S C f g Hf Hg j Hj Hs H0. cbn [vt_virt v_add_zerocheck_claim] in S. lift S.
  pose proof (ps_sub _ _ _ _ _ _ _ _ Im2 (ps_mul _ _ _ _ _ _ _ _ Im1 (ps_mul _ _ _ _ _ _ _ _ Im0 Hf Hg) (ps_query _ _ N _ _ Im)) Hg) as Q.
  pose proof (zclaim _ _ _ _ _ _ C Iz Q j Hj) as Z. cbn in Z. apply Hs. rewrite H0 in Z. transitivity (F0 - (F0 * g j * leaf A i j - g j))%F; [ring|]. rewrite Z. ring.
Qed.

(** Three functions on the cube: values, selector, multiplicity. *)
Definition cols3 : Type := ((nat -> F p) * (nat -> F p) * (nat -> F p))%type.
Definition val3 (t : cols3) := fst (fst t).
(** The sum of the scaled inverses over the cube. *)
Definition lsum (N : nat) (g : F p) (t : cols3) : F p :=
  Fsum (map (fun j => (snd (fst t) j * snd t j / (fst (fst t) j - g))%F) (seq 0 (2 ^ N))).
Definition is3 A V N (bm : bagc * nat) (t : cols3) : Prop :=
  psem A V N (bc_poly (fst bm)) (fst (fst t)) /\ psem A V N (bc_sel (fst bm)) (snd (fst t)) /\ psem A V N (snd bm) (snd t).
Definition avoids (N : nat) (g : F p) (t : cols3) : Prop := forall j, j < 2 ^ N -> fst (fst t) j <> g.

Hypothesis Hp : prime (Zpos p).
Lemma vsub_sound : forall debug v v' g b m c, vready v -> multitool_vsubclaim debug v g b m = Ok (c, v') ->
  sound v v' [] (fun A N V => forall t, is3 A V N (b, m) t -> avoids N g t /\ c = lsum N g t).
Proof.
  intros debug v v' g b m c R H. pose proof (vgo_refl v R) as G. unfold multitool_vsubclaim in H.
  vtrans G H. vvirt G H. vvirt G H. vvirt G H. vvirt G H. vvirt G H. vadds G H.
  destruct (get_prover_claimed_sum u5 i1) as [c'| |] eqn:Ec; cbn [bind] in H; try discriminate.
  pose proof (go_sum u5 i1 c' (y_ready _ _ _ G)) as Ig. fwd Ig. vjoin G Ig.
  assert (Is : In (i1, c') (vt_sc (v_add_sumcheck_claim u5 i1 c'))) by (cbn; apply in_or_app; right; left; reflexivity).
  vzero G H. injection H as H H'. subst v' c'. split; [exact G|]. intros A N V S C [[f fs] fm] [Hf [Hs Hm]]. cbn [fst snd] in *. cbn [vt_virt v_add_zerocheck_claim v_add_sumcheck_claim] in S.
  cbn [vt_virt v_add_zerocheck_claim v_add_sumcheck_claim] in *. lift S.
  pose proof (ps_query A _ N _ _ Im) as Qh.
  pose proof (ps_mul _ _ _ _ _ _ _ _ Im1 (ps_mul _ _ _ _ _ _ _ _ Im0 Qh Hm) Hs) as Qa.
  pose proof (ps_adds _ _ _ _ _ _ _ Im5 (ps_sub _ _ _ _ _ _ _ _ Im4 (ps_mul _ _ _ _ _ _ _ _ Im2 Hf Qh) (ps_muls _ _ _ _ _ _ _ Im3 Qh))) as Qz.
  assert (Z : forall j, j < 2 ^ N -> ((f j - g) * leaf A i j)%F = F1).
  { intros j Hj. pose proof (zclaim _ _ _ _ _ _ C Iz Qz j Hj) as Z. cbn in Z. transitivity ((f j * leaf A i j - g * leaf A i j + - F1) + F1)%F; [ring|]. rewrite Z. ring. }
  assert (Y : forall j, j < 2 ^ N -> (f j - g)%F <> F0).
  { intros j Hj H0. pose proof (Z j Hj) as Zj. rewrite H0 in Zj. apply (F1_neq_0 Hp). rewrite <- Zj. ring. }
  split.
  - intros j Hj H0. apply (Y j Hj). cbn [fst snd] in H0. rewrite H0. ring.
  - rewrite (sclaim _ _ _ _ _ _ _ C Is Qa). unfold lsum. cbn [fst snd]. f_equal. apply map_ext_in. intros j Hj. apply in_seq in Hj. unfold Fdiv.
    transitivity (leaf A i j * (fm j * fs j))%F; [ring|]. assert (leaf A i j = Finv (f j - g)) as ->; [|ring].
    transitivity (Finv (f j - g) * (f j - g) * leaf A i j)%F; [rewrite Finv_l by (auto; apply Y; lia); ring|]. transitivity (Finv (f j - g) * ((f j - g) * leaf A i j))%F; [ring|]. rewrite Z by lia. ring.
Qed.

Definition lside (N : nat) (g : F p) (mx : nat) (x : list (bagc * nat)) (ts : list cols3) : F p :=
  Fsum (map (fun xt => (lsum N g (snd xt) / ofN (2 ^ (mx - bc_nv (fst (fst xt)))))%F) (combine x ts)).
Lemma sides_sound : forall debug g mx xs acc v r v', vready v -> foldM (multitool_side debug g mx) (acc, v) xs = Ok (r, v') ->
  sound v v' [] (fun A N V => forall ts, Forall2 (is3 A V N) xs ts -> Forall (avoids N g) ts /\ r = (acc + lside N g mx xs ts)%F).
Proof.
  intros debug g mx xs. induction xs as [|[b m] xs IH]; intros acc v r v' R H.
  - cbn in H. injection H as H H'. subst. split; [apply vgo_refl; exact R|]. intros A N V S C ts HT. inversion HT; subst. split; [constructor|]. unfold lside. cbn. ring.
  - cbn [foldM] in H. unfold multitool_side at 1 in H. cbn [fst snd] in H. destruct (multitool_vsubclaim debug v g b m) as [[c u]| |] eqn:Es; cbn [bind] in H; try discriminate.
    destruct (vsub_sound _ _ _ _ _ _ _ R Es) as [G1 H1]. destruct (IH _ _ _ _ (y_ready _ _ _ G1) H) as [G2 H2]. split; [exact (vgo_trans _ _ _ _ _ G1 G2)|].
    intros A N V S C ts HT. inversion HT as [|a t xs' ts' X1 X2]; subst.
    destruct (H1 A N V (sub_trans _ _ _ (y_sub _ _ _ G2) S) (chold_le _ _ _ _ _ _ G2 C) t X1) as [Y1 Y2]. destruct (H2 A N V S C ts' X2) as [Z1 Z2].
    split; [constructor; assumption|]. rewrite Z2, Y2. unfold lside. cbn [combine map fst snd]. rewrite Fsum_cons. ring.
Qed.

Lemma multitool_sound : forall debug v v' fx gx mf mg, vready v -> multitool_verify o debug v fx gx mf mg = Ok v' ->
  let mx := Nat.max (bagc_max fx) (bagc_max gx) in
  exists g, sound v v' [g] (fun A N V => forall ts us, Forall2 (is3 A V N) (combine fx mf) ts -> Forall2 (is3 A V N) (combine gx mg) us ->
     Forall (avoids N g) (ts ++ us) /\ lside N g mx (combine fx mf) ts = lside N g mx (combine gx mg) us).
Proof.
  intros debug v v' fx gx mf mg R H mx. pose proof (vgo_refl v R) as G. unfold multitool_verify in H. fold mx in H.
  repeat match type of H with (bind (ensure ?b _) _) = _ => destruct b; cbn [ensure bind] in H; try discriminate end.
  vchal G H g. exists g.
  destruct (foldM (multitool_side debug g mx) (F0, u) (combine fx mf)) as [[lhs u1]| |] eqn:E1; cbn [bind] in H; try discriminate.
  destruct (foldM (multitool_side debug g mx) (F0, u1) (combine gx mg)) as [[rhs u2]| |] eqn:E2; cbn [bind] in H; try discriminate.
  destruct (Feqb lhs rhs) eqn:Eq; cbn [ensure bind] in H; try discriminate. injection H as H. subst v'. apply Feqb_eq in Eq.
  destruct (sides_sound _ _ _ _ _ _ _ _ (y_ready _ _ _ G) E1) as [G1 H1]. destruct (sides_sound _ _ _ _ _ _ _ _ (y_ready _ _ _ G1) E2) as [G2 H2].
  split; [pose proof (vgo_trans _ _ _ _ _ G (vgo_trans _ _ _ _ _ G1 G2)) as X; cbn in X; exact X|].
  intros A N V S C ts us HT HU. destruct (H1 A N V (sub_trans _ _ _ (y_sub _ _ _ G2) S) (chold_le _ _ _ _ _ _ G2 C) ts HT) as [Y1 Y2]. destruct (H2 A N V S C us HU) as [Z1 Z2].
  split; [apply Forall_app; split; assumption|]. transitivity (F0 + lside N g mx (combine fx mf) ts)%F; [ring|]. rewrite <- Y2, Eq, Z2. ring.
Qed.

(** *** From functions on the cube to tables *)
Hypothesis H2 : 2 < fsize p.
Definition per (n : nat) (l : list (F p)) (j : nat) : F p := nth (j mod 2 ^ n) l F0.
Definition avgs (N n : nat) (f : nat -> F p) : list (F p) :=
  map (fun r => (Fsum (map (fun t => f (r + t * 2 ^ n)%nat) (seq 0 (2 ^ (N - n)))) / ofN (2 ^ (N - n)))%F) (seq 0 (2 ^ n)).
Lemma avgs_leaf : forall A N i n, avgs N n (leaf A i) = averaged A N i n. Proof. reflexivity. Qed.
Lemma avgs_len : forall N n f, length (avgs N n f) = 2 ^ n. Proof. intros. unfold avgs. rewrite map_length, seq_length. reflexivity. Qed.
Lemma avgs_nth : forall N n f r, r < 2 ^ n -> nth r (avgs N n f) F0 = (Fsum (map (fun t => f (r + t * 2 ^ n)%nat) (seq 0 (2 ^ (N - n)))) / ofN (2 ^ (N - n)))%F.
Proof. intros N n f r H. unfold avgs. apply (nth_map_seq (fun r => (Fsum (map (fun t => f (r + t * 2 ^ n)%nat) (seq 0 (2 ^ (N - n)))) / ofN (2 ^ (N - n)))%F)). exact H. Qed.
Lemma avgs_per : forall N n l, length l = 2 ^ n -> avgs N n (per n l) = l.
Proof.
  intros N n l H. apply nth_ext with (d := F0) (d' := F0); [rewrite avgs_len; auto|]. rewrite avgs_len. intros r Hr. rewrite avgs_nth by exact Hr.
  rewrite (Fsum_map_ext _ (fun _ => nth r l F0)).
  - rewrite Fsum_map_const, seq_length. unfold Fdiv. transitivity (nth r l F0 * (Finv (ofN (2 ^ (N - n))) * ofN (2 ^ (N - n))))%F; [ring|]. rewrite Finv_l; [ring|exact Hp|apply two_pow; assumption].
  - intros t _. unfold per. rewrite Nat.mod_add by (apply Nat.pow_nonzero; lia). rewrite Nat.mod_small by exact Hr. reflexivity.
Qed.
Lemma avgs_one : forall N n, avgs N n (fun _ => F1) = ones (2 ^ n).
Proof.
  intros N n. rewrite <- (avgs_per N n (ones (2 ^ n))) by apply repeat_length. unfold avgs. apply map_ext_in. intros r Hr. apply in_seq in Hr. f_equal. apply Fsum_map_ext. intros t _. unfold per.
  symmetry. apply (nth_repeat_lt _ _ _ _ (Nat.mod_upper_bound _ _ (Nat.pow_nonzero 2 n ltac:(lia)))).
Qed.
Lemma Fsum_grid : forall (f : nat -> F p) m c, Fsum (map f (seq 0 (c * m))) = Fsum (map (fun r => Fsum (map (fun t => f (r + t * m)) (seq 0 c))) (seq 0 m)).
Proof.
  intros f m c. rewrite <- (Fsum_swap (fun t r => f (r + t * m))). induction c as [|c IH].
  - reflexivity.
  - replace (S c * m) with (c * m + m) by lia. rewrite seq_app, map_app, Fsum_app, IH. rewrite seq_S, map_app, Fsum_app. f_equal. cbn [map]. rewrite Fsum_cons, Fsum_nil.
    change (0 + c * m) with (c * m). change (0 + c) with c. rewrite <- (seq_shift_add m (c * m)). rewrite map_map. transitivity (Fsum (map (fun r => f (r + c * m)) (seq 0 m))); [|ring]. apply Fsum_map_ext. intros r _. reflexivity.
Qed.

Lemma per_len : forall n (l : list (F p)) j, length l = 2 ^ n -> j mod 2 ^ n < length l. Proof. intros n l j H. rewrite H. apply Nat.mod_upper_bound. apply Nat.pow_nonzero. lia. Qed.
Lemma logd_wcol_nth : forall g (l sl m : list (F p)), length sl = length l -> length m = length l ->
  logd (wcol l sl m) g = Fsum (map (fun r => (nth r sl F0 * nth r m F0 / (nth r l F0 - g))%F) (seq 0 (length l))).
Proof.
  intros g l. induction l as [|a l IH]; intros [|s sl] [|y m] H1 H3; cbn in H1, H3; try discriminate; [reflexivity|]. rewrite wcol_cons, logd_cons, IH by lia. cbn [length seq map]. rewrite Fsum_cons, <- seq_shift, map_map. reflexivity.
Qed.
Lemma lsum_lists : forall N n g l sl f, n <= N -> length l = 2 ^ n -> length sl = 2 ^ n -> lsum N g (per n l, per n sl, f) = (ofN (2 ^ (N - n)) * logd (wcol l sl (avgs N n f)) g)%F.
Proof.
  intros N n g l sl f Hn Hl Hs. rewrite logd_wcol_nth by (rewrite ?avgs_len; congruence). unfold lsum. cbn [fst snd]. replace (2 ^ N) with (2 ^ (N - n) * 2 ^ n) by (rewrite <- Nat.pow_add_r; f_equal; lia).
  rewrite Fsum_grid, Hl. rewrite <- Fsum_map_mul_l. apply Fsum_map_ext. intros r Hr. apply in_seq in Hr. rewrite avgs_nth by lia.
  transitivity (Fsum (map (fun t => f (r + t * 2 ^ n)%nat * (nth r sl F0 / (nth r l F0 - g)))%F (seq 0 (2 ^ (N - n))))).
  - apply Fsum_map_ext. intros t _. unfold per. rewrite Nat.mod_add by (apply Nat.pow_nonzero; lia). rewrite Nat.mod_small by lia. unfold Fdiv. ring.
  - rewrite Fsum_map_mul_r. unfold Fdiv. transitivity (Fsum (map (fun t => f (r + t * 2 ^ n)%nat) (seq 0 (2 ^ (N - n)))) * (Finv (ofN (2 ^ (N - n))) * ofN (2 ^ (N - n))) * (nth r sl F0 * Finv (nth r l F0 - g)))%F; [rewrite Finv_l; [ring|exact Hp|apply two_pow; assumption]|ring].
Qed.

(** An id known to stand for a table. *)
Definition plist A V N (id n : nat) (l : list (F p)) : Prop := n <= N /\ length l = 2 ^ n /\ psem A V N id (per n l).
Lemma pl_reads : forall A V N v id n l, sub_map (vt_virt v) V -> reads A N v id n l -> plist A V N id n l.
Proof. intros A V N v id n l S R. pose proof (ps_reads _ _ _ _ _ _ _ S R) as Q. destruct R as [R1 [R2 _]]. split; [exact R1|]. split; [exact R2|exact Q]. Qed.
Definition plist_bag A V N (b : bagc) (l sl : list (F p)) : Prop := plist A V N (bc_poly b) (bc_nv b) l /\ plist A V N (bc_sel b) (bc_nv b) sl.
(** A bag with its multiplicities, as tables. *)
Definition isl A V N (bm : bagc * nat) (t : list (F p) * list (F p) * list (F p)) : Prop :=
  plist_bag A V N (fst bm) (fst (fst t)) (snd (fst t)) /\ exists f, psem A V N (snd bm) f /\ snd t = avgs N (bc_nv (fst bm)) f.

Lemma avoids_list : forall N n g l t, n <= N -> length l = 2 ^ n -> fst (fst t) = per n l -> avoids N g t -> ~ In g l.
Proof.
  intros N n g l t Hn Hl Ht Ha Hg. apply (In_nth _ _ F0) in Hg. destruct Hg as [k [Hk Hg]]. apply (Ha k); [rewrite Hl in Hk; pose proof (Nat.pow_le_mono_r 2 n N ltac:(lia) Hn); lia|].
  rewrite Ht. unfold per. rewrite Nat.mod_small by lia. exact Hg.
Qed.
Lemma isl_is3 : forall A V N xs ts, Forall2 (isl A V N) xs ts -> exists us, Forall2 (is3 A V N) xs us /\
  (forall g, Forall (avoids N g) us -> Forall (fun t => ~ In g (fst (fst t))) ts) /\
  forall g mx, (forall x, In x xs -> bc_nv (fst x) <= mx) -> mx <= N -> lside N g mx xs us = (ofN (2 ^ (N - mx)) * logd (wcols ts) g)%F.
Proof.
  intros A V N xs ts H. induction H as [|x t xs ts [[[X1 [X2 X3]] [_ [Y2 Y3]]] [f [Z1 Z2]]] HT [us [I1 [I2 I3]]]].
  - exists []. split; [constructor|]. split; [intros; constructor|]. intros g mx _ _. unfold lside, wcols, logd. cbn. ring.
  - destruct t as [[l sl] m]. cbn [fst snd] in *. exists ((per (bc_nv (fst x)) l, per (bc_nv (fst x)) sl, f) :: us). split; [constructor; [split; [exact X3|split; [exact Y3|exact Z1]]|exact I1]|]. split.
    + intros g HF. inversion HF; subst. constructor; [|apply I2; assumption]. cbn [fst snd]. eapply avoids_list; [exact X1|exact X2| |eassumption]. reflexivity.
    + intros g mx Hm HN. specialize (I3 g mx (fun x Hx => Hm x (or_intror Hx)) HN). unfold lside in *. cbn [combine map fst snd]. rewrite Fsum_cons, I3. rewrite lsum_lists by assumption.
      rewrite two_scale; [|exact Hp|exact H2|apply Hm; left; reflexivity|exact HN]. unfold wcols. cbn [flat_map fst snd]. rewrite logd_app, <- Z2. ring.
Qed.
Lemma in_combine_fst : forall (X Y : Type) (a : list X) (b : list Y) x, In x (combine a b) -> In (fst x) a.
Proof. intros X Y a b [x y] H. apply in_combine_l in H. exact H. Qed.
Lemma multitool_lists : forall debug v v' fx gx mf mg, vready v -> multitool_verify o debug v fx gx mf mg = Ok v' ->
  exists g, sound v v' [g] (fun A N V => (forall b, In b (fx ++ gx) -> bc_nv b <= N) -> forall ts us, Forall2 (isl A V N) (combine fx mf) ts -> Forall2 (isl A V N) (combine gx mg) us ->
     Forall (fun t => ~ In g (fst (fst t))) (ts ++ us) /\ logd (wcols ts) g = logd (wcols us) g).
Proof.
  intros debug v v' fx gx mf mg R H. destruct (multitool_sound debug v v' fx gx mf mg R H) as [g [G HQ]]. exists g. split; [exact G|]. intros A N V S C HN ts us HT HU.
  destruct (isl_is3 _ _ _ _ _ HT) as [ts' [T1 [T2 T3]]]. destruct (isl_is3 _ _ _ _ _ HU) as [us' [U1 [U2 U3]]]. destruct (HQ A N V S C ts' us' T1 U1) as [Q1 Q2]. apply Forall_app in Q1. destruct Q1 as [Q1 Q1'].
  split; [apply Forall_app; split; [apply T2|apply U2]; assumption|]. set (mx := Nat.max (bagc_max fx) (bagc_max gx)) in *.
  assert (Hmx : mx <= N) by (unfold mx; apply Nat.max_lub; apply (bagc_max_le H2); intros b Hb; apply HN; apply in_or_app; auto).
  rewrite (T3 g mx), (U3 g mx) in Q2; try exact Hmx.
  - transitivity (Finv (ofN (2 ^ (N - mx))) * ofN (2 ^ (N - mx)) * logd (wcols ts) g)%F; [rewrite Finv_l; [ring|exact Hp|apply two_pow; assumption]|].
    transitivity (Finv (ofN (2 ^ (N - mx))) * ofN (2 ^ (N - mx)) * logd (wcols us) g)%F; [|rewrite Finv_l; [ring|exact Hp|apply two_pow; assumption]].
    transitivity (Finv (ofN (2 ^ (N - mx))) * (ofN (2 ^ (N - mx)) * logd (wcols ts) g))%F; [ring|]. rewrite Q2. ring.
  - intros x Hx. apply in_combine_fst in Hx. pose proof (bagc_max_ge H2 _ _ Hx). unfold mx. lia.
  - intros x Hx. apply in_combine_fst in Hx. pose proof (bagc_max_ge H2 _ _ Hx). unfold mx. lia.
Qed.
End P.
