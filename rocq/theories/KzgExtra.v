(** The KZG properties in the form used by Props_Kzg.v. *)
From Coq Require Import List Arith Lia Bool ZArith Znumtheory.
Import ListNotations.
From Verif Require Import Res ResLemmas Fp FSum SpecMle SpecPoly SpecKzg SpecSumcheck ModelMle MleLemmas MleProofs PolyLemmas
  SumcheckVerify Pairing ModelKzg KzgHist KzgProofs.
Local Open Scope nat_scope.

(** Schwartz-Zippel for functions of bounded degree in each variable. *)
Section SZ.
Context {p : positive}.
Hypothesis Hp : prime (Zpos p).

Lemma degree_zero_count : forall n d (f : list (F p) -> F p), ind_degree n d f ->
  (exists x, length x = n /\ f x <> F0) ->
  count (fun x => Feqb (f x) F0) (allV p n) <= n * d * fsize p ^ (n - 1).
Proof.
  induction n as [|n IH]; intros d f Hd [x [Hx Hf]].
  - destruct x; [|discriminate]. rewrite count_false; [lia|]. intros r Hr. simpl in Hr. destruct Hr as [<-|[]].
    apply Feqb_neq. exact Hf.
  - destruct x as [|a0 x]; [discriminate|]. injection Hx as Hx. replace (S n - 1) with n by lia.
    eapply Nat.le_trans; [|apply (@bound_step p n d)].
    apply (count_step n d _ (fun a => Feqb (f (a :: x)) F0)).
    + apply (polyfun_zero_count Hp d (fun a => f (a :: x))).
      * apply (Hd [] x). simpl. lia.
      * exists a0. exact Hf.
    + intros a Ha. apply Feqb_neq in Ha. apply (IH d (fun y => f (a :: y))).
      * intros pre post Hl. apply (Hd (a :: pre) post). simpl. lia.
      * exists x. split; [exact Hx|exact Ha].
Qed.
End SZ.

Section S.
Context {p : positive}.
Add Ring Fr : (@F_ring p).

Lemma lincomb_value : forall a b (f g : mle p) x, wf_mle f -> wf_mle g -> nv f = nv g ->
  value (lincomb a b f g) x = (a * value f x + b * value g x)%F.
Proof.
  intros a b f g x Hf Hg Hn. unfold value, lincomb. cbn [nv evs]. rewrite <- Hn.
  rewrite <- !mle_ext_scale, <- mle_ext_add. apply mle_ext_ext. intros k Hk. unfold tab.
  unfold wf_mle in *. rewrite <- Hn in Hg.
  set (h := fun xy : F p * F p => (a * fst xy + b * snd xy)%F).
  rewrite (nth_indep _ F0 (h (F0, F0))) by (rewrite map_length, combine_length, Hf, Hg, Nat.min_id; exact Hk).
  rewrite map_nth, combine_nth by (rewrite Hf, Hg; reflexivity). reflexivity.
Qed.
Lemma lincomb_wf : forall a b (f g : mle p), wf_mle f -> wf_mle g -> nv f = nv g -> wf_mle (lincomb a b f g).
Proof.
  intros a b f g Hf Hg Hn. unfold wf_mle, lincomb in *. cbn [nv evs]. rewrite map_length, combine_length, Hf, Hg, <- Hn.
  apply Nat.min_id.
Qed.

Lemma trapdoor_length : forall (rnd : nat -> F p) n, length (trapdoor rnd n) = n.
Proof. intros. unfold trapdoor. rewrite map_length, seq_length. reflexivity. Qed.

Context {E : pairing p} (HE : pairing_laws E).
Implicit Types (g : gcar (PG1 E)) (h : gcar (PG2 E)) (rnd : nat -> F p) (f : mle p).

Lemma kzg_trim_srs : forall g h rnd N n, 1 <= N -> n <= N -> exists s ck vk,
  gen_srs E g h rnd N = Ok s /\ kzg_trim s None (Some n) = Ok (ck, vk) /\
  ck = srs_pp (srs_of g h (suffix n (trapdoor rnd N))) /\ vk = vk_of g h (suffix n (trapdoor rnd N)).
Proof.
  intros g h rnd N n HN Hn. eexists. eexists. eexists. split; [apply (gen_srs_ok HE); exact HN|].
  split; [|split; reflexivity]. unfold kzg_trim. cbn [rassert bind].
  rewrite srs_trim_ok by (rewrite trapdoor_length; exact Hn). unfold suffix. reflexivity.
Qed.

Lemma suffix_suffix : forall {A} (l : list A) a b, a <= b -> b <= length l -> suffix a (suffix b l) = suffix a l.
Proof.
  intros A l a b H1 H2. unfold suffix. rewrite skipn_length, skipn_skipn_. f_equal. lia.
Qed.
Lemma suffix_length : forall {A} (l : list A) n, n <= length l -> length (suffix n l) = n.
Proof. intros A l n H. unfold suffix. rewrite skipn_length. lia. Qed.

Lemma kzg_complete : forall g h rnd N n f x, 1 <= N -> n <= N -> wf_mle f -> nv f <= n -> length x = nv f ->
  exists s ck vk c pf, gen_srs E g h rnd N = Ok s /\ kzg_trim s None (Some n) = Ok (ck, vk) /\
    kzg_commit ck f = Ok c /\ kzg_open ck f x = Ok (pf, value f x) /\ kzg_verify vk c x (value f x) pf = Ok true.
Proof.
  intros g h rnd N n f x HN Hn Hw Hf Hx.
  destruct (kzg_trim_srs g h rnd N n HN Hn) as [s [ck [vk [H1 [H2 [-> ->]]]]]].
  set (t := suffix n (trapdoor rnd N)) in *.
  assert (Ht : length t = n) by (unfold t; rewrite suffix_length; [reflexivity|rewrite trapdoor_length; exact Hn]).
  eexists. eexists. eexists. eexists. eexists. split; [exact H1|]. split; [exact H2|].
  split; [apply (commit_ok HE); [exact Hw|rewrite Ht; exact Hf]|].
  split; [apply (open_ok HE); [exact Hw|rewrite Ht; exact Hf|exact Hx]|].
  rewrite (verify_honest HE) by (try exact Hw; try exact Hx; rewrite Ht; exact Hf). f_equal.
  unfold value. set (v := mle_ext _ _ _). replace (v - v)%F with (@F0 p) by ring.
  rewrite (g_mul_0 (pl_T _ HE)). apply (g_eqb_refl (pl_T _ HE)).
Qed.

Lemma kzg_errors : forall (ck : pparam E) (vk : vparam E) f x c v pf,
  (pp_nv ck < nv f -> kzg_commit ck f = Err PCSInvalidParameters /\ kzg_open ck f x = Err PCSInvalidParameters) /\
  (length x <> nv f -> kzg_open ck f x = Err PCSInvalidParameters) /\
  (vk_nv vk < length x -> kzg_verify vk c x v pf = Err PCSInvalidParameters).
Proof.
  intros ck vk f x c v pf. split; [|split]; intros H.
  - apply Nat.ltb_lt in H. unfold kzg_commit, kzg_open. rewrite H. split; reflexivity.
  - unfold kzg_open. destruct (pp_nv ck <? nv f); [reflexivity|].
    destruct (Nat.eqb_spec (nv f) (length x)) as [e|_]; [symmetry in e; contradiction|]. reflexivity.
  - apply Nat.ltb_lt in H. unfold kzg_verify. rewrite H. reflexivity.
Qed.

Lemma kzg_commit_value : forall g h rnd N n s ck vk f, gen_srs E g h rnd N = Ok s -> kzg_trim s None (Some n) = Ok (ck, vk) ->
  wf_mle f -> nv f <= n -> kzg_commit ck f = Ok (gmul (value f (suffix (nv f) (trapdoor rnd N))) g).
Proof.
  intros g h rnd N n s ck vk f H1 H2 Hw Hn.
  destruct (Nat.eq_dec N 0) as [->|HN]; [rewrite gen_srs_zero in H1; discriminate|].
  destruct (Nat.le_gt_cases n N) as [HnN|HnN].
  - destruct (kzg_trim_srs g h rnd N n) as [s' [ck' [vk' [H1' [H2' [Ec Ev]]]]]]; [lia|exact HnN|].
    rewrite H1 in H1'. injection H1' as <-. rewrite H2 in H2'. injection H2' as <- <-. rewrite Ec.
    set (t := trapdoor rnd N) in *. assert (Ht : length t = N) by apply trapdoor_length.
    assert (Hs : length (suffix n t) = n) by (apply suffix_length; lia).
    rewrite (commit_ok HE) by (try exact Hw; rewrite Hs; exact Hn). fold (suffix (nv f) (suffix n t)).
    rewrite suffix_suffix by lia. reflexivity.
  - rewrite (gen_srs_ok HE) in H1 by lia. injection H1 as <-. unfold kzg_trim in H2. cbn [rassert bind] in H2.
    rewrite srs_trim_err in H2; [discriminate|]. cbn [srs_of srs_pp pp_nv]. rewrite trapdoor_length. exact HnN.
Qed.

Lemma kzg_homomorphic : forall g h rnd N n s ck vk (f1 f2 : mle p) a b c1 c2,
  gen_srs E g h rnd N = Ok s -> kzg_trim s None (Some n) = Ok (ck, vk) ->
  wf_mle f1 -> wf_mle f2 -> nv f1 = nv f2 -> kzg_commit ck f1 = Ok c1 -> kzg_commit ck f2 = Ok c2 ->
  kzg_commit ck (lincomb a b f1 f2) = Ok (gadd (gmul a c1) (gmul b c2)).
Proof.
  intros g h rnd N n s ck vk f1 f2 a b c1 c2 H1 H2 W1 W2 Hn E1 E2.
  assert (Hb : nv f1 <= n).
  { destruct (Nat.le_gt_cases (nv f1) n) as [L|L]; [exact L|]. exfalso.
    assert (Ek : pp_nv ck = n).
    { unfold kzg_trim, srs_trim in H2. cbn [rassert bind] in H2. destruct (_ <? n); [discriminate|].
      destruct (slice_from _ _); try discriminate. cbn [bind] in H2. destruct (slice_from _ _); try discriminate.
      cbn [bind] in H2. injection H2 as <- _. reflexivity. }
    unfold kzg_commit in E1. rewrite Ek in E1. apply Nat.ltb_lt in L. rewrite L in E1. discriminate. }
  rewrite (kzg_commit_value _ _ _ _ _ _ _ _ _ H1 H2 W1) in E1 by exact Hb. injection E1 as <-.
  rewrite (kzg_commit_value _ _ _ _ _ _ _ _ _ H1 H2 W2) in E2 by lia. injection E2 as <-.
  rewrite (kzg_commit_value _ _ _ _ _ _ _ _ _ H1 H2) by (try (apply lincomb_wf; assumption); exact Hb). f_equal.
  cbn [lincomb nv]. rewrite lincomb_value by assumption. rewrite <- Hn.
  rewrite (gl_add_l _ (pl_1 _ HE)), !(gl_mul _ (pl_1 _ HE)). reflexivity.
Qed.

Lemma kzg_value_unique : prime (Zpos p) -> forall (vk : vparam E) c x v v' pf, vk_g vk <> gzero -> vk_h vk <> gzero ->
  kzg_verify vk c x v pf = Ok true -> kzg_verify vk c x v' pf = Ok true -> v = v'.
Proof.
  intros Hp vk c x v v' pf Hg Hh H1 H2. unfold kzg_verify in *. destruct (vk_nv vk <? length x); [discriminate|].
  destruct (mapM _ _) as [hv| |]; try discriminate. cbn [bind] in *. injection H1 as H1. injection H2 as H2.
  apply (gl_eqb _ (pl_T _ HE)) in H1, H2. rewrite (multi_pairing_app HE) in H1, H2. rewrite <- H2 in H1.
  apply (g_cancel (pl_T _ HE)) in H1. unfold multi_pairing in H1. cbn [map fold_right fst snd] in H1.
  rewrite !(g_zero_r (pl_T _ HE)) in H1.
  assert (Hz : pair E (gmul (v - v')%F (vk_g vk)) (vk_h vk) = gzero).
  { unfold gsub in H1. rewrite !(pl_add_l _ HE) in H1.
    rewrite (gl_comm _ (pl_T _ HE)), (gl_comm _ (pl_T _ HE) (pair E (gmul v' (vk_g vk)) (vk_h vk))) in H1.
    apply (g_cancel (pl_T _ HE)) in H1. rewrite <- (g_sub_mul (pl_1 _ HE)). unfold gsub.
    rewrite (pl_add_l _ HE), H1, <- (pl_add_l _ HE), (gl_opp _ (pl_1 _ HE)).
    rewrite <- (g_mul_0 (pl_1 _ HE) (vk_g vk)), (pl_mul_l _ HE), (g_mul_0 (pl_T _ HE)). reflexivity. }
  apply (pl_nondeg _ HE) in Hz. destruct Hz as [Hz|Hz]; [|contradiction].
  apply (g_mul_cancel (pl_1 _ HE) Hp) in Hz. destruct Hz as [Hz|Hz]; [|contradiction].
  apply sub_eq_0. exact Hz.
Qed.

Lemma kzg_wrong_value : prime (Zpos p) -> forall g h rnd N n s ck vk f x c pf w v, g <> gzero -> h <> gzero ->
  gen_srs E g h rnd N = Ok s -> kzg_trim s None (Some n) = Ok (ck, vk) -> wf_mle f -> nv f <= n ->
  kzg_commit ck f = Ok c -> kzg_open ck f x = Ok (pf, w) -> v <> value f x -> kzg_verify vk c x v pf = Ok false.
Proof.
  intros Hp g h rnd N n s ck vk f x c pf w v Hg Hh H1 H2 Hw Hn E1 E2 Hv.
  destruct (Nat.eq_dec N 0) as [->|HN]; [rewrite gen_srs_zero in H1; discriminate|].
  destruct (Nat.le_gt_cases n N) as [HnN|HnN].
  - assert (Hx : length x = nv f).
    { destruct (Nat.eq_dec (length x) (nv f)) as [e|e]; [exact e|].
      destruct (kzg_errors ck vk f x c v pf) as [_ [He _]]. rewrite (He e) in E2. discriminate. }
    destruct (kzg_complete g h rnd N n f x) as [s' [ck' [vk' [c' [pf' [F1' [F2' [F3' [F4' F5']]]]]]]]]; try assumption; [lia|].
    rewrite H1 in F1'. injection F1' as <-. rewrite H2 in F2'. injection F2' as <- <-.
    rewrite E1 in F3'. injection F3' as <-. rewrite E2 in F4'. injection F4' as -> _. rename pf' into pf.
    assert (Ek : vk_g vk = g /\ vk_h vk = h).
    { destruct (kzg_trim_srs g h rnd N n) as [s' [ck' [vk' [G1 [G2 [_ Ev]]]]]]; [lia|exact HnN|].
      rewrite H1 in G1. injection G1 as <-. rewrite H2 in G2. injection G2 as _ <-. rewrite Ev. split; reflexivity. }
    destruct Ek as [Eg Eh].
    destruct (kzg_verify vk c x v pf) as [[|]| |] eqn:Ev; [|reflexivity| |].
    + exfalso. apply Hv. apply (kzg_value_unique Hp vk c x v _ pf); [rewrite Eg; exact Hg|rewrite Eh; exact Hh|exact Ev|exact F5'].
    + exfalso. unfold kzg_verify in *. destruct (vk_nv vk <? length x); [discriminate|]. destruct (mapM _ _); discriminate.
    + exfalso. unfold kzg_verify in *. destruct (vk_nv vk <? length x); [discriminate|]. destruct (mapM _ _); discriminate.
  - rewrite (gen_srs_ok HE) in H1 by lia. injection H1 as <-. unfold kzg_trim in H2. cbn [rassert bind] in H2.
    rewrite srs_trim_err in H2; [discriminate|]. cbn [srs_of srs_pp pp_nv]. rewrite trapdoor_length. exact HnN.
Qed.

(** ** Counting trapdoors *)

Lemma trapdoor_tape : forall t : list (F p), trapdoor (tape t) (length t) = t.
Proof. intros t. unfold trapdoor, tape. apply map_nth_seq. Qed.

Lemma suffix_full : forall {A} (l : list A) n, n = length l -> suffix n l = l.
Proof. intros A l n ->. unfold suffix. rewrite Nat.sub_diag. apply skipn_O. Qed.

Lemma kzg_collision_count : prime (Zpos p) -> forall g h n f1 f2, g <> gzero -> 1 <= n -> wf_mle f1 -> wf_mle f2 ->
  nv f1 = n -> nv f2 = n -> evs f1 <> evs f2 ->
  count (commits_equal g h n f1 f2) (allV p n) <= n * fsize p ^ (n - 1).
Proof.
  intros Hp g h n f1 f2 Hg Hn W1 W2 N1 N2 Hne.
  assert (Hd : exists k, k < 2 ^ n /\ (tab (evs f1) k - tab (evs f2) k)%F <> F0).
  { unfold wf_mle in *. rewrite N1 in W1. rewrite N2 in W2.
    destruct (find (fun k => negb (Feqb (tab (evs f1) k) (tab (evs f2) k))) (seq 0 (2 ^ n))) as [k|] eqn:Ef.
    - apply find_some in Ef. destruct Ef as [Hk He]. apply in_seq in Hk. apply negb_true_iff, Feqb_neq in He.
      exists k. split; [lia|]. intros Hz. apply He. apply sub_eq_0. exact Hz.
    - exfalso. apply Hne. apply (list_eq_nth F0); [congruence|]. intros i Hi. rewrite W1 in Hi.
      pose proof (find_none _ _ Ef i) as Hi'. cbv beta in Hi'.
      assert (Hin : In i (seq 0 (2 ^ n))) by (apply in_seq; lia). specialize (Hi' Hin).
      apply negb_false_iff, Feqb_eq in Hi'. exact Hi'. }
  eapply Nat.le_trans; [|apply (mle_zero_count Hp n (fun k => (tab (evs f1) k - tab (evs f2) k)%F) Hd)].
  apply count_le. intros t Ht. apply allV_in_length in Ht. unfold commits_equal.
  destruct (kzg_trim_srs g h (tape t) n n) as [s [ck [vk [H1 [H2 [Ec _]]]]]]; [exact Hn|lia|].
  rewrite H1, H2. rewrite !(kzg_commit_value _ _ _ _ _ _ _ _ _ H1 H2) by (try assumption; lia).
  intros Heq. apply (gl_eqb _ (pl_1 _ HE)) in Heq. apply Feqb_eq. rewrite mle_ext_sub.
  rewrite N1, N2 in Heq. rewrite <- Ht in Heq. rewrite trapdoor_tape, suffix_full in Heq by reflexivity.
  assert (Hz : gmul (value f1 t - value f2 t)%F g = gzero).
  { rewrite <- (g_sub_mul (pl_1 _ HE)), Heq. apply (gl_opp _ (pl_1 _ HE)). }
  apply (g_mul_cancel (pl_1 _ HE) Hp) in Hz. destruct Hz as [Hz|Hz]; [|contradiction].
  unfold value in Hz. rewrite N1, N2 in Hz. exact Hz.
Qed.

Lemma nth_coord : forall (pre post : list (F p)) a i, nth i (pre ++ a :: post) F0 =
  if i =? length pre then a else nth i (pre ++ F0 :: post) F0.
Proof.
  intros pre post a i. destruct (Nat.eqb_spec i (length pre)) as [->|Hne].
  - rewrite app_nth2 by lia. rewrite Nat.sub_diag. reflexivity.
  - destruct (Nat.lt_ge_cases i (length pre)) as [H|H].
    + rewrite !app_nth1 by lia. reflexivity.
    + rewrite !app_nth2 by lia. destruct (i - length pre) as [|j] eqn:Ej; [lia|]. reflexivity.
Qed.

Lemma coord_degree : forall n i pre post, length pre + 1 + length post = n -> polyfun (p:=p) 1 (fun x => nth i (pre ++ x :: post) F0).
Proof.
  intros n i pre post _. apply (polyfun_ext 1 (fun a => if (i =? length pre)%nat then a else nth i (pre ++ F0 :: post) F0)%F).
  - intros a. rewrite (nth_coord pre post a i). reflexivity.
  - destruct (i =? length pre); [apply polyfun_id; lia|apply polyfun_const].
Qed.

Lemma combine_diffs_sum : forall (qs ts xs : list (F p)),
  Fsum (map (fun qd => (fst qd * snd qd)%F) (combine qs (diffs ts xs))) =
  Fsum (map (fun i => (nth i qs F0 * (nth i ts F0 - nth i xs F0))%F) (seq 0 (Nat.min (length qs) (Nat.min (length ts) (length xs))))).
Proof.
  induction qs as [|q qs IH]; intros ts xs; [reflexivity|].
  destruct ts as [|t ts]; [reflexivity|]. destruct xs as [|x xs]; [reflexivity|].
  unfold diffs. cbn [combine map length Nat.min seq]. fold (diffs ts xs). rewrite !Fsum_cons. cbn [fst snd nth]. f_equal.
  rewrite IH. rewrite <- seq_shift, map_map. reflexivity.
Qed.

Lemma kzg_algebraic_count : prime (Zpos p) -> forall g h n d f x v qs, g <> gzero -> h <> gzero -> 1 <= n -> wf_mle f -> nv f = n ->
  length x = n -> v <> value f x -> algebraic n d qs ->
  count (algebraic_accepts g h n f x v qs) (allV p n) <= n * (d + 1) * fsize p ^ (n - 1).
Proof.
  intros Hp g h n d f x v qs Hg Hh Hn Hw Hnv Hx Hv Hq.
  set (D := fun t : list (F p) => (Fsum (map (fun i => (nth i qs (fun _ => F0) t * (nth i t F0 - nth i x F0))%F)
    (seq 0 (Nat.min (length qs) n))) + (v - mle_ext n (tab (evs f)) t))%F).
  eapply Nat.le_trans; [|apply (degree_zero_count Hp n (d + 1) D)].
  - apply count_le. intros t Ht. apply allV_in_length in Ht. unfold algebraic_accepts.
    destruct (kzg_trim_srs g h (tape t) n n) as [s [ck [vk [H1 [H2 [Ec Ev]]]]]]; [exact Hn|lia|].
    rewrite H1, H2. rewrite (kzg_commit_value _ _ _ _ _ _ _ _ _ H1 H2) by (try assumption; lia).
    assert (Et : suffix n (trapdoor (tape t) n) = t) by (rewrite <- Ht, trapdoor_tape; apply suffix_full; reflexivity).
    rewrite Hnv. rewrite Et in *. rewrite Ev.
    rewrite <- (map_map (fun q : list (F p) -> F p => q t) (fun y => gmul y g)). rewrite (verify_exps HE) by lia.
    fold (suffix (length x) t). rewrite suffix_full by congruence.
    intros Heq. apply (gl_eqb _ (pl_T _ HE)) in Heq. apply (g_mul_cancel (pl_T _ HE) Hp) in Heq.
    destruct Heq as [Hz|Hz].
    + apply Feqb_eq. unfold D. etransitivity; [|exact Hz]. unfold value. rewrite Hnv. f_equal.
      rewrite combine_diffs_sum, map_length, Ht, Hx, Nat.min_id. apply Fsum_map_ext. intros i Hi. apply in_seq in Hi.
      f_equal. symmetry. apply (map_nth (fun q : list (F p) -> F p => q t) qs (fun _ => F0) i).
    + apply (pl_nondeg _ HE) in Hz. destruct Hz; contradiction.
  - intros pre post Hl. unfold D. apply polyfun_add.
    + apply (polyfun_Fsum (d + 1) (fun i a => (nth i qs (fun _ => F0) (pre ++ a :: post) * (nth i (pre ++ a :: post) F0 - nth i x F0))%F)).
      intros i Hi. apply in_seq in Hi. apply polyfun_mul.
      * apply (Hq (nth i qs (fun _ => F0))); [apply nth_In; lia|exact Hl].
      * apply (polyfun_ext 1 (fun a => (if (i =? length pre)%nat then a else nth i (pre ++ F0 :: post) F0) - nth i x F0)%F);
          [intros a; rewrite (nth_coord pre post a i); reflexivity|].
        apply polyfun_sub; [|apply polyfun_const]. destruct (i =? length pre); [apply polyfun_id; lia|apply polyfun_const].
    + apply polyfun_sub; [apply polyfun_const|]. apply (polyfun_mono 1); [lia|].
      destruct (mle_coord Hp n (tab (evs f)) pre post Hl) as [a [b Hab]].
      apply (polyfun_ext 1 (fun x => a + x * b)%F); [intros y; symmetry; apply Hab|]. apply polyfun_linear.
  - exists x. split; [exact Hx|]. unfold D. rewrite Fsum_map_0.
    + intros Hz. apply Hv. unfold value. rewrite Hnv. apply sub_eq_0. rewrite <- Hz. ring.
    + intros i _. ring.
Qed.

(** ** Trimming *)
Lemma kzg_trim_same : forall g h rnd N n, 1 <= n -> n <= N -> exists s s' ck vk,
  gen_srs E g h rnd N = Ok s /\ gen_srs E g h (fun i => rnd (N - n + i)) n = Ok s' /\
  kzg_trim s None (Some n) = Ok (ck, vk) /\ kzg_trim s' None (Some n) = Ok (ck, vk).
Proof.
  intros g h rnd N n H1 H2.
  destruct (kzg_trim_srs g h rnd N n) as [s [ck [vk [A1 [A2 [A3 A4]]]]]]; [lia|exact H2|].
  destruct (kzg_trim_srs g h (fun i => rnd (N - n + i)) n n) as [s' [ck' [vk' [B1 [B2 [B3 B4]]]]]]; [exact H1|lia|].
  exists s, s', ck, vk. split; [exact A1|]. split; [exact B1|]. split; [exact A2|]. rewrite B2, A3, A4, B3, B4.
  assert (Es : suffix n (trapdoor (fun i => rnd (N - n + i)) n) = suffix n (trapdoor rnd N)).
  { rewrite suffix_full by (rewrite trapdoor_length; reflexivity). unfold suffix. rewrite trapdoor_length. unfold trapdoor.
    rewrite skipn_map_, skipn_seq_. cbn [Nat.add]. replace (N - (N - n)) with n by lia.
    rewrite <- (map_map (fun i => N - n + i) rnd). f_equal.
    assert (Hs : forall k m s0, seq (k + s0) m = map (fun j => k + j) (seq s0 m)).
    { intros k. induction m as [|m IHm]; intros s0; [reflexivity|]. cbn [seq map]. rewrite <- (IHm (S s0)). f_equal. f_equal. lia. }
    pose proof (Hs (N - n) n 0) as Hs0. rewrite Nat.add_0_r in Hs0. symmetry. exact Hs0. }
  rewrite Es. reflexivity.
Qed.

Lemma kzg_trim_cases : forall g h rnd N s n, gen_srs E g h rnd N = Ok s ->
  (n <= N -> exists ck vk, kzg_trim s None (Some n) = Ok (ck, vk) /\
     extract_prover_param s n = Ok ck /\ extract_verifier_param s n = Ok vk /\ pp_nv ck = n /\ vk_nv vk = n) /\
  (N < n -> kzg_trim s None (Some n) = Err PCSInvalidParameters /\ extract_prover_param s n = Panic /\ extract_verifier_param s n = Panic) /\
  kzg_trim s None None = Err PCSInvalidParameters /\ (forall d o, kzg_trim s (Some d) o = Panic).
Proof.
  intros g h rnd N s n H.
  destruct (Nat.eq_dec N 0) as [->|HN]; [rewrite gen_srs_zero in H; discriminate|].
  rewrite (gen_srs_ok HE) in H by lia. injection H as <-.
  split; [|split; [|split; [reflexivity|reflexivity]]].
  - intros Hn. unfold kzg_trim. cbn [rassert bind]. rewrite srs_trim_ok by (rewrite trapdoor_length; exact Hn).
    rewrite trapdoor_length. eexists. eexists. split; [reflexivity|].
    unfold extract_prover_param, extract_verifier_param, vk_of.
    cbn [srs_of srs_pp pp_nv pp_powers pp_g pp_h srs_mask vk_nv].
    rewrite trapdoor_length, skipn_length, trapdoor_length. apply Nat.leb_le in Hn. rewrite Hn. apply Nat.leb_le in Hn. cbn [rassert bind].
    rewrite slice_from_ok by (rewrite map_length, seq_length; lia). rewrite slice_from_ok by (rewrite map_length, trapdoor_length; lia).
    cbn [bind]. replace (N - (N - n)) with n by lia.
    split; [|split; [rewrite skipn_map_; reflexivity|split; reflexivity]].
    f_equal. f_equal. pose proof (srs_of_trim_powers g (trapdoor rnd N) (N - n)) as Et. rewrite trapdoor_length in Et.
    replace (N - (N - n)) with n in Et by lia. apply Et. lia.
  - intros Hn. split; [|split].
    + unfold kzg_trim. cbn [rassert bind]. apply srs_trim_err. cbn [srs_of srs_pp pp_nv]. rewrite trapdoor_length. exact Hn.
    + unfold extract_prover_param. cbn [srs_of srs_pp pp_nv]. rewrite trapdoor_length. apply Nat.leb_gt in Hn. rewrite Hn. reflexivity.
    + unfold extract_verifier_param. cbn [srs_of srs_pp pp_nv]. rewrite trapdoor_length. apply Nat.leb_gt in Hn. rewrite Hn. reflexivity.
Qed.
End S.
