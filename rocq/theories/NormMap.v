(** Changing the values of signals: calls stay valid, pairs are mapped, and the
    normalized values transform accordingly. *)
From Verif Require Import Base Kernels PairSpec KernelProofs PairLemmas CoreModel CoreProofs CoreProofs3 NormModel NormSpec
  FftModel CorrModel CorrSpec CorrProofs CorrProofs2 NormProofs NormProofs2 NormApi.
From Coq Require Import String Field ZifyBool ZifyNat.
Open Scope string_scope.
Open Scope nat_scope.
Local Notation length := List.length.
Set Implicit Arguments.

Definition on_val {A B} (g : A -> B) (s : sample A) : sample B := (g (fst s), snd s).

Lemma combine_on_val A B (g : A -> B) f (t : list Z) : combine (map g f) t = map (on_val g) (combine f t).
Proof. revert t. induction f as [|x f IH]; intros [|z t]; try reflexivity. cbn. rewrite IH. reflexivity. Qed.
Lemma samples_map A B (g : A -> B) f t : samples (map g f) t = map (on_val g) (samples f t).
Proof. destruct t as [t|]; cbn; [|unfold regular; rewrite map_length]; apply combine_on_val. Qed.
Lemma distinct_map A B (g : A -> B) d : distinct d -> distinct (map (on_val g) d).
Proof. unfold distinct. rewrite map_map. intros H. exact H. Qed.
Lemma covers_map A B A' B' (g : A -> A') (h : B -> B') d1 d2 L :
  covers d1 d2 L -> covers (map (on_val g) d1) (map (on_val h) d2) L.
Proof.
  intros [H (p & Hp & E)]. unfold covers. rewrite list_prod_map. split.
  - intros p' Hp'. apply in_map_iff in Hp' as (p0 & <- & H0). exact (H p0 H0).
  - exists (map_pair (on_val g) (on_val h) p). split; [apply in_map; exact Hp|exact E].
Qed.
Lemma map_neq_nil A B (g : A -> B) l : l <> [] -> map g l <> [].
Proof. destruct l; [congruence|discriminate]. Qed.
Lemma valid_cross_map A B A' B' (g : A -> A') (h : B -> B') f1 f2 t1 t2 :
  valid_cross f1 f2 t1 t2 -> valid_cross (map g f1) (map h f2) t1 t2.
Proof.
  unfold valid_cross. rewrite !map_length. intros [H1 H2]. split; [exact H1|].
  destruct t1, t2; auto. destruct H2 as (E1 & E2 & E3). repeat split; auto. apply map_neq_nil. exact E3.
Qed.

Section Maps.
  Variable K : Fld.
  Notation C := (Cx K).
  Notation pair := (sample C * sample C)%type.
  Variable W : nat -> C.
  Add Field Kfm : (flaw K).

  Lemma fft_ok_map (g h : C -> C) f1 f2 t1 t2 N : fft_ok W f1 f2 t1 t2 N -> fft_ok W (map g f1) (map h f2) t1 t2 N.
  Proof.
    intros (H1 & H2 & H3 & L & H4 & H5). split; [apply map_neq_nil; exact H1|]. rewrite !samples_map.
    split; [apply distinct_map; exact H2|]. split; [apply distinct_map; exact H3|].
    exists L. split; [apply covers_map; exact H4|exact H5].
  Qed.
  Lemma cross_call_map (g h : C -> C) f1 f2 t1 t2 n method N :
    cross_call W f1 f2 t1 t2 n method N -> cross_call W (map g f1) (map h f2) t1 t2 n method N.
  Proof.
    intros (H1 & H2 & H3 & H4). split; [apply valid_cross_map; exact H1|]. split.
    { destruct n; [exact H2|]. destruct H2 as [Ha Hb]. split; [apply map_neq_nil; exact Ha|].
      rewrite !samples_map. apply covers_map. exact Hb. }
    split; [rewrite map_length; exact H3|].
    destruct H4 as [H4|[H4 H5]]; [left; exact H4|right; split; [exact H4|apply fft_ok_map; exact H5]].
  Qed.
  Lemma pairs_at_val (g h : C -> C) k f1 f2 t1 t2 :
    pairs_at k (samples (map g f1) t1) (samples (map h f2) t2) =
    map (map_pair (on_val g) (on_val h)) (pairs_at k (samples f1 t1) (samples f2 t2)).
  Proof. rewrite !samples_map. apply pairs_at_map. reflexivity. Qed.
  Lemma pairs_signed_val (g h : C -> C) k f1 f2 t1 t2 :
    pairs_signed k (samples (map g f1) t1) (samples (map h f2) t2) =
    map (map_pair (on_val g) (on_val h)) (pairs_signed k (samples f1 t1) (samples f2 t2)).
  Proof. rewrite !samples_map. apply pairs_signed_map. reflexivity. Qed.

  Lemma at_delays_map V (h : pair -> pair) N (P P' : nat -> list pair) (g g' : list pair -> V) (m : V -> V) :
    (forall k, P' k = map h (P k)) -> (forall Q, Q <> [] -> g' (map h Q) = m (g Q)) ->
    at_delays N P' g' = map (fv_map m) (at_delays N P g).
  Proof.
    intros H1 H2. unfold at_delays. rewrite map_map. apply map_ext. intros k. rewrite H1.
    destruct (P k) eqn:E; [reflexivity|]. cbn [map fv_map]. f_equal. apply (H2 (p :: l)). discriminate.
  Qed.
  Lemma at_delays_ext V N (P : nat -> list pair) (g g' : list pair -> V) :
    (forall Q, Q <> [] -> g Q = g' Q) -> at_delays N P g = at_delays N P g'.
  Proof.
    intros H. unfold at_delays. apply map_ext. intros k. destruct (P k) eqn:E; [reflexivity|].
    f_equal. apply H. discriminate.
  Qed.
  Lemma map_fv_id V (l : list (fval V)) (m : V -> V) : (forall x, m x = x) -> map (fv_map m) l = l.
  Proof. intros H. rewrite <- (map_id l) at 2. apply map_ext. intros [x|]; cbn; [rewrite H|]; reflexivity. Qed.
  Lemma mean_map (h : pair -> pair) Q F : mean (map h Q) F = mean Q (fun p => F (h p)).
  Proof. unfold mean. rewrite map_length. f_equal. apply Sum_map. Qed.
  Lemma cmean_map (h : pair -> pair) Q F : cmean (map h Q) F = cmean Q (fun p => F (h p)).
  Proof. unfold cmean. rewrite !mean_map. reflexivity. Qed.

  (** Signals changed to [gain * x + offset]. *)
  Definition affine (gain : K) (offset z : C) : C := cadd (cscal gain z) offset.
  Local Notation "0" := (f0 K).
  Local Notation "1" := (f1 K).
  Local Infix "+" := (fadd K).
  Local Infix "*" := (fmul K).
  Local Infix "-" := (fsub K).
  Local Infix "/" := (fdiv K).
  Local Notation "2" := (1 + 1).
  Notation S_ P g := (Sum (fmon K) P g).
  Notation D P := (S_ P (@re_prod K)).
  Notation Di P := (S_ P (fun p => cim (cx_prod p))).
  Notation xr P := (S_ P (fun p => cre (fst_val p))).
  Notation xi P := (S_ P (fun p => cim (fst_val p))).
  Notation yr P := (S_ P (fun p => cre (snd_val p))).
  Notation yi P := (S_ P (fun p => cim (snd_val p))).
  Notation Q_ P := (S_ P (@CorrProofs.squares K)).
  Notation N_ P := (fnat K (length P)).
  Ltac rg := match goal with |- @eq _ ?a ?b => change (@eq (fcar K) a b) end; ring.

  Variables (gain : K) (c1 c2 : C).
  Let h := map_pair (on_val (affine gain c1)) (on_val (affine gain c2)).
  Ltac expand := unfold h, map_pair, on_val, affine, cscal, cadd, prod_about, sqdiff_about, sqdiff_i_about, times_i, fst_val, snd_val, re_prod, cx_prod, sq_diff,
    CorrProofs.squares, CorrProofs.first, CorrProofs.second, cnorm2, csub, cmul, conj, cre, cim;
    cbn [fst snd].
  Ltac by_ind P := induction P as [|p P IH]; [change (fnat K (length (@nil pair))) with 0; rewrite ?Sum_nil'; cbn [map]; rewrite ?Sum_nil'; rg|];
    cbn [map]; rewrite ?Sum_cons', ?fnat_len; rewrite IH; expand; rg.
  Lemma af_xr P : xr (map h P) = gain * xr P + N_ P * cre c1. Proof. by_ind P. Qed.
  Lemma af_xi P : xi (map h P) = gain * xi P + N_ P * cim c1. Proof. by_ind P. Qed.
  Lemma af_yr P : yr (map h P) = gain * yr P + N_ P * cre c2. Proof. by_ind P. Qed.
  Lemma af_yi P : yi (map h P) = gain * yi P + N_ P * cim c2. Proof. by_ind P. Qed.
  Lemma af_D P : D (map h P) = gain * gain * D P + gain * (cre c1 * yr P + cim c1 * yi P) + gain * (cre c2 * xr P + cim c2 * xi P)
    + N_ P * (cre c1 * cre c2 + cim c1 * cim c2).
  Proof. by_ind P. Qed.
  Lemma af_Di P : Di (map h P) = gain * gain * Di P + gain * (cre c1 * yi P - cim c1 * yr P) + gain * (xr P * cim c2 - xi P * cre c2)
    + N_ P * (cre c1 * cim c2 - cim c1 * cre c2).
  Proof. by_ind P. Qed.
  Lemma af_Q P : Q_ (map h P) = gain * gain * Q_ P + 2 * gain * (cre c1 * xr P + cim c1 * xi P) + 2 * gain * (cre c2 * yr P + cim c2 * yi P)
    + N_ P * (cre c1 * cre c1 + cim c1 * cim c1 + cre c2 * cre c2 + cim c2 * cim c2).
  Proof. by_ind P. Qed.

  (** the norms that are blind to offsets *)
  Definition blind (z : Z) : bool := (Z.testbit z 2 || Z.testbit z 3)%bool.

  Ltac split_norm z H := 
    let H' := fresh in
    assert (H' : In z supported_norms) by (apply in_list_In; exact H);
    unfold supported_norms in H'; cbn [In] in H';
    repeat (destruct H' as [<-|H']; [|]); [..|contradiction].
  Ltac norm_algebra P := 
    unfold cmean, mean; change (fun p : pair => cre (cx_prod p)) with (@re_prod K);
    rewrite ?sq_diff_sum, ?sqdiff_i_about_sum, ?sqdiff_about_sum, ?prod_about_re, ?prod_about_im;
    rewrite ?map_length, ?af_xr, ?af_xi, ?af_yr, ?af_yi, ?af_D, ?af_Di, ?af_Q;
    generalize (D P) (Di P) (xr P) (xi P) (yr P) (yi P) (Q_ P); intros;
    unfold affine, cscal, times_i, half, cnorm2, csub, cadd, cmul, conj, c0; cbn [cre cim fst snd].
  Ltac fd := match goal with |- @eq _ ?a ?b => change (@eq (fcar K) a b) end; field; auto.

  Lemma real_value_affine b1 b2 v z Q : Q <> [] -> in_list z supported_norms = true -> unweighted z = true ->
    (blind z = true \/ (c1 = c0 K /\ c2 = c0 K)) ->
    real_value (affine gain c1 b1) (affine gain c2 b2) (gain * gain * v) z (map h Q) = gain * gain * real_value b1 b2 v z Q.
  Proof.
    intros HQ HS HU HC. unfold real_value. pose proof (N_neq0 HQ) as HN. pose proof (@two_neq0 K) as H2.
    split_norm z HS; try discriminate HU; cbn [Z.eqb Pos.eqb orb];
      (destruct HC as [HC|[E1 E2]]; [try discriminate HC|]); norm_algebra Q; try (rewrite E1, E2; unfold c0); cbn [cre cim fst snd]; fd.
  Qed.
  Lemma complex_value_affine b1 b2 v z Q : Q <> [] -> in_list z supported_norms = true -> unweighted z = true ->
    (blind z = true \/ (c1 = c0 K /\ c2 = c0 K)) ->
    complex_value (affine gain c1 b1) (affine gain c2 b2) (gain * gain * v) z (map h Q) = cscal (gain * gain) (complex_value b1 b2 v z Q).
  Proof.
    intros HQ HS HU HC. unfold complex_value. pose proof (N_neq0 HQ) as HN. pose proof (@two_neq0 K) as H2.
    split_norm z HS; try discriminate HU; cbn [Z.eqb Pos.eqb orb];
      (destruct HC as [HC|[E1 E2]]; [try discriminate HC|]); norm_algebra Q; try (rewrite E1, E2; unfold c0); cbn [cre cim fst snd]; apply f_equal2; fd.
  Qed.
End Maps.
