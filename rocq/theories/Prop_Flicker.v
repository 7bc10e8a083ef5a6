(** C100: Flickering light: normalize_video and normalize_fft. *)
From Coq Require Import String Field ZifyBool ZifyNat.
From Verif Require Import Base Ordered Kernels PairSpec KernelProofs PairLemmas CoreModel CoreProofs CoreProofs3 NormModel NormSpec RegularProofs
  FftModel FftProofs CorrModel CorrSpec CorrProofs CorrProofs2 NormProofs NormProofs2 NormApi NormAuto NormMap NormApi2 NormMode NormMode2 NormMode3 NormApi3
  StatsModel StreamSpec Prop_Stats VideoModel VideoProofs MapModel MapProofs Fft2Model Fft2Proofs Prop_Fft Prop_Map TranslateProofs Prop_Translate GainApi Prop_Gain Examples.
Open Scope string_scope.
Open Scope nat_scope.
Open Scope list_scope.
Local Notation length := List.length.
Set Implicit Arguments.

(** The sum of all pixels *)
Definition total (K : Fld) (x : mat K) : K := Sum (fmon K) (seq 0 (mh x)) (fun i => Sum (fmon K) (seq 0 (mw x)) (mat_at x i)).
(** A frame multiplied by a number *)
Definition brighter (K : Fld) (c : K) (x : mat K) : mat K := Mat (mh x) (mw x) (fun i j => fmul K c (mat_at x i j)).
(** Every frame of the second video is the frame of the first one multiplied by its own number, which is not zero. *)
Definition flickers (K : Fld) (video video' : gen (list (mat K))) : Prop :=
  ending video' = ending video /\ Forall2 (Forall2 (fun x y => exists c, c <> f0 K /\ y = brighter K c x)) (yields video) (yields video').
(** The rows of a frame as an array *)
Definition image (K : Fld) (f : frame K) : mat K := Mat (length f) (length (nth 0 f [])) (fun i j => nth j (nth i f []) (f0 K)).
Definition images (K : Fld) (video : gen (list (frame K))) : gen (list (mat K)) := Gen (map (map (image K)) (yields video)) (ending video).
Definition rectangular (K : Fld) (h w : nat) (f : frame K) : Prop := length f = h /\ forall r, In r f -> length r = w.

Section Flicker.
  Variable K : Fld.
  Notation C := (Cx K).
  Add Field FKfield : (flaw K).
  Variable W : nat -> C.
  Ltac fr := match goal with |- @eq _ ?a ?b => change (@eq (fcar K) a b) end.

  Lemma hom_scal (c : K) : hom (cmon K) (cscal c).
  Proof. split; intros; cbn; unfold c0, cadd, cscal, cre, cim; cbn [fst snd]; f_equal; fr; ring. Qed.
  Lemma hom_mul (c : K) : hom (fmon K) (fmul K c).
  Proof. split; intros; cbn; fr; ring. Qed.
  Lemma dft_brighter (c : K) (x : mat K) k l : dft2_at W (real_frame K (brighter K c x)) k l = cscal c (dft2_at W (real_frame K x) k l).
  Proof.
    unfold dft2_at. cbn [real_frame brighter mh mw mat_at]. rewrite <- (hom_sum (hom_scal c)). apply Sum_ext. intros i _. rewrite <- (hom_sum (hom_scal c)). apply Sum_ext. intros j _.
    generalize (cmul (cpow (W (mh x)) (i * k)) (cpow (W (mw x)) (j * l))) (mat_at x i j). intros z a. unfold cmul, cscal, cofre, cre, cim; cbn [fst snd]. f_equal; fr; ring.
  Qed.
  Lemma total_brighter (c : K) (x : mat K) : total K (brighter K c x) = fmul K c (total K x).
  Proof. unfold total. cbn [brighter mh mw mat_at]. rewrite <- (hom_sum (hom_mul c)). apply Sum_ext. intros i _. rewrite <- (hom_sum (hom_mul c)). reflexivity. Qed.
  Lemma sum_cofre A (l : list A) (g : A -> K) : Sum (cmon K) l (fun x => cofre (g x)) = cofre (Sum (fmon K) l g).
  Proof.
    induction l as [|x l IH]; [reflexivity|]. rewrite !Sum_cons, IH. cbn [madd cmon fmon]. unfold cadd, cofre, cre, cim; cbn [fst snd]. f_equal. fr. ring.
  Qed.
  Lemma dft_zero (x : mat K) : dft2_at W (real_frame K x) 0 0 = cofre (total K x).
  Proof.
    unfold dft2_at, total. cbn [real_frame mh mw mat_at]. rewrite <- sum_cofre. apply Sum_ext. intros i _. rewrite <- sum_cofre. apply Sum_ext. intros j _.
    rewrite !Nat.mul_0_r. cbn [cpow]. unfold cmul, cofre, c1, cre, cim; cbn [fst snd]. f_equal; fr; ring.
  Qed.
  Lemma cdiv_cofre (a : C) (t : K) : t <> f0 K -> cdiv a (cofre t) = cscal (finv K t) a.
  Proof.
    intros Ht. unfold cdiv, cscal, cmul, conj, cofre, cnorm2, cre, cim; cbn [fst snd]. f_equal; fr; field; (split; [exact Ht|]) || idtac; intros X; apply Ht;
      (replace t with (fmul K (finv K t) (fadd K (fmul K t t) (fmul K (f0 K) (f0 K)))) by (field; exact Ht); rewrite X; ring) || exact X.
  Qed.
  Lemma mul_neq0 (c t : K) : c <> f0 K -> t <> f0 K -> fmul K c t <> f0 K.
  Proof. intros Hc Ht X. apply Ht. transitivity (fmul K (finv K c) (fmul K c t)); [fr; field; exact Hc|rewrite X; fr; ring]. Qed.
  Lemma scal_inv (c t : K) (a : C) : c <> f0 K -> t <> f0 K -> cscal (finv K (fmul K c t)) (cscal c a) = cscal (finv K t) a.
  Proof. intros Hc Ht. unfold cscal, cre, cim; cbn [fst snd]. f_equal; fr; field; split; assumption. Qed.
  Lemma scal_zero (c : K) : cscal c (c0 K) = c0 K.
  Proof. unfold cscal, c0, cre, cim; cbn [fst snd]. f_equal; fr; ring. Qed.
  Lemma scal_mul (c : K) (z : C) : cscal c z = cmul (cofre c) z.
  Proof. unfold cscal, cmul, cofre, cre, cim; cbn [fst snd]. f_equal; fr; ring. Qed.
  Lemma norm_cofre (c : K) : c <> f0 K -> cnorm2 (cofre c) <> f0 K.
  Proof.
    intros Hc X. apply Hc. transitivity (fmul K (finv K c) (cnorm2 (cofre c))); [unfold cnorm2, cofre, cre, cim; cbn [fst snd]; fr; field; exact Hc|rewrite X; fr; ring].
  Qed.
  Lemma scal_cofre (c t : K) : cofre (fmul K c t) = cscal c (cofre t).
  Proof. unfold cscal, cofre, cre, cim; cbn [fst snd]. f_equal. fr. ring. Qed.
End Flicker.

Section Spectra.
  Variable K : Fld.
  Notation C := (Cx K).
  Add Field FSfield : (flaw K).
  Variable W : nat -> C.
  Variable junk : nat -> nat -> C.
  Ltac fr := match goal with |- @eq _ ?a ?b => change (@eq (fcar K) a b) end.

  Lemma map_res_ok A B (f : A -> res B) (g : A -> B) l : (forall x, In x l -> f x = Ok (g x)) -> map_res_v f l = Ok (map g l).
  Proof. induction l as [|x l IH]; intros H; [reflexivity|]. cbn [map_res_v map]. rewrite H by (left; reflexivity). cbn [bind]. rewrite IH by (intros; apply H; right; assumption). reflexivity. Qed.
  (** The signal of the normalized spectra *)
  Lemma normalized_signal (video : gen (list (mat K))) kimax kjmax cam ki kj : (1 <= kimax)%Z -> (0 <= kjmax)%Z ->
    (forall frames x, In frames (yields video) -> In x frames -> (kimax <= Z.of_nat (mh x) / 2)%Z /\ 1 <= mw x /\ (kjmax <= Z.of_nat (mw x) / 2)%Z) ->
    (- kimax <= ki <= kimax)%Z -> (0 <= kj <= kjmax)%Z ->
    signal cam ki kj (normalize_fft (rfft2_video W junk video (Some kimax) (Some kjmax))) =
    map (fun frames => match nth_error frames cam with Some x => cdiv (dft2_at W (real_frame K x) (freq (mh x) ki) (freq (mw x) kj)) (dft2_at W (real_frame K x) 0 0) | None => c0 K end) (yields video).
  Proof.
    intros H1 H2 HX Hi Hj. destruct (C73_rfft2_video W junk video H1 H2 HX) as [_ F].
    set (out := rfft2_video W junk video (Some kimax) (Some kjmax)) in *.
    set (nf := fun x : mat C => Mat (mh x) (mw x) (fun i j => cdiv (mat_at x i j) (mat_at x 0 0))).
    assert (S : forall fr y, In fr (yields out) -> In y fr -> Z.of_nat (mh y) = (2 * kimax + 1)%Z /\ Z.of_nat (mw y) = (kjmax + 1)%Z).
    { clear -F. induction F as [|fs os l os' F' _ IH]; intros fr y [].
      - subst fr. clear IH. induction F' as [|x z l1 l2 Hx _ IH]; intros []; [subst; tauto|auto].
      - apply IH. assumption. }
    assert (E : normalize_fft out = Gen (map (map nf) (yields out)) (ending out)).
    { unfold normalize_fft. apply gen_each_ok. intros fr Hfr. apply map_res_ok. intros y Hy. destruct (S fr y Hfr Hy) as [A B].
      unfold normalize_fft_frame. replace ((mh y =? 0) || (mw y =? 0))%bool with false by lia. reflexivity. }
    rewrite E. apply (@signal_of K K (fun x => cdiv (dft2_at W (real_frame K x) (freq (mh x) ki) (freq (mw x) kj)) (dft2_at W (real_frame K x) 0 0))). cbn [yields]. clear E S.
    assert (G : forall l os, Forall2 (Forall2 (fun (x : mat K) (o : mat C) => Z.of_nat (mh o) = (2 * kimax + 1)%Z /\ Z.of_nat (mw o) = (kjmax + 1)%Z /\
      forall ki kj, (- kimax <= ki <= kimax)%Z -> (0 <= kj <= kjmax)%Z -> at_freq o ki kj = dft2_at W (real_frame K x) (freq (mh x) ki) (freq (mw x) kj))) l os ->
      Forall2 (Forall2 (fun x y => at_freq y ki kj = cdiv (dft2_at W (real_frame K x) (freq (mh x) ki) (freq (mw x) kj)) (dft2_at W (real_frame K x) 0 0))) l (map (map nf) os)).
    { clear F. induction 1 as [|fs os l os' F' _ IH]; [constructor|]. cbn [map]. constructor; [|exact IH]. clear IH. induction F' as [|x y l1 l2 (R & Q & V) _ IH]; [constructor|]. cbn [map]. constructor; [|exact IH].
      unfold at_freq at 1. cbn [nf mh mw mat_at]. f_equal; [apply V; lia|]. pose proof (V 0%Z 0%Z ltac:(lia) ltac:(lia)) as V0. unfold at_freq in V0. unfold freq in V0. rewrite !Z.mod_0_l in V0 by lia || (destruct (mh x), (mw x); lia).
      exact V0. }
    apply G. exact F.
  Qed.
End Spectra.

(** normalize_fft removes the flickering of the spectra: at every wave vector the spectra of the flickering video are those of the
    steady one (no frame may be dark: the sum of its pixels is not zero). *)
Theorem C100_flicker_spectra (K : Fld) (W : nat -> Cx K) junk (video video' : gen (list (mat K))) kimax kjmax cam ki kj :
  (1 <= kimax)%Z -> (0 <= kjmax)%Z ->
  (forall frames x, In frames (yields video) -> In x frames -> (kimax <= Z.of_nat (mh x) / 2)%Z /\ 1 <= mw x /\ (kjmax <= Z.of_nat (mw x) / 2)%Z /\ total K x <> f0 K) ->
  (- kimax <= ki <= kimax)%Z -> (0 <= kj <= kjmax)%Z -> flickers K video video' ->
  signal cam ki kj (normalize_fft (rfft2_video W junk video' (Some kimax) (Some kjmax))) =
  signal cam ki kj (normalize_fft (rfft2_video W junk video (Some kimax) (Some kjmax))).
Proof.
  intros H1 H2 HX Hi Hj [_ F].
  assert (HX' : forall frames x, In frames (yields video') -> In x frames -> (kimax <= Z.of_nat (mh x) / 2)%Z /\ 1 <= mw x /\ (kjmax <= Z.of_nat (mw x) / 2)%Z).
  { clear -F HX. induction F as [|fs fs' l l' F' _ IH]; intros frames y []; [|apply (IH ltac:(intros; eapply HX; [right|]; eassumption) frames y); assumption].
    subst frames. assert (HX1 : forall x, In x fs -> (kimax <= Z.of_nat (mh x) / 2)%Z /\ 1 <= mw x /\ (kjmax <= Z.of_nat (mw x) / 2)%Z) by (intros x Hx; destruct (HX fs x (or_introl eq_refl) Hx); tauto).
    clear IH HX. induction F' as [|x z l1 l2 (c & _ & ->) _ IH]; intros []; [subst; cbn [brighter mh mw]; apply HX1; left; reflexivity|]. apply IH; [intros; apply HX1; right; assumption|assumption]. }
  rewrite (@normalized_signal K W junk video') by assumption. rewrite (@normalized_signal K W junk video); try assumption; [|intros fs x I1 I2; destruct (HX fs x I1 I2); tauto].
  clear HX'. induction F as [|fs fs' l l' F' _ IH]; [reflexivity|]. cbn [map]. f_equal; [|apply IH; intros; eapply HX; [right|]; eassumption].
  assert (HX1 : forall x, In x fs -> total K x <> f0 K) by (intros x Hx; destruct (HX fs x (or_introl eq_refl) Hx); tauto). clear -F' HX1.
  revert cam. induction F' as [|x y l1 l2 (c & Hc & ->) _ IH]; intros [|cam]; cbn [nth_error]; try reflexivity; [|apply IH; intros; apply HX1; right; assumption].
  rewrite !dft_brighter, !dft_zero. cbn [brighter mh mw]. specialize (HX1 x (or_introl eq_refl)). fold (Cx K).
  generalize (dft2_at W (real_frame K x) (freq (mh x) ki) (freq (mw x) kj)). intros a.
  replace (cscal c (cofre (total K x))) with (cofre (fmul K c (total K x))).
  - rewrite !cdiv_cofre; try assumption.
    + apply scal_inv; assumption.
    + apply mul_neq0; assumption.
  - apply scal_cofre.
Qed.
Print Assumptions C100_flicker_spectra.

Section Frames.
  Variable K : Fld.
  Add Field FFfield : (flaw K).
  Ltac fr := match goal with |- @eq _ ?a ?b => change (@eq (fcar K) a b) end.
  Lemma mean_brighter (c : K) (f : frame K) : frame_mean K (map (map (fmul K c)) f) = fmul K c (frame_mean K f).
  Proof.
    unfold frame_mean. rewrite concat_map', map_length, Sum_map.
    etransitivity; [apply (f_equal (fun z => fdiv K z (fnat K (length (concat f))))); apply (hom_sum (hom_mul K c) (concat f) (fun x => x))|].
    rewrite !(Fdiv_def (flaw K)). fr. ring.
  Qed.
  Lemma normalize_brighter iszero (c : K) (f : frame K) : (forall x, iszero x = true <-> x = f0 K) -> c <> f0 K ->
    normalize_frame K iszero (map (map (fmul K c)) f) = normalize_frame K iszero f.
  Proof.
    intros HZ Hc. unfold normalize_frame. rewrite mean_brighter. set (t := frame_mean K f).
    destruct (iszero t) eqn:Z; [apply HZ in Z; rewrite Z; replace (iszero _) with true; [reflexivity|symmetry; apply HZ; fr; ring]|].
    assert (Ht : t <> f0 K) by (intros X; apply HZ in X; congruence).
    destruct (iszero (fmul K c t)) eqn:Z'; [apply HZ in Z'; destruct (@mul_neq0 K c t Hc Ht Z')|]. f_equal. rewrite map_map. apply map_ext. intros r. rewrite map_map. apply map_ext. intros x.
    fr. field. split; assumption.
  Qed.
  Lemma flat_map_id_concat A (l : list (list A)) : flat_map (fun x => x) l = concat l.
  Proof. induction l as [|x l IH]; [reflexivity|]. cbn. rewrite IH. reflexivity. Qed.
  Lemma total_image (h w : nat) (f : frame K) : rectangular K h w f -> 1 <= h -> total K (image K f) = Sum (fmon K) (concat f) (fun x => x) /\ mh (image K f) = h /\ mw (image K f) = w /\ length (concat f) = h * w.
  Proof.
    intros [L R] Hh. assert (W0 : length (nth 0 f []) = w) by (apply R, nth_In; lia). split; [|split; [exact L|split; [exact W0|]]].
    - unfold total. cbn [image mh mw mat_at]. rewrite W0. rewrite <- flat_map_id_concat, Sum_flat_map. rewrite (@Sum_nth (fmon K) _ f []). apply Sum_ext. intros i Hi. apply in_seq in Hi.
      rewrite (@Sum_nth (fmon K) _ (nth i f []) (f0 K)). rewrite (R (nth i f [])) by (apply nth_In; lia). reflexivity.
    - clear W0 Hh. revert h L. induction f as [|r f IH]; intros h L; cbn in L; subst h; [reflexivity|]. cbn [concat]. rewrite app_length, (R r) by (left; reflexivity). rewrite (IH ltac:(intros; apply R; right; assumption) _ eq_refl). reflexivity.
  Qed.
End Frames.

(** normalize_video removes the flickering of the frames themselves. *)
Theorem C100_flicker_frames (K : Fld) iszero (video video' : gen (list (frame K))) : (forall x, iszero x = true <-> x = f0 K) ->
  ending video' = ending video -> Forall2 (Forall2 (fun f f' => exists c, c <> f0 K /\ f' = map (map (fmul K c)) f)) (yields video) (yields video') ->
  normalize_video K iszero video' = normalize_video K iszero video.
Proof.
  intros HZ HE F. unfold normalize_video. rewrite HE. rewrite !(@gen_each_ok _ _ _ (map (normalize_frame K iszero))) by reflexivity. f_equal.
  induction F as [|fs fs' l l' F' _ IH]; [reflexivity|]. cbn [map]. f_equal; [|exact IH]. clear IH. induction F' as [|f f' l1 l2 (c & Hc & ->) _ IH]; [reflexivity|]. cbn [map]. f_equal; [|exact IH].
  apply normalize_brighter; assumption.
Qed.
Print Assumptions C100_flicker_frames.

Section TwoWays.
  Variable K : Fld.
  Notation C := (Cx K).
  Add Field FWfield : (flaw K).
  Variable W : nat -> C.
  Variable junk : nat -> nat -> C.
  Ltac fr := match goal with |- @eq _ ?a ?b => change (@eq (fcar K) a b) end.
  (** The signal of the spectra *)
  Lemma spectra_signal (video : gen (list (mat K))) kimax kjmax cam ki kj : (1 <= kimax)%Z -> (0 <= kjmax)%Z ->
    (forall frames x, In frames (yields video) -> In x frames -> (kimax <= Z.of_nat (mh x) / 2)%Z /\ 1 <= mw x /\ (kjmax <= Z.of_nat (mw x) / 2)%Z) ->
    (- kimax <= ki <= kimax)%Z -> (0 <= kj <= kjmax)%Z ->
    signal cam ki kj (rfft2_video W junk video (Some kimax) (Some kjmax)) =
    map (fun frames => match nth_error frames cam with Some x => dft2_at W (real_frame K x) (freq (mh x) ki) (freq (mw x) kj) | None => c0 K end) (yields video).
  Proof.
    intros H1 H2 HX Hi Hj. destruct (C73_rfft2_video W junk video H1 H2 HX) as [_ F].
    apply (@signal_of K K (fun x => dft2_at W (real_frame K x) (freq (mh x) ki) (freq (mw x) kj))). revert F. generalize (yields (rfft2_video W junk video (Some kimax) (Some kjmax))).
    clear HX. induction 1 as [|fs os l os' F' _ IH]; [constructor|]. constructor; [|exact IH]. clear IH. induction F' as [|x y l1 l2 (_ & _ & V) _ IH]; [constructor|]. constructor; [apply V; assumption|exact IH].
  Qed.
  (** The frame divided by its mean *)
  Definition by_mean (f : frame K) : frame K := map (map (fun x => fdiv K x (frame_mean K f))) f.
  Lemma by_mean_at (f : frame K) i j : frame_mean K f <> f0 K -> nth j (nth i (by_mean f) []) (f0 K) = fmul K (finv K (frame_mean K f)) (nth j (nth i f []) (f0 K)).
  Proof.
    intros H. unfold by_mean. change (@nil K) with (map (fun x => fdiv K x (frame_mean K f)) []) at 1. rewrite map_nth.
    destruct (lt_dec j (length (nth i f []))) as [L|L].
    - rewrite (nth_indep _ (f0 K) (fdiv K (f0 K) (frame_mean K f))) by (rewrite map_length; exact L). rewrite (map_nth (fun x => fdiv K x (frame_mean K f))). fr. field. exact H.
    - rewrite !nth_overflow by (rewrite ?map_length; lia). fr. field. exact H.
  Qed.
  Lemma div_zero (a b : K) : b <> f0 K -> fdiv K a b = f0 K -> a = f0 K.
  Proof. intros H X. transitivity (fmul K (fdiv K a b) b); [fr; field; exact H|]. rewrite X. fr. ring. Qed.
  Lemma dft_ext (x y : mat K) k l : mh y = mh x -> mw y = mw x -> (forall i j, mat_at y i j = mat_at x i j) -> dft2_at W (real_frame K y) k l = dft2_at W (real_frame K x) k l.
  Proof. intros A B E. unfold dft2_at. cbn [real_frame mh mw mat_at]. rewrite A, B. apply Sum_ext. intros i _. apply Sum_ext. intros j _. rewrite E. reflexivity. Qed.
  Lemma by_mean_dft h w (f : frame K) k l : rectangular K h w f -> 1 <= h -> frame_mean K f <> f0 K -> fnat K (h * w) <> f0 K ->
    dft2_at W (real_frame K (image K (by_mean f))) k l = cscal (fnat K (h * w)) (cdiv (dft2_at W (real_frame K (image K f)) k l) (dft2_at W (real_frame K (image K f)) 0 0)).
  Proof.
    intros HR Hh HM HN. destruct (total_image HR Hh) as (T & _ & _ & LC).
    assert (M : frame_mean K f = fdiv K (total K (image K f)) (fnat K (h * w))) by (unfold frame_mean; rewrite LC, T; reflexivity).
    assert (HT : total K (image K f) <> f0 K). { intros X. apply HM. rewrite M, X. fr. field. exact HN. }
    assert (E : dft2_at W (real_frame K (image K (by_mean f))) k l = dft2_at W (real_frame K (brighter K (finv K (frame_mean K f)) (image K f))) k l).
    { apply dft_ext; [cbn; unfold by_mean; rewrite map_length; reflexivity| |intros i j; cbn [brighter image mat_at]; apply by_mean_at; exact HM].
      cbn [brighter image mw]. unfold by_mean. change (@nil K) with (map (fun x => fdiv K x (frame_mean K f)) []) at 1. rewrite map_nth, map_length. reflexivity. }
    rewrite E, dft_brighter, dft_zero, cdiv_cofre by exact HT. rewrite M. generalize (dft2_at W (real_frame K (image K f)) k l). intros z. unfold cscal, cre, cim; cbn [fst snd]. f_equal; fr; field; split; assumption.
  Qed.
End TwoWays.

(** The two ways of normalizing a video, normalize_video before the FFT and normalize_fft after it, differ by one number only: with
    frames of h rows and w columns, the spectra of the normalized frames are h * w times the normalized spectra of the frames. *)
Theorem C100_two_ways (K : Fld) (W : nat -> Cx K) junk iszero (video : gen (list (frame K))) h w kimax kjmax :
  (forall x, iszero x = true <-> x = f0 K) -> (1 <= kimax)%Z -> (0 <= kjmax)%Z -> (kimax <= Z.of_nat h / 2)%Z -> 1 <= w -> (kjmax <= Z.of_nat w / 2)%Z -> fnat K (h * w) <> f0 K ->
  (forall frames f, In frames (yields video) -> In f frames -> rectangular K h w f /\ Sum (fmon K) (concat f) (fun x => x) <> f0 K) ->
  exists l, normalize_video K iszero video = Gen (map (map Some) l) (ending video) /\
    forall cam ki kj, (- kimax <= ki <= kimax)%Z -> (0 <= kj <= kjmax)%Z ->
      signal cam ki kj (rfft2_video W junk (images K (Gen l (ending video))) (Some kimax) (Some kjmax)) =
      map (cscal (fnat K (h * w))) (signal cam ki kj (normalize_fft (rfft2_video W junk (images K video) (Some kimax) (Some kjmax)))).
Proof.
  intros HZ H1 H2 Hh Hw Hk HN HF. assert (Hh1 : 1 <= h) by (destruct h; [cbn in Hh; lia|lia]).
  assert (HM : forall frames f, In frames (yields video) -> In f frames -> frame_mean K f <> f0 K).
  { intros frames f I1 I2. destruct (HF frames f I1 I2) as [R T]. destruct (total_image R Hh1) as (_ & _ & _ & LC). unfold frame_mean. rewrite LC. intros X. apply T.
    apply (@div_zero K _ _ HN X). }
  exists (map (map (by_mean K)) (yields video)). split.
  - unfold normalize_video. rewrite (@gen_each_ok _ _ _ (map (normalize_frame K iszero))) by reflexivity. f_equal. rewrite map_map. apply map_ext_in. intros frames I1. rewrite map_map. apply map_ext_in. intros f I2.
    unfold normalize_frame. destruct (iszero (frame_mean K f)) eqn:Z; [apply HZ in Z; destruct (HM _ _ I1 I2 Z)|reflexivity].
  - intros cam ki kj Hi Hj.
    assert (SZ : forall f, rectangular K h w f -> mh (image K f) = h /\ mw (image K f) = w) by (intros f R; destruct (total_image R Hh1); tauto).
    assert (RB : forall f, rectangular K h w f -> rectangular K h w (by_mean K f)).
    { intros f [A B]. split; [unfold by_mean; rewrite map_length; exact A|]. intros r I. unfold by_mean in I. apply in_map_iff in I. destruct I as (r' & <- & I). rewrite map_length. apply B. exact I. }
    rewrite (@spectra_signal K W junk), (@normalized_signal K W junk) by
      (try assumption; cbn [images yields]; intros frames x I1 I2; apply in_map_iff in I1; destruct I1 as (fs & <- & I1); apply in_map_iff in I2; destruct I2 as (f & <- & I2);
       try (apply in_map_iff in I1; destruct I1 as (fs' & <- & I1); apply in_map_iff in I2; destruct I2 as (f' & <- & I2));
       match goal with I : In ?f ?fs |- context [image K ?g] => destruct (SZ g) as [-> ->]; [try apply RB; eapply HF; eassumption|lia] end).
    cbn [images yields]. rewrite !map_map. apply map_ext_in. intros frames I1. rewrite !nth_error_map. destruct (nth_error frames cam) as [f|] eqn:E; cbn [option_map].
    + apply nth_error_In in E. destruct (HF _ _ I1 E) as [R T]. destruct (SZ f R) as [A B]. destruct (SZ (by_mean K f) (RB f R)) as [A' B']. rewrite A, B, A', B'. apply by_mean_dft; try assumption. apply (HM _ _ I1 E).
    + symmetry. apply scal_zero.
Qed.
Print Assumptions C100_two_ways.

(** Both ways give the same normalized results: the correlations of two cameras and of one, with the statistics of the same signals,
    are equal whatever the mode, the norm and the weight, when the data are scaled. *)
Theorem C100_analysis (K : Fld) (W : nat -> Cx K) junk iszero (video : gen (list (frame K))) h w kimax kjmax :
  (forall x, iszero x = true <-> x = f0 K) -> (1 <= kimax)%Z -> (0 <= kjmax)%Z -> (kimax <= Z.of_nat h / 2)%Z -> 1 <= w -> (kjmax <= Z.of_nat w / 2)%Z -> fnat K (h * w) <> f0 K ->
  (forall frames f, In frames (yields video) -> In f frames -> rectangular K h w f /\ Sum (fmon K) (concat f) (fun x => x) <> f0 K) ->
  exists l, normalize_video K iszero video = Gen (map (map Some) l) (ending video) /\
    forall ki kj, (- kimax <= ki <= kimax)%Z -> (0 <= kj <= kjmax)%Z ->
      let before cam := signal cam ki kj (rfft2_video W junk (images K (Gen l (ending video))) (Some kimax) (Some kjmax)) in
      let after cam := signal cam ki kj (normalize_fft (rfft2_video W junk (images K video) (Some kimax) (Some kjmax))) in
      (forall cam cam' aligned t1 t2 n norm nm method N denoise bg var norm' mode weight, stats (after cam) (Some (after cam')) = Fin (bg, var) -> varies K var ->
        cross_call W (after cam) (after cam') t1 t2 n method N -> norm_arg norm nm ->
        exists bg' var', stats (before cam) (Some (before cam')) = Fin (bg', var') /\
          (let* data := ccorr W aligned (before cam) (before cam') t1 t2 n norm method None None None in normalize real_ops denoise data bg' var' norm' mode true weight) =
          (let* data := ccorr W aligned (after cam) (after cam') t1 t2 n norm method None None None in normalize real_ops denoise data bg var norm' mode true weight)) /\
      (forall cam aligned t n norm nm method N denoise bg var norm' mode weight, stats (after cam) None = Fin (bg, var) -> varies K var ->
        auto_call W (after cam) t n method N -> norm_arg norm nm ->
        exists bg' var', stats (before cam) None = Fin (bg', var') /\
          (let* data := acorr W aligned (before cam) t None n norm method None in normalize real_ops denoise data bg' var' norm' mode true weight) =
          (let* data := acorr W aligned (after cam) t None n norm method None in normalize real_ops denoise data bg var norm' mode true weight)).
Proof.
  intros HZ H1 H2 Hh Hw Hk HN HF. destruct (@C100_two_ways K W junk iszero video h w kimax kjmax HZ H1 H2 Hh Hw Hk HN HF) as (l & E & S). exists l. split; [exact E|]. intros ki kj Hi Hj before after.
  assert (B : forall cam, before cam = map (cmul (cofre (fnat K (h * w)))) (after cam)) by (intros cam; unfold before; rewrite S by assumption; apply map_ext; intros z; apply scal_mul).
  pose proof (@norm_cofre K (fnat K (h * w)) HN) as HU. split.
  - intros cam cam' aligned t1 t2 n norm nm method N denoise bg var norm' mode weight HS HV HC HA. rewrite !B.
    pose proof (C100_gain_stats (cofre (fnat K (h * w))) (after cam) (Some (after cam'))) as G. cbn [option_map] in G. rewrite HS in G. cbn [fv_map fst snd] in G. eexists _, _. split; [exact G|].
    apply (@C100_gain_real K W (cofre (fnat K (h * w))) aligned (after cam) (after cam') t1 t2 n norm nm method N denoise bg var norm' mode weight); assumption.
  - intros cam aligned t n norm nm method N denoise bg var norm' mode weight HS HV HC HA. rewrite !B.
    pose proof (C100_gain_stats (cofre (fnat K (h * w))) (after cam) None) as G. cbn [option_map] in G. rewrite HS in G. cbn [fv_map fst snd] in G. eexists _, _. split; [exact G|].
    apply (@C100_gain_auto K W (cofre (fnat K (h * w))) aligned (after cam) t n norm nm method N denoise bg var norm' mode weight); assumption.
Qed.
Print Assumptions C100_analysis.

(** A video of two frames with two rows and four columns, the second one of a flickering lamp, and its signals at the wave vector (0, 1):
    the means, the variance and the two ways of normalizing them *)
Definition rows24 : gen (list (frame QcF)) := Gen [[[[q 1; q 2; q 3; q 4]; [q 0; q 1; q 0; q 2]]]; [[[q 1; q 1; q 2; q 5]; [q 3; q 0; q 0; q 1]]]]%Z None.
Definition lamp24 : gen (list (mat QcF)) := Gen [[brighter QcF (q 3) (image QcF [[q 1; q 2; q 3; q 4]; [q 0; q 1; q 0; q 2]])]; [brighter QcF (q 5) (image QcF [[q 1; q 1; q 2; q 5]; [q 3; q 0; q 0; q 1]])]]%Z None.
Lemma q_neq0 (x : QcF) : Qcanon.this x <> Qcanon.this (f0 QcF) -> x <> f0 QcF.
Proof. intros H ->. apply H. reflexivity. Qed.
Example C100_example :
  (forall frames f, In frames (yields rows24) -> In f frames -> rectangular QcF 2 4 f /\ Sum (fmon QcF) (concat f) (fun x => x) <> f0 QcF) /\
  flickers QcF (images QcF rows24) lamp24 /\
  map showc (signal 0 0 1 (normalize_fft (rfft2_video Wq (fun _ _ => cz 9 9) (images QcF rows24) (Some 1) (Some 1))))%Z = [(-2, 13, (3, 13)); (2, 13, (5, 13))]%Z /\
  map showc (signal 0 0 1 (normalize_fft (rfft2_video Wq (fun _ _ => cz 9 9) lamp24 (Some 1) (Some 1))))%Z = [(-2, 13, (3, 13)); (2, 13, (5, 13))]%Z /\
  (exists bg var, stats (signal 0 0 1 (normalize_fft (rfft2_video Wq (fun _ _ => cz 9 9) (images QcF rows24) (Some 1) (Some 1))))%Z None = Fin (bg, var) /\ varies QcF var) /\
  auto_call Wq (signal 0 0 1 (normalize_fft (rfft2_video Wq (fun _ _ => cz 9 9) (images QcF rows24) (Some 1) (Some 1))))%Z None (Some 2) (Some "corr") 2.
Proof.
  split; [|split; [|split; [|split; [|split]]]].
  - intros frames f [<-|[<-|[]]] [<-|[]]; (split; [split; [reflexivity|intros r [<-|[<-|[]]]; reflexivity]|apply q_neq0; vm_compute; discriminate]).
  - split; [reflexivity|]. repeat constructor; [exists (q 3)|exists (q 5)]; (split; [apply q_neq0; vm_compute; discriminate|reflexivity]).
  - vm_compute; reflexivity.
  - vm_compute; reflexivity.
  - set (f := signal 0 0 1 _) at 1. exists (SOne (list_mean f)), (SOne (list_variance f)). destruct (C82_stats f f f) as [-> _].
    assert (F : length f = 2) by reflexivity. split; [destruct f; [discriminate F|reflexivity]|]. clear F. unfold f. cbn [varies]. apply q_neq0. vm_compute. discriminate.
  - split; [exact I|]. split; [vm_compute; repeat constructor; cbn; intuition discriminate|]. split; [reflexivity|]. split; [intros _; vm_compute; lia|]. left. left. reflexivity.
Qed.
