(** C77: noise estimates, noise_level, noise_mean, noise_delta. *)
From Coq Require Import Reals Lra Lia String.
From Verif Require Import Base Ordered FftReals KernelProofs CoreProofs3 FftModel FftProofs NormModel AvgModel MapModel Fft2Model NoiseModel Examples.
Open Scope string_scope.
Open Scope nat_scope.
Open Scope list_scope.
Local Notation length := List.length.
Set Implicit Arguments.

(* ------------------------------------------------------------------ *)
(** * noise_level *)
Section Level.
  Variable K : Fld.
  Notation C := (Cx K).
  Add Field Knoise : (flaw K).
  Add Ring Cnoise : (c_ring K).
  Local Ltac kring := match goal with |- @eq _ ?a ?b => change (@eq (fcar K) a b) end; ring.
  Notation KSum := (Sum (fmon K)).

  (** An experiment with random noise: finitely many outcomes, each with a probability and the noise of every
      pixel.  [mean X f] is the mean value of f. *)
  Definition experiment := list (K * (nat -> nat -> K)).
  Definition mean (X : experiment) (f : (nat -> nat -> K) -> K) : K := KSum X (fun o => fmul K (fst o) (f (snd o))).
  (** Noise of the pixels of an h x w frame that has zero mean, is uncorrelated between pixels, and
      has the variance [I] in every pixel (for photons, the mean intensity). *)
  Definition camera_noise (h w : nat) (I : K) (X : experiment) : Prop :=
    mean X (fun _ => f1 K) = f1 K /\
    (forall i j, i < h -> j < w -> mean X (fun n => n i j) = f0 K) /\
    (forall i j i' j', i < h -> j < w -> i' < h -> j' < w -> mean X (fun n => fmul K (n i j) (n i' j')) = if (i =? i') && (j =? j') then I else f0 K).
  (** A frame: signal and noise, times the window. *)
  Definition frame (window : mat C) (signal noise : nat -> nat -> K) : mat C :=
    Mat (mh window) (mw window) (fun i j => cscal (fadd K (signal i j) (noise i j)) (mat_at window i j)).

  Lemma mean_add X f g : mean X (fun n => fadd K (f n) (g n)) = fadd K (mean X f) (mean X g).
  Proof. unfold mean. change (fadd K (KSum X (fun o => fmul K (fst o) (f (snd o)))) (KSum X (fun o => fmul K (fst o) (g (snd o))))) with (madd (fmon K) (KSum X (fun o => fmul K (fst o) (f (snd o)))) (KSum X (fun o => fmul K (fst o) (g (snd o))))). rewrite <- Sum_madd. apply Sum_ext. intros o _. cbn [madd fmon]. kring. Qed.
  Lemma mean_scal X c f : mean X (fun n => fmul K c (f n)) = fmul K c (mean X f).
  Proof. unfold mean. rewrite <- Sum_fmul. apply Sum_ext. intros o _. kring. Qed.
  Lemma mean_ext X f g : (forall n, f n = g n) -> mean X f = mean X g.
  Proof. intros H. unfold mean. apply Sum_ext. intros o _. rewrite H. reflexivity. Qed.
  Lemma mean_sum X A (l : list A) (f : A -> (nat -> nat -> K) -> K) : mean X (fun n => KSum l (fun x => f x n)) = KSum l (fun x => mean X (f x)).
  Proof. unfold mean. rewrite Sum_swap. apply Sum_ext. intros o _. rewrite Sum_fmul. reflexivity. Qed.

  Lemma Sum_delta A (l : list A) (eqb : A -> A -> bool) (x : A) (f : A -> K) : (forall a b, eqb a b = true <-> a = b) -> NoDup l -> In x l ->
    KSum l (fun y => if eqb x y then f y else f0 K) = f x.
  Proof.
    intros He. induction l as [|a l IH]; [intros _ []|]. intros HN HI. apply NoDup_cons_iff in HN. destruct HN as [N1 N2]. rewrite Sum_cons. destruct HI as [->|HI].
    - replace (eqb x x) with true by (symmetry; apply He; reflexivity). rewrite (Sum_zero (fmon K)); [apply madd_0_r|]. intros y Hy. destruct (eqb x y) eqn:E; [|reflexivity]. apply He in E. subst y. contradiction.
    - destruct (eqb x a) eqn:E; [apply He in E; subst a; contradiction|]. rewrite (IH N2 HI). apply madd_0_l.
  Qed.
  Lemma Sum_delta2 h w (p : nat * nat) (f : nat * nat -> K) : fst p < h -> snd p < w ->
    KSum (list_prod (seq 0 h) (seq 0 w)) (fun q => if (fst p =? fst q) && (snd p =? snd q) then f q else f0 K) = f p.
  Proof.
    intros H1 H2. rewrite Sum_list_prod. transitivity (KSum (seq 0 h) (fun a => if fst p =? a then f (a, snd p) else f0 K)).
    - apply Sum_ext. intros a _. cbn [fst snd]. destruct (fst p =? a).
      + cbn [andb]. apply (Sum_delta Nat.eqb (snd p) (fun b => f (a, b)) Nat.eqb_eq (seq_NoDup w 0)). apply in_seq. lia.
      + cbn [andb]. apply (Sum_zero (fmon K)). intros b _. reflexivity.
    - rewrite (Sum_delta Nat.eqb (fst p) (fun a => f (a, snd p)) Nat.eqb_eq (seq_NoDup h 0)) by (apply in_seq; lia). destruct p; reflexivity.
  Qed.

  (** The mean square of a real linear combination of the noise of the pixels, plus a constant *)
  Lemma mean_square h w I X (a : nat * nat -> K) (S : K) : camera_noise h w I X ->
    let P := list_prod (seq 0 h) (seq 0 w) in
    mean X (fun n => let v := fadd K S (KSum P (fun p => fmul K (a p) (n (fst p) (snd p)))) in fmul K v v) =
    fadd K (fmul K S S) (fmul K (KSum P (fun p => fmul K (a p) (a p))) I).
  Proof.
    intros (H1 & H2 & H3) P. assert (HP : forall p, In p P -> fst p < h /\ snd p < w) by (intros [i j] Hp; apply in_prod_iff in Hp; rewrite !in_seq in Hp; cbn; lia).
    assert (M1 : mean X (fun n => KSum P (fun p => fmul K (a p) (n (fst p) (snd p)))) = f0 K).
    { rewrite (mean_sum X P (fun p n => fmul K (a p) (n (fst p) (snd p)))). apply (Sum_zero (fmon K)). intros p Hp. destruct (HP p Hp) as [B1 B2]. rewrite (mean_scal X (a p) (fun n => n (fst p) (snd p))), H2 by assumption. cbn [m0 fmon]. kring. }
    assert (M2 : mean X (fun n => fmul K (KSum P (fun p => fmul K (a p) (n (fst p) (snd p)))) (KSum P (fun p => fmul K (a p) (n (fst p) (snd p))))) = fmul K (KSum P (fun p => fmul K (a p) (a p))) I).
    { transitivity (mean X (fun n => KSum P (fun p => KSum P (fun q => fmul K (fmul K (a p) (a q)) (fmul K (n (fst p) (snd p)) (n (fst q) (snd q))))))).
      - apply mean_ext. intros n. set (T := KSum P (fun p => fmul K (a p) (n (fst p) (snd p)))). unfold T at 1. transitivity (fmul K T (KSum P (fun p => fmul K (a p) (n (fst p) (snd p))))); [kring|]. rewrite <- Sum_fmul. apply Sum_ext. intros p _.
        unfold T. transitivity (fmul K (fmul K (a p) (n (fst p) (snd p))) (KSum P (fun p => fmul K (a p) (n (fst p) (snd p))))); [kring|]. rewrite <- Sum_fmul. apply Sum_ext. intros q _. kring.
      - rewrite (mean_sum X P (fun p n => KSum P (fun q => fmul K (fmul K (a p) (a q)) (fmul K (n (fst p) (snd p)) (n (fst q) (snd q)))))).
        transitivity (KSum P (fun p => fmul K I (fmul K (a p) (a p)))); [|rewrite Sum_fmul; kring].
        apply Sum_ext. intros p Hp. destruct (HP p Hp) as [B1 B2]. rewrite (mean_sum X P (fun q n => fmul K (fmul K (a p) (a q)) (fmul K (n (fst p) (snd p)) (n (fst q) (snd q))))).
        transitivity (KSum P (fun q => if (fst p =? fst q) && (snd p =? snd q) then fmul K I (fmul K (a p) (a q)) else f0 K)); [|apply (@Sum_delta2 h w p (fun q => fmul K I (fmul K (a p) (a q))) B1 B2)].
        apply Sum_ext. intros q Hq. destruct (HP q Hq) as [B3 B4]. rewrite (mean_scal X (fmul K (a p) (a q)) (fun n => fmul K (n (fst p) (snd p)) (n (fst q) (snd q)))), H3 by assumption. destruct (_ && _); kring. }
    cbv zeta. etransitivity.
    - apply mean_ext. intros n. instantiate (1 := fun n => fadd K (fadd K (fmul K (fmul K S S) (f1 K)) (fmul K (fadd K S S) (KSum P (fun p => fmul K (a p) (n (fst p) (snd p))))))
        (fmul K (KSum P (fun p => fmul K (a p) (n (fst p) (snd p)))) (KSum P (fun p => fmul K (a p) (n (fst p) (snd p)))))). cbn beta. kring.
    - rewrite !mean_add, M2. rewrite (mean_scal X (fmul K S S) (fun _ => f1 K)), H1. rewrite (mean_scal X (fadd K S S) (fun n => KSum P (fun p => fmul K (a p) (n (fst p) (snd p))))), M1. kring.
  Qed.

  Lemma cre_Sum A (l : list A) (f : A -> C) : cre (Sum (cmon K) l f) = KSum l (fun x => cre (f x)).
  Proof. induction l as [|x l IH]; [reflexivity|]. rewrite !Sum_cons, <- IH. reflexivity. Qed.
  Lemma cim_Sum A (l : list A) (f : A -> C) : cim (Sum (cmon K) l f) = KSum l (fun x => cim (f x)).
  Proof. induction l as [|x l IH]; [reflexivity|]. rewrite !Sum_cons, <- IH. reflexivity. Qed.
  Lemma unit_pow (z : C) n : cmul z (conj z) = c1 K -> cnorm2 (cpow z n) = f1 K.
  Proof.
    intros H. assert (N : cnorm2 z = f1 K). { apply (f_equal cre) in H. unfold cmul, conj, c1, cre, cim, cnorm2 in *. cbn [fst snd] in *. rewrite <- H. unfold cre, cim. kring. }
    induction n as [|n IH]; [unfold cnorm2, cpow, c1, cre, cim; cbn [fst snd]; ring|]. cbn [cpow]. transitivity (fmul K (cnorm2 z) (cnorm2 (cpow z n))); [unfold cnorm2, cmul, cre, cim; cbn [fst snd]; ring|]. rewrite N, IH. ring.
  Qed.

  (** In every Fourier component the noise adds noise_level to the mean square: the
      estimate does not depend on the wave vector, on the signal or on the shape of the window. *)
  Theorem C77_noise_level (W : nat -> C) (window : mat C) (signal : nat -> nat -> K) I X k l :
    cmul (W (mh window)) (conj (W (mh window))) = c1 K -> cmul (W (mw window)) (conj (W (mw window))) = c1 K ->
    camera_noise (mh window) (mw window) I X ->
    mean X (fun noise => cnorm2 (dft2_at W (frame window signal noise) k l)) =
    fadd K (cnorm2 (dft2_at W (frame window signal (fun _ _ => f0 K)) k l)) (noise_level window I).
  Proof.
    intros R1 R2 HX. set (h := mh window) in *. set (w := mw window) in *. set (P := list_prod (seq 0 h) (seq 0 w)).
    set (b := fun p : nat * nat => cmul (mat_at window (fst p) (snd p)) (cmul (cpow (W h) (fst p * k)) (cpow (W w) (snd p * l)))).
    assert (D : forall n, dft2_at W (frame window signal n) k l = Sum (cmon K) P (fun p => cscal (fadd K (signal (fst p) (snd p)) (n (fst p) (snd p))) (b p))).
    { intros n. unfold dft2_at, frame. cbn [mh mw mat_at]. fold h w. unfold P. rewrite Sum_list_prod. apply Sum_ext. intros i _. apply Sum_ext. intros j _. unfold b. cbn [fst snd]. unfold cscal, cmul, cre, cim. cbn [fst snd]. f_equal; ring. }
    set (Sr := KSum P (fun p => fmul K (cre (b p)) (signal (fst p) (snd p)))). set (Si := KSum P (fun p => fmul K (cim (b p)) (signal (fst p) (snd p)))).
    assert (D' : forall n, cnorm2 (dft2_at W (frame window signal n) k l) =
      fadd K (let v := fadd K Sr (KSum P (fun p => fmul K (cre (b p)) (n (fst p) (snd p)))) in fmul K v v) (let v := fadd K Si (KSum P (fun p => fmul K (cim (b p)) (n (fst p) (snd p)))) in fmul K v v)).
    { intros n. rewrite D. cbv zeta. unfold cnorm2. rewrite cre_Sum, cim_Sum. unfold Sr, Si.
      assert (A1 : forall (u v : nat * nat -> K), fadd K (KSum P u) (KSum P v) = KSum P (fun p => fadd K (u p) (v p))) by (intros u v; symmetry; apply (Sum_madd (fmon K))).
      rewrite !A1. f_equal; (f_equal; apply Sum_ext; intros p _; unfold cscal, cre, cim; cbn [fst snd]; kring). }
    transitivity (mean X (fun n => fadd K (let v := fadd K Sr (KSum P (fun p => fmul K (cre (b p)) (n (fst p) (snd p)))) in fmul K v v) (let v := fadd K Si (KSum P (fun p => fmul K (cim (b p)) (n (fst p) (snd p)))) in fmul K v v))); [apply mean_ext; exact D'|].
    rewrite mean_add. etransitivity; [apply f_equal2; [exact (@mean_square h w I X (fun p => cre (b p)) Sr HX)|exact (@mean_square h w I X (fun p => cim (b p)) Si HX)]|]. fold P. rewrite D'. cbv zeta.
    assert (Z0 : forall f : nat * nat -> K, KSum P (fun p => fmul K (f p) (f0 K)) = f0 K) by (intros f; apply (Sum_zero (fmon K)); intros p _; cbn [m0 fmon]; kring). rewrite !Z0.
    unfold noise_level. fold h w P. replace (KSum P (fun p => cnorm2 (mat_at window (fst p) (snd p)))) with (fadd K (KSum P (fun p => fmul K (cre (b p)) (cre (b p)))) (KSum P (fun p => fmul K (cim (b p)) (cim (b p))))); [ring|].
    etransitivity; [symmetry; apply (Sum_madd (fmon K))|]. apply Sum_ext. intros p _. cbn [madd fmon]. transitivity (cnorm2 (b p)); [reflexivity|]. unfold b.
    pose proof (@unit_pow (W h) (fst p * k) R1) as U1. pose proof (@unit_pow (W w) (snd p * l) R2) as U2.
    transitivity (fmul K (cnorm2 (mat_at window (fst p) (snd p))) (fmul K (cnorm2 (cpow (W h) (fst p * k))) (cnorm2 (cpow (W w) (snd p * l))))); [unfold cnorm2, cmul, cre, cim; cbn [fst snd]; kring|]. rewrite U1, U2. kring.
  Qed.
  (** Without a window it is the number of pixels times the intensity; a factor of the frame enters
      squared, a factor of the intensity linearly. *)
  Theorem C77_level_scaling (window : mat C) I c :
    noise_level (Mat (mh window) (mw window) (fun i j => cscal c (mat_at window i j))) I = fmul K (fmul K c c) (noise_level window I) /\
    noise_level window (fmul K c I) = fmul K c (noise_level window I) /\
    noise_level (Mat (mh window) (mw window) (fun _ _ => c1 K)) I = fmul K (fnat K (mh window * mw window)) I.
  Proof.
    unfold noise_level. cbn [mh mw mat_at]. set (P := list_prod _ _). split; [|split].
    - transitivity (fmul K (KSum P (fun p => fmul K (fmul K c c) (cnorm2 (mat_at window (fst p) (snd p))))) I); [f_equal; apply Sum_ext; intros p _; unfold cnorm2, cscal, cre, cim; cbn [fst snd]; kring|]. rewrite Sum_fmul. ring.
    - ring.
    - f_equal. transitivity (KSum P (fun _ => f1 K)); [apply Sum_ext; intros p _; unfold cnorm2, c1, cre, cim; cbn [fst snd]; kring|].
      assert (L : length P = mh window * mw window) by (unfold P; rewrite prod_length, !seq_length; reflexivity). rewrite <- L. clear L. induction P as [|p P IH]; [reflexivity|]. rewrite Sum_cons, IH. cbn [length]. rewrite fnat_S. reflexivity.
  Qed.
End Level.
Print Assumptions C77_noise_level.
Print Assumptions C77_level_scaling.

(* ------------------------------------------------------------------ *)
(** * noise_mean *)
Section Mean.
  Variable K : OFld.
  Add Field Knmean : (flaw K).
  Notation two := (fadd K (f1 K) (f1 K)).

  Lemma clip_in (x : K) lo hi : fle lo hi -> fle lo (clip K lo hi x) /\ fle (clip K lo hi x) hi.
  Proof.
    intros H. unfold clip, fmin, fmax. destruct (flt K x lo) eqn:E1.
    - destruct (flt K hi lo) eqn:E2; [unfold fle in H; congruence|]. split; [apply fle_refl|exact H].
    - destruct (flt K hi x) eqn:E2; [split; [exact H|apply fle_refl]|]. split; [exact E1|exact E2].
  Qed.
  Lemma clip_id (x : K) lo hi : fle lo x -> fle x hi -> clip K lo hi x = x.
  Proof. intros H1 H2. unfold clip, fmin, fmax. unfold fle in H1, H2. rewrite H1, H2. reflexivity. Qed.
  Lemma fle_0_1 : fle (f0 K) (f1 K).
  Proof. apply flt_le, flt_0_1. Qed.
  Lemma two_pos : flt K (f0 K) two = true.
  Proof. apply (@fle_lt_trans K _ (f1 K)); [apply fle_0_1|]. apply flt_sub. replace (fsub K two (f1 K)) with (f1 K) by ring. apply flt_0_1. Qed.
  Lemma two_neq0 : two <> f0 K.
  Proof. intros E. apply (@flt_neq K _ _ two_pos). symmetry. exact E. Qed.

  (** The value is between 0 and 1, and it is the fraction of noise of the data: correlation
      data that starts with (1 - v) times the scale factor, or difference data that starts with 2 v times the
      scale factor, gives v. *)
  Theorem C77_noise_mean (c : K) (corr : list K) (sf : K) : sf <> f0 K ->
    (forall mode, mode = "corr" \/ mode = "diff" -> exists v, noise_mean K (c :: corr) sf mode = Ok v /\ fle (f0 K) v /\ fle v (f1 K)) /\
    (forall v, fle (f0 K) v -> fle v (f1 K) ->
       (c = fmul K sf (fsub K (f1 K) v) -> noise_mean K (c :: corr) sf "corr" = Ok v) /\
       (c = fmul K sf (fmul K two v) -> noise_mean K (c :: corr) sf "diff" = Ok v)).
  Proof.
    intros S. split.
    - intros mode [-> | ->]; unfold noise_mean; cbn [String.eqb Ascii.eqb Bool.eqb map bind]; eexists; (split; [reflexivity|]); apply clip_in, fle_0_1.
    - intros v V1 V2. split; intros ->; unfold noise_mean; cbn [String.eqb Ascii.eqb Bool.eqb map bind]; f_equal.
      + rewrite clip_id; [field; exact S| |]; replace (fsub K (f1 K) (fdiv K (fmul K sf (fsub K (f1 K) v)) sf)) with v by (field; exact S); assumption.
      + pose proof two_neq0 as T. rewrite clip_id; [field; split; assumption| |]; replace (fdiv K (fdiv K (fmul K sf (fmul K two v)) sf) two) with v by (field; split; assumption); assumption.
  Qed.

  (** The two modes agree for difference data d = 2 (sf - c), whatever follows the first delay; a
      common factor of data and scale factor has no effect; other modes and empty data are refused. *)
  Theorem C77_noise_mean_modes (c : K) (corr corr' : list K) (sf a : K) : sf <> f0 K ->
    noise_mean K (fmul K two (fsub K sf c) :: corr') sf "diff" = noise_mean K (c :: corr) sf "corr" /\
    (a <> f0 K -> forall mode data, noise_mean K (map (fmul K a) data) (fmul K a sf) mode = noise_mean K data sf mode) /\
    (forall mode data, mode <> "corr" -> mode <> "diff" -> noise_mean K data sf mode = Raise ValueError) /\
    noise_mean K [] sf "corr" = Raise IndexError /\ noise_mean K [] sf "diff" = Raise IndexError.
  Proof.
    intros S. pose proof two_neq0 as T. split; [|split; [|split; [|split; reflexivity]]].
    - unfold noise_mean; cbn [String.eqb Ascii.eqb Bool.eqb map bind]. do 2 f_equal. field. split; assumption.
    - intros A mode data. unfold noise_mean. replace (map (fun x => fdiv K x (fmul K a sf)) (map (fmul K a) data)) with (map (fun x => fdiv K x sf) data); [reflexivity|].
      rewrite map_map. apply map_ext. intros x. field. split; assumption.
    - intros mode data M1 M2. unfold noise_mean. apply String.eqb_neq in M1, M2. rewrite M1, M2. reflexivity.
  Qed.

  (** noise_delta: the relative difference of the variances of two cameras.  It is
      between -1 and 1, zero for equal variances and for one camera, changes its sign with the order of the cameras, and the
      value without scaling is the scaled one times the scale factor (v1 + v2) / 2. *)
  Theorem C77_noise_delta (v1 v2 : K) : flt K (f0 K) v1 = true -> flt K (f0 K) v2 = true ->
    (flt K (fopp K (f1 K)) (noise_delta K (STwo v1 v2) true) = true /\ flt K (noise_delta K (STwo v1 v2) true) (f1 K) = true) /\
    (forall scale, noise_delta K (STwo v2 v1) scale = fopp K (noise_delta K (STwo v1 v2) scale)) /\
    (forall scale, noise_delta K (STwo v1 v2) scale = f0 K <-> v1 = v2) /\
    (forall sf, scale_factor K (STwo v1 v2) = Ok sf -> noise_delta K (STwo v1 v2) false = fmul K sf (noise_delta K (STwo v1 v2) true)) /\
    (forall scale, noise_delta K (SOne v1) scale = f0 K).
  Proof.
    intros P1 P2. pose proof two_neq0 as T.
    assert (P : flt K (f0 K) (fadd K v1 v2) = true). { replace (f0 K) with (fadd K (f0 K) (f0 K)) by ring. apply (@flt_le_trans K _ (fadd K v1 (f0 K))); [|]. - replace (fadd K (f0 K) (f0 K)) with (f0 K) by ring. replace (fadd K v1 (f0 K)) with v1 by ring. exact P1. - apply fle_add2; [apply fle_refl|apply flt_le, P2]. }
    assert (N : fadd K v1 v2 <> f0 K) by (apply not_eq_sym, flt_neq, P).
    assert (IP : flt K (f0 K) (finv K (fadd K v1 v2)) = true) by (apply flt_inv, P).
    split; [|split; [|split; [|split]]].
    - unfold noise_delta. split; apply flt_sub.
      + replace (fsub K _ _) with (fmul K (fmul K two v2) (finv K (fadd K v1 v2))) by (field; exact N). apply flt_mul_pos; [|exact IP]. apply flt_mul_pos; [exact two_pos|exact P2].
      + replace (fsub K _ _) with (fmul K (fmul K two v1) (finv K (fadd K v1 v2))) by (field; exact N). apply flt_mul_pos; [|exact IP]. apply flt_mul_pos; [exact two_pos|exact P1].
    - intros [|]; unfold noise_delta; [replace (fadd K v2 v1) with (fadd K v1 v2) by ring|]; field; assumption.
    - intros scale. split; [|intros ->; unfold noise_delta; destruct scale; field; assumption].
      intros E. assert (Z : fsub K v2 v1 = f0 K).
      { unfold noise_delta in E. destruct scale.
        - replace (fsub K v2 v1) with (fmul K (fadd K v1 v2) (fdiv K (fsub K v2 v1) (fadd K v1 v2))) by (field; exact N). rewrite E. ring.
        - replace (fsub K v2 v1) with (fmul K two (fdiv K (fsub K v2 v1) two)) by (field; exact T). rewrite E. ring. }
      replace v2 with (fadd K (fsub K v2 v1) v1) by ring. rewrite Z. ring.
    - intros sf E. unfold scale_factor in E. cbn in E. injection E as <-. unfold noise_delta. field. repeat split; assumption.
    - intros [|]; reflexivity.
  Qed.
End Mean.
Print Assumptions C77_noise_mean.
Print Assumptions C77_noise_mean_modes.
Print Assumptions C77_noise_delta.
(** Two pixels with noise of +1 or -1, independent; the signal is 3 and 5, the window 1 and 2. *)
Definition coin_outcome (a b : Z) : nat -> nat -> QcF := fun _ j => if j =? 0 then q a else q b.
Definition coins : experiment QcF := map (fun p => (fdiv QcF (q 1) (q 4), coin_outcome (fst p) (snd p))) [(1, 1); (1, -1); (-1, 1); (-1, -1)]%Z.
Definition coin_window : mat (Cx QcF) := Mat 1 2 (fun _ j => cz (if j =? 0 then 1 else 2) 0).
Example C77_example : camera_noise 1 2 (q 1) coins /\
  show (noise_level coin_window (q 1)) = (5, 1)%Z /\
  (let W := fun n => if n =? 2 then cz (-1) 0 else cz 1 0 in
   map (fun l => show (mean coins (fun n => cnorm2 (dft2_at W (frame coin_window (fun _ j => if j =? 0 then q 3 else q 5) n) 0 l)))) [0; 1] = [(174, 1); (54, 1)]%Z /\
   map (fun l => show (cnorm2 (dft2_at W (frame coin_window (fun _ j => if j =? 0 then q 3 else q 5) (fun _ _ => q 0)) 0 l))) [0; 1] = [(169, 1); (49, 1)]%Z) /\
  show_all show (let* v := noise_mean QcO [q 3; q 2] (q 4) "corr" in Ok [v]) = Ok [(1, 4)]%Z /\
  show_all show (let* v := noise_mean QcO [q 2; q 4] (q 4) "diff" in Ok [v]) = Ok [(1, 4)]%Z /\
  show (noise_delta QcF (STwo (q 1) (q 3)) true) = (1, 2)%Z.
Proof.
  split; [|vm_compute; repeat split].
  assert (E : forall x y : QcF, show x = show y -> x = y).
  { intros x y H. apply Qcanon.Qc_is_canon. unfold show in H. injection H as H1 H2. unfold QArith_base.Qeq. rewrite H1, H2. reflexivity. }
  split; [apply E; vm_compute; reflexivity|]. split.
  - intros i j Hi Hj. apply E. destruct i as [|i]; [|lia]. destruct j as [|[|j]]; [vm_compute; reflexivity..|lia].
  - intros i j i' j' Hi Hj Hi' Hj'. apply E. destruct i as [|i]; [|lia]. destruct i' as [|i']; [|lia]. destruct j as [|[|j]]; [| |lia]; (destruct j' as [|[|j']]; [vm_compute; reflexivity..|lia]).
Qed.
