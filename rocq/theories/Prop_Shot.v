(** C104: the noise of the camera. *)
From Coq Require Import QArith Qcanon String DecimalString DecimalNat.
From Coq Require Import ZifyBool ZifyNat.
From Verif Require Import Base KernelProofs Ordered SimModel SimProofs2 CoreProofs3 LevelProofs Archimedean Examples ShotModel Prop_Sim.
Set Implicit Arguments.
Local Open Scope nat_scope.

(** The mean of the values [f x] over equally likely draws [x], and their variance *)
Definition mean (K : OFld) A (l : list A) (f : A -> K) : K := fdiv K (Sum (fmon K) l f) (fnat K (length l)).
Definition variance (K : OFld) A (l : list A) (f : A -> K) : K :=
  mean K l (fun x => fmul K (fsub K (f x) (mean K l f)) (fsub K (f x) (mean K l f))).

Section Moments.
  Variable K : OFld.
  Add Field Knoise : (flaw K).
  Local Notation "x + y" := (fadd K x y).
  Local Notation "x * y" := (fmul K x y).
  Local Notation "x - y" := (fsub K x y).
  Local Notation S_ := (Sum (fmon K)).
  Ltac kring := match goal with |- @eq _ ?a ?b => change (@eq (fcar K) a b) end; ring.
  Lemma div_back (x n : K) : n <> f0 K -> x = fdiv K x n * n.
  Proof. intros H. field. exact H. Qed.
  Lemma div_times (c n : K) : n <> f0 K -> fdiv K (c * n) n = c.
  Proof. intros H. field. exact H. Qed.
  Lemma Sum_add A (l : list A) (f g : A -> K) : S_ l (fun x => f x + g x) = S_ l f + S_ l g.
  Proof. exact (Sum_madd (fmon K) l f g). Qed.
  Lemma Sum_const A (l : list A) (c : K) : S_ l (fun _ => c) = c * fnat K (length l).
  Proof. rewrite <- (Sum_ones K l), <- (Sum_fmul K l c (fun _ => f1 K)). apply Sum_ext. intros x _. kring. Qed.
  Lemma len_neq0 A (l : list A) : l <> [] -> fnat K (length l) <> f0 K.
  Proof. intros H. apply fnat_neq0. destruct l; [contradiction|]. discriminate. Qed.
  Lemma mean_sum A (l : list A) f : l <> [] -> S_ l f = mean K l f * fnat K (length l).
  Proof. intros H. unfold mean. apply div_back, (len_neq0 H). Qed.
  Lemma mean_of A (l : list A) f c : l <> [] -> S_ l f = c * fnat K (length l) -> mean K l f = c.
  Proof. intros H E. unfold mean. rewrite E. apply div_times, (len_neq0 H). Qed.
  Lemma mean_ext A (l : list A) f g : (forall x, In x l -> f x = g x) -> mean K l f = mean K l g.
  Proof. intros H. unfold mean. f_equal. apply Sum_ext. exact H. Qed.
  Lemma mean_const A (l : list A) c : l <> [] -> mean K l (fun _ => c) = c.
  Proof. intros H. apply mean_of; [exact H|]. apply Sum_const. Qed.
  (** a + b * f *)
  Lemma mean_affine A (l : list A) f a b : l <> [] -> mean K l (fun x => a + b * f x) = a + b * mean K l f.
  Proof. intros H. apply mean_of; [exact H|]. rewrite Sum_add, Sum_const, (Sum_fmul K l b f), (mean_sum f H). kring. Qed.
  Lemma variance_affine A (l : list A) f a b : l <> [] -> variance K l (fun x => a + b * f x) = b * b * variance K l f.
  Proof.
    intros H. unfold variance. rewrite (mean_affine f a b H).
    rewrite (mean_ext l _ (fun x => f0 K + (b * b) * ((f x - mean K l f) * (f x - mean K l f)))) by (intros x _; kring).
    rewrite mean_affine by exact H. kring.
  Qed.
  Lemma prod_nonnil A B (l : list A) (m : list B) : l <> [] -> m <> [] -> list_prod l m <> [].
  Proof. intros H1 H2. destruct l; [contradiction|]. destruct m; [contradiction|]. discriminate. Qed.
  Lemma mean_prod A B (l : list A) (m : list B) f g : l <> [] -> m <> [] ->
    mean K (list_prod l m) (fun p => f (fst p) + g (snd p)) = mean K l f + mean K m g.
  Proof.
    intros H1 H2. apply mean_of; [apply prod_nonnil; assumption|]. rewrite Sum_list_prod. cbn [fst snd].
    rewrite (Sum_ext (fmon K) l _ (fun a => f a * fnat K (length m) + S_ m g)) by (intros a _; rewrite Sum_add, Sum_const; reflexivity).
    rewrite Sum_add, Sum_const. rewrite (Sum_ext (fmon K) l _ (fun a => fnat K (length m) * f a)) by (intros a _; kring).
    rewrite (Sum_fmul K l (fnat K (length m)) f), (mean_sum f H1), (mean_sum g H2), prod_length.
    replace (fnat K (length l * length m)) with (fnat K (length l) * fnat K (length m)) by (symmetry; apply fnat_mul). kring.
  Qed.
  Lemma centred A (l : list A) f : l <> [] -> S_ l (fun x => f x - mean K l f) = f0 K.
  Proof. intros H. rewrite (Sum_fsub K l f (fun _ => mean K l f)), Sum_const, (mean_sum f H). kring. Qed.
  Lemma variance_prod A B (l : list A) (m : list B) f g : l <> [] -> m <> [] ->
    variance K (list_prod l m) (fun p => f (fst p) + g (snd p)) = variance K l f + variance K m g.
  Proof.
    intros H1 H2. unfold variance. rewrite (mean_prod f g H1 H2). set (mu := mean K l f). set (nu := mean K m g).
    set (F := fun a => f a - mu). set (G := fun b => g b - nu).
    assert (E1 : S_ l F = f0 K) by (apply centred; exact H1). assert (E2 : S_ m G = f0 K) by (apply centred; exact H2).
    change (mean K l (fun x => (f x - mu) * (f x - mu))) with (mean K l (fun x => F x * F x)).
    change (mean K m (fun x => (g x - nu) * (g x - nu))) with (mean K m (fun x => G x * G x)).
    rewrite <- (mean_prod (fun x => F x * F x) (fun x => G x * G x) H1 H2). unfold mean. f_equal. rewrite !Sum_list_prod. cbn [fst snd].
    rewrite (Sum_ext (fmon K) l _ (fun a => S_ m (fun b => F a * F a + G b * G b))).
    - reflexivity.
    - intros a _. transitivity (S_ m (fun b => (F a * F a + G b * G b) + ((f1 K + f1 K) * F a) * G b)).
      + apply Sum_ext. intros b _. unfold F, G. kring.
      + rewrite Sum_add, (Sum_fmul K m _ G), E2. kring.
  Qed.
  Lemma nonneg_cases (x : K) : fle (f0 K) x -> flt K (f0 K) x = true \/ x = f0 K.
  Proof. intros H. apply fle_cases in H. destruct H as [H|H]; [left; exact H|right; symmetry; exact H]. Qed.
  (** the part of one of the two draws *)
  Definition part (x : K) (d : nat) : K := if flt K (f0 K) x then fnat K d else f0 K.
  Lemma poisson_parts d e p r : shot_noise_poisson K d e p r = part p d + part r e.
  Proof. unfold shot_noise_poisson, part. destruct (flt K (f0 K) p), (flt K (f0 K) r); kring. Qed.
  Lemma part_moments x ds : ds <> [] -> fle (f0 K) x -> mean K ds (fun d => fnat K d) = x -> variance K ds (fun d => fnat K d) = x ->
    mean K ds (part x) = x /\ variance K ds (part x) = x.
  Proof.
    intros H0 H M V. destruct (nonneg_cases H) as [P|E].
    - unfold variance in *. unfold part. rewrite P. split; assumption.
    - assert (Z : mean K ds (part x) = f0 K). { rewrite (mean_ext ds (part x) (fun _ => f0 K)); [apply mean_const; exact H0|]. intros d _. unfold part. rewrite E, flt_irrefl. reflexivity. }
      split; [rewrite Z, E; reflexivity|]. unfold variance. rewrite Z, (mean_ext ds _ (fun _ => f0 K)); [rewrite E; apply mean_const; exact H0|]. intros d _. unfold part. rewrite E, flt_irrefl. kring.
  Qed.
  Lemma fnat_nonneg n : fle (f0 K) (fnat K n).
  Proof. destruct n; [apply fle_refl|]. apply flt_le, flt_fnat. discriminate. Qed.
  Lemma part_nonneg x d : fle (f0 K) (part x d).
  Proof. unfold part. destruct (flt K (f0 K) x); [apply fnat_nonneg|apply fle_refl]. Qed.
  Lemma gauss_comm (s g w : K) : s + g * w = s + w * g.
  Proof. kring. Qed.
  Lemma gauss_mean (s w : K) : s + w * f0 K = s.
  Proof. kring. Qed.
  Lemma sum_zero : f0 K + f0 K = f0 K.
  Proof. kring. Qed.
  Lemma gauss_var (s : K) : s * f1 K = s.
  Proof. kring. Qed.
End Moments.

(** Gaussian noise: when the draws have the mean 0 and the variance 1, the pixel has the signal as its mean and as its variance. *)
Theorem C104_gaussian (K : OFld) (root : K -> K) (gs : list K) (p r : K) : gs <> [] -> mean K gs (fun g => g) = f0 K -> variance K gs (fun g => g) = f1 K ->
  fle (f0 K) (fadd K p r) -> fmul K (root (fadd K p r)) (root (fadd K p r)) = fadd K p r ->
  exists pixel, (forall g, shot_noise_gaussian K root g p r = Some (pixel g)) /\
    mean K gs pixel = fadd K p r /\ variance K gs pixel = fadd K p r.
Proof.
  intros H0 M V HP HR. set (s := fadd K p r) in *. exists (fun g => fadd K s (fmul K (root s) g)). split.
  - intros g. unfold shot_noise_gaussian. fold s. unfold fle in HP. rewrite HP. f_equal. apply gauss_comm.
  - split.
    + rewrite (mean_affine K (fun g => g) s (root s) H0), M. apply gauss_mean.
    + rewrite (variance_affine K (fun g => g) s (root s) H0), V, HR. apply gauss_var.
Qed.
Print Assumptions C104_gaussian.

(** Poisson noise: when both draws have the moments of Poisson's distribution, and are independent, the pixel has the mean and the variance of Gaussian noise. *)
Theorem C104_poisson (K : OFld) (ds es : list nat) (p r : K) : ds <> [] -> es <> [] -> fle (f0 K) p -> fle (f0 K) r ->
  mean K ds (fun d => fnat K d) = p -> variance K ds (fun d => fnat K d) = p ->
  mean K es (fun e => fnat K e) = r -> variance K es (fun e => fnat K e) = r ->
  mean K (list_prod ds es) (fun x => shot_noise_poisson K (fst x) (snd x) p r) = fadd K p r /\
  variance K (list_prod ds es) (fun x => shot_noise_poisson K (fst x) (snd x) p r) = fadd K p r.
Proof.
  intros H1 H2 Hp Hr M1 V1 M2 V2. destruct (part_moments H1 Hp M1 V1) as [A1 B1]. destruct (part_moments H2 Hr M2 V2) as [A2 B2].
  assert (E : forall x, shot_noise_poisson K (fst x) (snd x) p r = fadd K (part K p (fst x)) (part K r (snd x))) by (intros x; apply poisson_parts).
  assert (M : mean K (list_prod ds es) (fun x => shot_noise_poisson K (fst x) (snd x) p r) = fadd K p r).
  { rewrite (mean_ext K _ _ (fun x => fadd K (part K p (fst x)) (part K r (snd x)))) by (intros x _; apply E). rewrite mean_prod by assumption. rewrite A1, A2. reflexivity. }
  split; [exact M|]. transitivity (variance K (list_prod ds es) (fun x => fadd K (part K p (fst x)) (part K r (snd x)))).
  - unfold variance. rewrite (mean_ext K (list_prod ds es) (fun x => shot_noise_poisson K (fst x) (snd x) p r) (fun x => fadd K (part K p (fst x)) (part K r (snd x)))) by (intros x _; apply E). apply mean_ext. intros x _. rewrite E. reflexivity.
  - rewrite variance_prod by assumption. rewrite B1, B2. reflexivity.
Qed.
Print Assumptions C104_poisson.

(** Poisson noise is never negative, and nothing is drawn for a signal that is zero or negative. *)
Theorem C104_poisson_counts (K : OFld) d e (p r : K) :
  fle (f0 K) (shot_noise_poisson K d e p r) /\
  (fle p (f0 K) -> fle r (f0 K) -> shot_noise_poisson K d e p r = f0 K) /\
  (fle p (f0 K) -> forall d', shot_noise_poisson K d e p r = shot_noise_poisson K d' e p r) /\
  (fle r (f0 K) -> forall e', shot_noise_poisson K d e p r = shot_noise_poisson K d e' p r).
Proof.
  split; [|split; [|split]].
  - rewrite poisson_parts. pose proof (fle_add2 (part_nonneg K p d) (part_nonneg K r e)) as H. rewrite sum_zero in H. exact H.
  - unfold fle. intros H1 H2. unfold shot_noise_poisson. rewrite H1, H2. reflexivity.
  - unfold fle. intros H1 d'. unfold shot_noise_poisson. rewrite H1. reflexivity.
  - unfold fle. intros H1 e'. unfold shot_noise_poisson. rewrite H1. reflexivity.
Qed.
Print Assumptions C104_poisson_counts.

(** The bit depth *)
Lemma substring_app s t : substring 0 (String.length s) (s ++ t)%string = s.
Proof. induction s as [|c s IH]; [destruct t; reflexivity|]. cbn. rewrite IH. reflexivity. Qed.
Lemma length_app_s s t : String.length (s ++ t) = String.length s + String.length t.
Proof. induction s as [|c s IH]; [reflexivity|]. cbn. rewrite IH. reflexivity. Qed.
Lemma to_uint_nonnil n : Nat.to_uint n <> Decimal.Nil.
Proof. intros E. pose proof (Unsigned.of_to n) as H. rewrite E in H. cbn in H. subst n. discriminate E. Qed.
Theorem C104_bit_depth n suffix : String.length suffix = 3 -> int_of (without_bit (NilZero.string_of_uint (Nat.to_uint n) ++ suffix)) = Ok n.
Proof.
  intros H. unfold without_bit. rewrite length_app_s, H. replace (String.length (NilZero.string_of_uint (Nat.to_uint n)) + 3 - 3) with (String.length (NilZero.string_of_uint (Nat.to_uint n))) by lia.
  rewrite substring_app. unfold int_of. rewrite NilZero.usu by apply to_uint_nonnil. rewrite Unsigned.of_to. reflexivity.
Qed.
Print Assumptions C104_bit_depth.
(** A bit depth without the three letters is refused when it has up to three characters. *)
Theorem C104_no_letters s : String.length s <= 3 -> int_of (without_bit s) = Raise ValueError.
Proof.
  intros H. unfold without_bit. replace (String.length s - 3) with 0 by lia. destruct s; reflexivity.
Qed.
Print Assumptions C104_no_letters.
(** Up to 16 bits every level is used; images of up to 8 bits are of the type uint8. *)
Theorem C104_levels n : n <= 16 -> snd (max_value_of n) = 2 ^ n - 1 /\ (fst (max_value_of n) = U8 <-> n <= 8).
Proof.
  intros H. assert (X : n = 0 \/ n = 1 \/ n = 2 \/ n = 3 \/ n = 4 \/ n = 5 \/ n = 6 \/ n = 7 \/ n = 8 \/ 9 <= n) by lia. unfold max_value_of.
  repeat (destruct X as [->|X]; [split; [reflexivity|]; split; [lia|reflexivity]|]).
  assert (A : 2 ^ 9 <= 2 ^ n) by (apply Nat.pow_le_mono_r; lia). assert (B : 2 ^ n <= 2 ^ 16) by (apply Nat.pow_le_mono_r; lia).
  assert (A' : 512 <= 2 ^ n) by exact A. set (m := 2 ^ n) in *.
  destruct (Nat.ltb_spec (m - 1) 256); [lia|]. cbn [fst snd]. split; [apply Nat.mod_small; lia|]. split; [discriminate|lia].
Qed.
Print Assumptions C104_levels.
(** More than 16 bits do not fit: np.uint16 keeps the lowest bits, and the image is one of 16 bits. *)
Theorem C104_more_bits n : 16 <= n -> max_value_of n = max_value_of 16.
Proof.
  intros H. unfold max_value_of. assert (B : 2 ^ n = 2 ^ 16 * 2 ^ (n - 16)) by (rewrite <- Nat.pow_add_r; f_equal; lia).
  assert (C : 2 ^ (n - 16) <> 0) by (apply Nat.pow_nonzero; discriminate).
  assert (D : 512 <= 2 ^ 16) by (change 512 with (2 ^ 9); apply Nat.pow_le_mono_r; lia).
  rewrite B. set (M := 2 ^ 16) in *. set (k := 2 ^ (n - 16)) in *.
  assert (M <= M * k) by nia. destruct (Nat.ltb_spec (M * k - 1) 256); [lia|]. destruct (Nat.ltb_spec (M - 1) 256); [lia|]. f_equal.
  replace (M * k - 1) with (M - 1 + (k - 1) * M) by nia. rewrite Nat.mod_add by lia. reflexivity.
Qed.
Print Assumptions C104_more_bits.

(** The whole conversion: a pixel for each pixel, of the levels of the bit depth, for Poisson noise and without noise whatever the signal, for Gaussian noise when the signal with the readout noise is not negative. *)
Theorem C104_adc (K : OFld) trunc root nan_pixel (frame : list (K * draws K)) saturation black_level n suffix readout model : truncates K trunc -> n <= 16 -> String.length suffix = 3 ->
  let bit_depth := (NilZero.string_of_uint (Nat.to_uint n) ++ suffix)%string in
  let image := noisy_adc trunc root nan_pixel frame saturation black_level bit_depth readout model in
  (image = Raise ValueError <-> ~ In model ["gaussian"; "poisson"; "none"]%string) /\
  (In model ["gaussian"; "poisson"; "none"]%string -> (model = "gaussian"%string -> forall p, In p frame -> fle (f0 K) (fadd K (fst p) readout)) ->
   exists t out, image = Ok (t, out) /\ (t = U8 <-> n <= 8) /\ length out = length frame /\ forall v, In v out -> v <= 2 ^ n - 1).
Proof.
  intros HT Hn Hs bit_depth image. subst bit_depth image. destruct (C104_levels Hn) as [L T].
  assert (B : forall x m, adc_clean K trunc x saturation black_level m <= m) by (intros x m; apply (@clip_bound K trunc HT)).
  unfold noisy_adc. rewrite (C104_bit_depth n suffix Hs). cbn [bind].
  assert (G : forall l : list (option K), length l = length frame -> (forall x, In x l -> x <> None) ->
    exists t out, Ok (fst (max_value_of n), map (fun x => adc_pixel K trunc nan_pixel x saturation black_level (snd (max_value_of n))) l) = Ok (t, out) /\ (t = U8 <-> n <= 8) /\ length out = length frame /\ forall v, In v out -> v <= 2 ^ n - 1).
  { intros l Hl HN. eexists _, _. split; [reflexivity|]. split; [exact T|]. split; [rewrite map_length; exact Hl|]. intros v Hv. apply in_map_iff in Hv. destruct Hv as (x & <- & Hx). destruct x as [x|]; [|destruct (HN None Hx eq_refl)]. cbn [adc_pixel]. rewrite L. apply B. }
  destruct (string_dec model "gaussian") as [->|N1].
  - cbn [bind]. split; [split; [discriminate|]; intros X; destruct X; left; reflexivity|]. intros _ HG. apply G; [apply map_length|]. intros x Hx. apply in_map_iff in Hx. destruct Hx as (p & <- & Hp). unfold shot_noise_gaussian.
    specialize (HG eq_refl p Hp). unfold fle in HG. rewrite HG. discriminate.
  - destruct (string_dec model "poisson") as [->|N2].
    + cbn [bind]. split; [split; [discriminate|]; intros X; destruct X; right; left; reflexivity|]. intros _ _. apply G; [apply map_length|]. intros x Hx. apply in_map_iff in Hx. destruct Hx as (p & <- & Hp). discriminate.
    + destruct (string_dec model "none") as [->|N3].
      * cbn [bind]. split; [split; [discriminate|]; intros X; destruct X; right; right; left; reflexivity|]. intros _ _. apply G; [apply map_length|]. intros x Hx. apply in_map_iff in Hx. destruct Hx as (p & <- & Hp). discriminate.
      * cbn [bind]. split; [split; [|reflexivity]; intros _ [E|[E|[E|[]]]]; congruence|]. intros [E|[E|[E|[]]]]; congruence.
Qed.
Print Assumptions C104_adc.

(** Without noise the readout noise is not used. *)
Theorem C104_none (K : OFld) trunc root nan_pixel (frame : list (K * draws K)) saturation black_level bit_depth r r' :
  noisy_adc trunc root nan_pixel frame saturation black_level bit_depth r "none" = noisy_adc trunc root nan_pixel frame saturation black_level bit_depth r' "none".
Proof. reflexivity. Qed.
Print Assumptions C104_none.

(** A dark frame stays black with Poisson noise, whatever is drawn, when there is no readout noise and the black level is not negative. *)
Theorem C104_dark (K : OFld) trunc root nan_pixel (frame : list (K * draws K)) saturation black_level n suffix readout : truncates K trunc -> flt K (f0 K) saturation = true -> n <= 16 -> String.length suffix = 3 ->
  fle (f0 K) black_level -> fle readout (f0 K) -> (forall p, In p frame -> fle (fst p) (f0 K)) ->
  exists t, noisy_adc trunc root nan_pixel frame saturation black_level (NilZero.string_of_uint (Nat.to_uint n) ++ suffix) readout "poisson" = Ok (t, repeat 0 (length frame)).
Proof.
  intros HT HS Hn Hs HB HR HF. unfold noisy_adc. rewrite (C104_bit_depth n suffix Hs). cbn [string_dec bind]. exists (fst (max_value_of n)).
  destruct (string_dec "poisson" "gaussian") as [X|_]; [discriminate X|]. destruct (string_dec "poisson" "poisson") as [_|X]; [|destruct (X eq_refl)]. cbn [bind]. do 2 f_equal.
  induction frame as [|p l IH]; [reflexivity|]. cbn [map length repeat]. f_equal; [|apply IH; intros q Hq; apply HF; right; exact Hq].
  cbn [adc_pixel]. destruct (C104_poisson_counts K (of_photons (snd p)) (of_readout (snd p)) (fst p) readout) as (_ & Z & _). rewrite Z; [|apply HF; left; reflexivity|exact HR].
  destruct (@C58_clean K trunc saturation black_level (snd (max_value_of n)) HT HS) as (_ & _ & Y & _). apply Y. exact HB.
Qed.
Print Assumptions C104_dark.
(** A signal that is negative, also after the readout noise was added, is not a number with Gaussian noise, and the pixel can be brighter than white. *)
Theorem C104_negative_refuted : exists (frame : list (QcO * draws QcO)) nan_pixel, nan_pixel < 2 ^ 8 /\
  noisy_adc (K := QcO) qtrunc (fun x => x) nan_pixel frame (q 100) (q 0) "4bit" (q 1) "gaussian" = Ok (U8, [nan_pixel]) /\ 2 ^ 4 - 1 < nan_pixel.
Proof. exists [(q (-2), Draws QcO (q 0) 0 0)], 128. split; [cbn; lia|]. split; [vm_compute; reflexivity|cbn; lia]. Qed.
Print Assumptions C104_negative_refuted.

(** Draws -1, 1 and a signal of 3 + 1 photons; draws 0, 2 and 2, 6 of 1 and 4 photons; 8 bits and 12 bits. *)
Example C104_example :
  mean QcO [q (-1); q 1] (fun g => g) = q 0 /\ variance QcO [q (-1); q 1] (fun g => g) = q 1 /\
  (let root := fun _ => q 2 in fmul QcO (root (q 4)) (root (q 4)) = q 4 /\ map (fun g => option_map this (shot_noise_gaussian QcO root g (q 3) (q 1))) [q (-1); q 1] = [Some (2 # 1)%Q; Some (6 # 1)%Q]) /\
  mean QcO [0; 2] (fun d => fnat QcO d) = q 1 /\ variance QcO [0; 2] (fun d => fnat QcO d) = q 1 /\
  mean QcO [2; 6] (fun d => fnat QcO d) = q 4 /\ variance QcO [2; 6] (fun d => fnat QcO d) = q 4 /\
  map (fun x => this (shot_noise_poisson QcO (fst x) (snd x) (q 1) (q 4))) (list_prod [0; 2] [2; 6]) = [2 # 1; 6 # 1; 4 # 1; 8 # 1]%Q /\
  noisy_adc (K := QcO) qtrunc (fun x => x) 0 [(q 50, Draws QcO (q 0) 40 20); (q 0, Draws QcO (q 0) 40 20); (q 300, Draws QcO (q 0) 280 1)] (q 200) (q 10) "8bit" (q 5) "poisson" = Ok (U8, [63; 12; 255]) /\
  max_value_of 12 = (U16, 4095) /\ int_of (without_bit "12bit") = Ok 12.
Proof. cbv zeta. repeat match goal with |- _ /\ _ => split end; try (vm_compute; reflexivity); apply Qc_is_canon; vm_compute; reflexivity. Qed.
