(** C96: the multiple-tau algorithm on arrays with any number of axes. *)
From Coq Require Import String ZifyBool ZifyNat.
From Verif Require Import Base Kernels KernelProofs CoreModel CoreProofs CoreApi VecModel VecProofs FftModel Examples NormModel CorrModel Prop_Norm1 NormArrayModel NormArrayProofs AxisModel AxisProofs AxisProofs2 AxisProofs3
  MultiModel MultiSpec MultiProofs MultiLevels Prop_Multi LevelArrayModel LevelArrayProofs MultiArrayModel MultiArrayProofs MultiArrayProofs2 MultiArrayProofs3 MultiArrayProofs4 MultiArrayProofs5.
Open Scope string_scope.
Open Scope nat_scope.
Open Scope list_scope.
Local Notation length := List.length.
Set Implicit Arguments.

(** The two tuples have the pixels [fr] (and the levels as first axis of the second one), each of them what [one]
    gives for it; they exist if no pixel alone is an error. *)
Definition pixel_results (K : Fld) (V : Type) (fr : list nat) (one : list nat -> res (cdata K V * list (cdata K V))) (r : res (ndata K V * ndata K V)) : Prop :=
  (forall fast slow, r = Ok (fast, slow) ->
     (exists m, all_shaped fast (fr ++ [m])) /\ (exists L m, all_shaped slow (L :: fr ++ [m])) /\
     forall p, valid p fr -> one p = Ok (pix fast p, levels_at slow p)) /\
  ((exists p, valid p fr) -> (forall p, valid p fr -> exists v, one p = Ok v) -> exists fast slow, r = Ok (fast, slow)).
Lemma pixelwise_results K V fr (one one' : list nat -> res (cdata K V * list (cdata K V))) r : (forall p, valid p fr -> one p = one' p) -> pixelwise fr (@both_at K V) (both_shaped fr) one' r -> pixel_results fr one r.
Proof.
  intros E H. split.
  - intros fast slow ->. destruct H as ((H1 & H2) & H). split; [exact H1|]. split; [exact H2|]. intros p Hp. rewrite (E p Hp). exact (H p Hp).
  - intros Ex Al. destruct r as [[fast slow]|e]; [exists fast, slow; reflexivity|]. destruct (H Ex). intros p Hp. rewrite <- (E p Hp). apply Al. exact Hp.
Qed.
(** With a mask: the pixels of the mask are what [one] gives for them, all others are filled with np.nan. *)
Definition masked_results (K : Fld) (V : Type) (nanv : V) (nank : K) (nanc : Cx K) (mask : nd bool) (one : list nat -> res (cdata K V * list (cdata K V))) (r : res (ndata K V * ndata K V)) : Prop :=
  let s := shape mask in
  (forall fast slow, r = Ok (fast, slow) ->
     (exists m, all_shaped fast (s ++ [m])) /\ (exists L m, all_shaped slow (L :: s ++ [m])) /\
     (forall p, valid p s -> at_ mask p = true -> one p = Ok (pix fast p, levels_at slow p)) /\
     (forall p, valid p s -> at_ mask p = false -> blank nanv nank nanc (pix fast p) /\ Forall (blank nanv nank nanc) (levels_at slow p))) /\
  ((exists p, valid p s /\ at_ mask p = true) -> (forall p, valid p s -> at_ mask p = true -> exists v, one p = Ok v) -> exists fast slow, r = Ok (fast, slow)).
Lemma pixelwise_masked K V nanv nank nanc mask (one : list nat -> res (cdata K V * list (cdata K V))) r :
  pixelwise [length (positions mask)] (fun d p => both_at d (nth (hd 0 p) (positions mask) [])) (masked_ok nanv nank nanc mask) (fun p => one (nth (hd 0 p) (positions mask) [])) r -> masked_results nanv nank nanc mask one r.
Proof.
  intros H. split.
  - intros fast slow ->. destruct H as (((H1 & H2) & H3) & H). split; [exact H1|]. split; [exact H2|]. split; [|exact H3].
    intros p Hp Hm. destruct (masked_place (Logic.conj Hp Hm)) as (i & Hi & <-). apply (H [i]). constructor; [exact Hi|constructor].
  - intros (p & Hp & Hm) Al. destruct r as [[fast slow]|e]; [exists fast, slow; reflexivity|]. destruct (masked_place (Logic.conj Hp Hm)) as (i & Hi & _). destruct H; [exists [i]; constructor; [exact Hi|constructor]|].
    intros q Hq. destruct (valid_line Hq) as (j & -> & Hj). cbn [hd]. destruct (place_masked _ Hj) as (V1 & V2). apply Al; assumption.
Qed.

Lemma frames_same axis a k : length k <> 1 -> a <= length k -> frames_ok axis a None k k /\ out_frame k k = k.
Proof.
  intros H Ha. assert (E : out_frame k k = k) by (unfold out_frame; rewrite Nat.sub_diag; reflexivity). split; [|exact E]. unfold frames_ok. rewrite E. unfold ReshapeModel.thread_frame_shape. destruct (Nat.eqb_spec (length k) 1); [contradiction|]. cbn [andb]. repeat split; auto.
Qed.
Lemma frames_divided axis h w d t : d <> 0 -> d * t = h * w -> frames_ok axis 0 (Some (Z.of_nat d)) [h; w] [d; t] /\ out_frame [h; w] [d; t] = [h; w].
Proof.
  intros Hd E. split; [|reflexivity]. unfold frames_ok, ReshapeModel.thread_frame_shape, ReshapeModel.prodl. cbn [length Nat.eqb andb fold_right out_frame app Nat.sub firstn size_of]. rewrite !Nat.mul_1_r.
  destruct (Z.eqb_spec (Z.of_nat d) 0); [lia|]. assert (Q : (Z.of_nat (h * w) / Z.of_nat d)%Z = Z.of_nat t) by (rewrite <- E, Nat2Z.inj_mul, Z.mul_comm, Z.div_mul by lia; reflexivity). rewrite Q. destruct (Z.eqb_spec (Z.of_nat (h * w)) (Z.of_nat d * Z.of_nat t)); [|lia]. repeat split; auto; lia.
Qed.
Lemma frames_line P : frames_ok 0 0 None [P] [1; P] /\ out_frame [P] [1; P] = [1; P].
Proof.
  split; [|reflexivity]. unfold frames_ok, ReshapeModel.thread_frame_shape, ReshapeModel.prodl. cbn [length Nat.eqb andb negb fold_right out_frame app Nat.sub firstn size_of]. rewrite !Nat.mul_1_r. cbn [Z.eqb]. rewrite Z.div_1_r. destruct (Z.eqb_spec (Z.of_nat P) (1 * Z.of_nat P)); [|lia]. repeat split; auto; cbn [size_of fold_right]; lia.
Qed.

Section Arrays.
  Variable K : Fld.
  Notation C := (Cx K).
  Variable W : nat -> C.
  Variables contigs contigs' : nat -> bool.
  Variable rs : nat -> nat -> bool.
  Variables (nank : K) (nanc : C).

  Lemma cross_calls R na (T1 T2 : option (list Z)) : exists aligned : nat -> bool, forall j f1 f2 n nm method f1s f2s aout a, let t1 := if j =? 0 then T1 else None in let t2 := if j =? 0 then T2 else None in
    norm_axis (rank f1) na = Ok a -> rank f1 = R -> shape f2 = shape f1 ->
    (forall s, f1s = Some s -> shape s = shape f1) -> (forall s, f2s = Some s -> shape s = shape f1) -> (forall d, aout = Some d -> shaped d (del a (shape f1))) ->
    pixelwise (del a (shape f1)) (@pix K K) (result_ok (@cross_alike K K) (Some nm) aout (Some n) false (del a (shape f1)))
      (fun p => ccorr W (aligned j) (series f1 a p) (series f2 a p) t1 t2 (Some n) (Some nm) (Some method) (option_map (fun s => series s a p) f1s) (option_map (fun s => series s a p) f2s) (option_map (fun d => pix d p) aout))
      (ccorr_nd W (contigs' j) (contigs j) f1 f2 t1 t2 na (Some n) (Some nm) false (Some method) f1s f2s aout).
  Proof. exists (choices contigs contigs' R na T1). intros j f1 f2 n nm method f1s f2s aout a t1 t2 Ea HR. unfold choices. rewrite <- HR. apply ccorr_pixels. exact Ea. Qed.
  Lemma complex_calls R na (T1 T2 : option (list Z)) : exists aligned : nat -> bool, forall j f1 f2 n nm method f1s f2s aout a, let t1 := if j =? 0 then T1 else None in let t2 := if j =? 0 then T2 else None in
    norm_axis (rank f1) na = Ok a -> rank f1 = R -> shape f2 = shape f1 ->
    (forall s, f1s = Some s -> shape s = shape f1) -> (forall s, f2s = Some s -> shape s = shape f1) -> (forall d, aout = Some d -> shaped d (del a (shape f1))) ->
    pixelwise (del a (shape f1)) (@pix K C) (result_ok (@cross_alike K C) (Some nm) aout (Some n) true (del a (shape f1)))
      (fun p => ccorr_complex W (aligned j) (series f1 a p) (series f2 a p) t1 t2 (Some n) (Some nm) (Some method) (option_map (fun s => series s a p) f1s) (option_map (fun s => series s a p) f2s) (option_map (fun d => pix d p) aout))
      (ccorr_complex_nd W (contigs' j) (contigs j) f1 f2 t1 t2 na (Some n) (Some nm) false (Some method) f1s f2s aout).
  Proof. exists (choices contigs contigs' R na T1). intros j f1 f2 n nm method f1s f2s aout a t1 t2 Ea HR. unfold choices. rewrite <- HR. apply ccorr_complex_pixels. exact Ea. Qed.
  Lemma auto_calls R na (T : option (list Z)) : exists aligned : nat -> bool, forall j f n nm method fs aout a, let t := if j =? 0 then T else None in
    norm_axis (rank f) na = Ok a -> rank f = R -> (forall s, fs = Some s -> shape s = shape f) -> (forall d, aout = Some d -> shaped d (del a (shape f))) ->
    pixelwise (del a (shape f)) (@pix K K) (result_ok (@auto_alike K K) (Some nm) aout (Some n) false (del a (shape f)))
      (fun p => acorr W (aligned j) (series f a p) t (option_map (fun s => series s a p) fs) (Some n) (Some nm) (Some method) (option_map (fun d => pix d p) aout))
      (acorr_nd W (contigs' j) (contigs j) f t fs na (Some n) (Some nm) false (Some method) aout).
  Proof. exists (choices contigs contigs' R na T). intros j f n nm method fs aout a t Ea HR. unfold choices. rewrite <- HR. apply acorr_pixels. exact Ea. Qed.

  Variables (period level_size : nat) (binning nlevel norm : option Z) (method : option string) (contig align : bool).
  Notation cross1 aligned f1 f2 a t1 t2 p := (ccorr_multi W aligned rs (series f1 a p) (series f2 a p) t1 t2 period level_size binning nlevel norm method) (only parsing).
  Notation complex1 aligned f1 f2 a t1 t2 p := (ccorr_multi_complex W aligned rs (series f1 a p) (series f2 a p) t1 t2 period level_size binning nlevel norm method) (only parsing).
  Notation auto1 aligned f a t p := (acorr_multi W aligned rs (series f a p) t period level_size binning nlevel norm method) (only parsing).
  Notation cross f1 f2 t1 t2 axis divisor mask := (ccorr_multi_nd W contigs contigs' rs nank nank nanc contig f1 f2 t1 t2 axis period level_size binning nlevel norm method align divisor mask) (only parsing).
  Notation complex f1 f2 t1 t2 axis divisor mask := (ccorr_multi_complex_nd W contigs contigs' rs nanc nank nanc contig f1 f2 t1 t2 axis period level_size binning nlevel norm method align divisor mask) (only parsing).
  Notation auto f t axis divisor mask := (acorr_multi_nd W contigs contigs' rs nank nank nanc contig f t axis period level_size binning nlevel norm method align divisor mask) (only parsing).

  Lemma cross_any (f1 f2 : nd C) t1 t2 axis divisor a k k' : norm_axis (rank f1) axis = Ok a -> shape f2 = shape f1 -> k = del a (shape f1) -> frames_ok axis a divisor k k' ->
    exists aligned, pixelwise (out_frame k k') (@both_at K K) (both_shaped (out_frame k k')) (fun q => cross1 aligned f1 f2 a t1 t2 (unravel k (out_frame k k') q)) (cross f1 f2 t1 t2 axis divisor None).
  Proof. intros. unfold ccorr_multi_nd, ccorr_multi. apply multi_cross_pixels; try assumption; [intros; apply cross_calls|]. intros na j g1 g2 u1 u2 n nm m s1 s2 aout d H'. eapply cross_not_bad. exact H'. Qed.
  Lemma complex_any (f1 f2 : nd C) t1 t2 axis divisor a k k' : norm_axis (rank f1) axis = Ok a -> shape f2 = shape f1 -> k = del a (shape f1) -> frames_ok axis a divisor k k' ->
    exists aligned, pixelwise (out_frame k k') (@both_at K C) (both_shaped (out_frame k k')) (fun q => complex1 aligned f1 f2 a t1 t2 (unravel k (out_frame k k') q)) (complex f1 f2 t1 t2 axis divisor None).
  Proof. intros. unfold ccorr_multi_complex_nd, ccorr_multi_complex. apply multi_cross_pixels; try assumption; [intros; apply complex_calls|]. intros na j g1 g2 u1 u2 n nm m s1 s2 aout d H'. eapply cross_not_bad. exact H'. Qed.
  Lemma auto_any (f : nd C) t axis divisor a k k' : norm_axis (rank f) axis = Ok a -> k = del a (shape f) -> frames_ok axis a divisor k k' ->
    exists aligned, pixelwise (out_frame k k') (@both_at K K) (both_shaped (out_frame k k')) (fun q => auto1 aligned f a t (unravel k (out_frame k k') q)) (auto f t axis divisor None).
  Proof. intros. unfold acorr_multi_nd, acorr_multi. apply multi_auto_pixels; try assumption; [intros; apply auto_calls|]. intros na j g u n nm m s1 aout d H'. eapply auto_not_bad. exact H'. Qed.

  (** Frames that do not have exactly one axis, the times along any axis: every pixel holds the multiple-tau data of its own
      two series. *)
  Theorem C96_cross (f1 f2 : nd C) t1 t2 axis a : norm_axis (rank f1) axis = Ok a -> shape f2 = shape f1 -> rank f1 <> 2 ->
    exists aligned aligned', pixel_results (del a (shape f1)) (fun p => cross1 aligned f1 f2 a t1 t2 p) (cross f1 f2 t1 t2 axis None None) /\
      pixel_results (del a (shape f1)) (fun p => complex1 aligned' f1 f2 a t1 t2 p) (complex f1 f2 t1 t2 axis None None).
  Proof.
    intros Ea E2 Hr. pose proof (axis_lt _ _ Ea) as La. unfold rank in *. pose proof (del_length (shape f1) La) as LD. destruct (@frames_same axis a (del a (shape f1))) as (F & E); [lia|lia|].
    destruct (@cross_any f1 f2 t1 t2 axis None a _ _ Ea E2 eq_refl F) as (al & H). destruct (@complex_any f1 f2 t1 t2 axis None a _ _ Ea E2 eq_refl F) as (al' & H'). rewrite E in H, H'.
    exists al, al'. split; (eapply pixelwise_results; [|first [exact H|exact H']]); intros p Hp; cbv beta; rewrite (unravel_id Hp); reflexivity.
  Qed.
  Theorem C96_auto (f : nd C) t axis a : norm_axis (rank f) axis = Ok a -> rank f <> 2 ->
    exists aligned, pixel_results (del a (shape f)) (fun p => auto1 aligned f a t p) (auto f t axis None None).
  Proof.
    intros Ea Hr. pose proof (axis_lt _ _ Ea) as La. unfold rank in *. pose proof (del_length (shape f) La) as LD. destruct (@frames_same axis a (del a (shape f))) as (F & E); [lia|lia|].
    destruct (@auto_any f t axis None a _ _ Ea eq_refl F) as (al & H). rewrite E in H. exists al. eapply pixelwise_results; [|exact H]. intros p Hp; cbv beta; rewrite (unravel_id Hp); reflexivity.
  Qed.
  (** A divisor of the number of pixels of a frame with two axes changes nothing. *)
  Theorem C96_divisor (f1 f2 : nd C) t1 t2 axis n h w d t : shape f1 = [n; h; w] -> shape f2 = [n; h; w] -> norm_axis 3 axis = Ok 0 -> d <> 0 -> d * t = h * w ->
    exists aligned aligned' aligned'', pixel_results [h; w] (fun p => cross1 aligned f1 f2 0 t1 t2 p) (cross f1 f2 t1 t2 axis (Some (Z.of_nat d)) None) /\
      pixel_results [h; w] (fun p => complex1 aligned' f1 f2 0 t1 t2 p) (complex f1 f2 t1 t2 axis (Some (Z.of_nat d)) None) /\
      pixel_results [h; w] (fun p => auto1 aligned'' f1 0 t1 p) (auto f1 t1 axis (Some (Z.of_nat d)) None).
  Proof.
    intros S1 S2 Ea Hd Hdt. destruct (@frames_divided axis h w d t Hd Hdt) as (F & E). assert (Ea' : norm_axis (rank f1) axis = Ok 0) by (unfold rank; rewrite S1; exact Ea). assert (Ek : [h; w] = del 0 (shape f1)) by (rewrite S1; reflexivity). assert (E2 : shape f2 = shape f1) by congruence.
    destruct (@cross_any f1 f2 t1 t2 axis _ 0 _ _ Ea' E2 Ek F) as (al & H). destruct (@complex_any f1 f2 t1 t2 axis _ 0 _ _ Ea' E2 Ek F) as (al' & H'). destruct (@auto_any f1 t1 axis _ 0 _ _ Ea' Ek F) as (al'' & H''). rewrite E in H, H', H''.
    exists al, al', al''. split; [|split]; (eapply pixelwise_results; [|first [exact H|exact H'|exact H'']]); intros p Hp; cbv beta; rewrite (unravel_id Hp); reflexivity.
  Qed.
  (** Frames with one axis, time first: the right data, behind an additional axis of length one. *)
  Theorem C96_one_axis (f1 f2 : nd C) t1 t2 n P : shape f1 = [n; P] -> shape f2 = [n; P] ->
    exists aligned aligned' aligned'', pixel_results [1; P] (fun p => cross1 aligned f1 f2 0 t1 t2 (tl p)) (cross f1 f2 t1 t2 0%Z None None) /\
      pixel_results [1; P] (fun p => complex1 aligned' f1 f2 0 t1 t2 (tl p)) (complex f1 f2 t1 t2 0%Z None None) /\
      pixel_results [1; P] (fun p => auto1 aligned'' f1 0 t1 (tl p)) (auto f1 t1 0%Z None None).
  Proof.
    intros S1 S2. destruct (frames_line P) as (F & E). assert (Ea' : norm_axis (rank f1) 0 = Ok 0) by (unfold rank; rewrite S1; reflexivity). assert (Ek : [P] = del 0 (shape f1)) by (rewrite S1; reflexivity). assert (E2 : shape f2 = shape f1) by congruence.
    destruct (@cross_any f1 f2 t1 t2 0%Z _ 0 _ _ Ea' E2 Ek F) as (al & H). destruct (@complex_any f1 f2 t1 t2 0%Z _ 0 _ _ Ea' E2 Ek F) as (al' & H'). destruct (@auto_any f1 t1 0%Z _ 0 _ _ Ea' Ek F) as (al'' & H''). rewrite E in H, H', H''.
    assert (U : forall p, valid p [1; P] -> unravel [P] [1; P] p = tl p). { intros p Hp. inversion Hp as [|x ? q ? Hx Hq]; subst. cbn [tl]. assert (x = 0) by lia. subst x. apply unravel_one. exact Hq. }
    exists al, al', al''. split; [|split]; (eapply pixelwise_results; [|first [exact H|exact H'|exact H'']]); intros p Hp; cbv beta; rewrite (U p Hp); reflexivity.
  Qed.
  Lemma cross_masked (f1 f2 : nd C) t1 t2 n mask : rank mask = 2 -> shape f1 = n :: shape mask -> shape f2 = shape f1 ->
    exists aligned, pixelwise [length (positions mask)] (fun d p => both_at d (nth (hd 0 p) (positions mask) [])) (masked_ok nank nank nanc mask) (fun p => cross1 aligned f1 f2 0 t1 t2 (nth (hd 0 p) (positions mask) [])) (cross f1 f2 t1 t2 0%Z None (Some mask)).
  Proof. intros. unfold ccorr_multi_nd, ccorr_multi. eapply masked_cross_pixels; try eassumption; [intros; apply cross_calls|]. intros na j g1 g2 u1 u2 n0 nm m s1 s2 aout d H'. eapply cross_not_bad. exact H'. Qed.
  Lemma complex_masked (f1 f2 : nd C) t1 t2 n mask : rank mask = 2 -> shape f1 = n :: shape mask -> shape f2 = shape f1 ->
    exists aligned, pixelwise [length (positions mask)] (fun d p => both_at d (nth (hd 0 p) (positions mask) [])) (masked_ok nanc nank nanc mask) (fun p => complex1 aligned f1 f2 0 t1 t2 (nth (hd 0 p) (positions mask) [])) (complex f1 f2 t1 t2 0%Z None (Some mask)).
  Proof. intros. unfold ccorr_multi_complex_nd, ccorr_multi_complex. eapply masked_cross_pixels; try eassumption; [intros; apply complex_calls|]. intros na j g1 g2 u1 u2 n0 nm m s1 s2 aout d H'. eapply cross_not_bad. exact H'. Qed.
  Lemma auto_masked (f : nd C) t n mask : rank mask = 2 -> shape f = n :: shape mask -> 
    exists aligned, pixelwise [length (positions mask)] (fun d p => both_at d (nth (hd 0 p) (positions mask) [])) (masked_ok nank nank nanc mask) (fun p => auto1 aligned f 0 t (nth (hd 0 p) (positions mask) [])) (auto f t 0%Z None (Some mask)).
  Proof. intros. unfold acorr_multi_nd, acorr_multi. eapply masked_auto_pixels; try eassumption; [intros; apply auto_calls|]. intros na j g u n0 nm m s1 aout d H'. eapply auto_not_bad. exact H'. Qed.
  (** A mask with two axes *)
  Theorem C96_mask (f1 f2 : nd C) t1 t2 n mask : rank mask = 2 -> shape f1 = n :: shape mask -> shape f2 = shape f1 ->
    exists aligned aligned' aligned'', masked_results nank nank nanc mask (fun p => cross1 aligned f1 f2 0 t1 t2 p) (cross f1 f2 t1 t2 0%Z None (Some mask)) /\
      masked_results nanc nank nanc mask (fun p => complex1 aligned' f1 f2 0 t1 t2 p) (complex f1 f2 t1 t2 0%Z None (Some mask)) /\
      masked_results nank nank nanc mask (fun p => auto1 aligned'' f1 0 t1 p) (auto f1 t1 0%Z None (Some mask)).
  Proof.
    intros HR S1 E2. destruct (@cross_masked f1 f2 t1 t2 n mask HR S1 E2) as (al & H). destruct (@complex_masked f1 f2 t1 t2 n mask HR S1 E2) as (al' & H'). destruct (@auto_masked f1 t1 n mask HR S1) as (al'' & H'').
    exists al, al', al''. split; [apply pixelwise_masked; exact H|]. split; [apply pixelwise_masked; exact H'|apply pixelwise_masked; exact H''].
  Qed.
  (** A mask is only accepted with the time on the first axis, and with the shape of the frames. *)
  Theorem C96_mask_refused (f1 f2 : nd C) axis a divisor mask m bn nm nm' : norm_axis (rank f1) axis = Ok a -> shape f2 = shape f1 ->
    _default_method_and_binning method binning = Ok (m, bn) -> _default_norm norm m true = Ok nm -> _default_norm norm m false = Ok nm' ->
    (a <> 0 -> cross f1 f2 None None axis divisor (Some mask) = Raise ValueError /\ complex f1 f2 None None axis divisor (Some mask) = Raise ValueError /\
      auto f1 None axis divisor (Some mask) = Raise ValueError) /\
    (a = 0 -> firstn (rank mask) (tl (shape f1)) <> shape mask ->
      cross f1 f2 None None axis divisor (Some mask) = Raise IndexError /\ complex f1 f2 None None axis divisor (Some mask) = Raise IndexError /\
      auto f1 None axis divisor (Some mask) = Raise IndexError).
  Proof.
    intros Ea E2 EM EN EN'.
    assert (RI : forall f : nd C, rank f = rank f1 -> shape f = shape f1 -> (a <> 0 -> reshape_input_nd f axis divisor (Some mask) = Raise ValueError) /\
      (a = 0 -> firstn (rank mask) (tl (shape f1)) <> shape mask -> reshape_input_nd f axis divisor (Some mask) = Raise IndexError)).
    { intros f HR HS. unfold reshape_input_nd. rewrite HR, Ea. cbn [bind]. split; intros Ha.
      - replace (a =? 0) with false by (symmetry; apply Nat.eqb_neq; exact Ha). reflexivity.
      - subst a. intros Hm. cbn [Nat.eqb negb]. unfold mask_frames. rewrite HS. destruct (shape f1) as [|n s]; [reflexivity|]. cbn [tl] in Hm.
        destruct (list_eq_dec Nat.eq_dec s (shape mask)) as [E|E]; [|reflexivity]. exfalso. apply Hm. rewrite E. unfold rank. apply firstn_all. }
    assert (R0 : (rank f1 =? 0) = false). { unfold norm_axis in Ea. destruct (rank f1) eqn:E; [|reflexivity]. exfalso. destruct ((- Z.of_nat 0 <=? axis) && (axis <? Z.of_nat 0))%Z%bool eqn:B; [lia|discriminate]. }
    assert (SE : (if list_eq_dec Nat.eq_dec (shape f1) (shape f2) then false else true) = false) by (destruct (list_eq_dec Nat.eq_dec (shape f1) (shape f2)) as [_|X]; [reflexivity|destruct X; congruence]).
    destruct (RI f1 eq_refl eq_refl) as [A B].
    split; intros Ha; [specialize (A Ha); clear B|intros Hm; specialize (B Ha Hm); clear A];
      (split; [|split]); [unfold ccorr_multi_nd|unfold ccorr_multi_complex_nd|unfold acorr_multi_nd|unfold ccorr_multi_nd|unfold ccorr_multi_complex_nd|unfold acorr_multi_nd];
      unfold multi_cross_nd, multi_auto_nd; rewrite EM; cbn [bind]; rewrite ?EN, ?EN'; cbn [bind]; rewrite R0, ?SE; cbn [orb]; unfold inspect_cross, inspect_auto; cbn [bind]; rewrite ?A, ?B; reflexivity.
  Qed.
  (** What this means with the default binning: level l+1 of a pixel is the correlation of its block means over 2^(l+1) frames. *)
  Theorem C96_block_means (f1 f2 : nd C) t1 t2 axis a m nm fast slow : norm_axis (rank f1) axis = Ok a -> shape f2 = shape f1 -> rank f1 <> 2 ->
    cross f1 f2 t1 t2 axis None None = Ok (fast, slow) -> _default_method_and_binning method binning = Ok (m, BINNING_MEAN) -> _default_norm norm m true = Ok nm ->
    exists aligned, forall p, valid p (del a (shape f1)) ->
      (forall l, l < hd 0 (first_shape slow) ->
        ccorr W (aligned (S l)) (block_means (cgrp K) (S l) (series f1 a p)) (block_means (cgrp K) (S l) (series f2 a p)) None None (Some level_size) (Some nm) (Some m)
          (option_map (block_means (fgrp K) (S l)) (squares_arg nm m (series f1 a p))) (option_map (block_means (fgrp K) (S l)) (squares_arg nm m (series f2 a p)))
          (Some (slow_row K (f0 K) false true (negb (String.eqb m "diff")) nm level_size)) = Ok (pix (level_data slow l) p)).
  Proof.
    intros Ea E2 Hr H EM EN. destruct (@C96_cross f1 f2 t1 t2 axis a Ea E2 Hr) as (al & _ & (HP & _) & _). exists al. intros p Hp l Hl. destruct (HP fast slow H) as (_ & _ & H1).
    assert (LS : length (levels_at slow p) = hd 0 (first_shape slow)) by (unfold levels_at; rewrite map_length, seq_length; reflexivity).
    pose proof (@C29_cross_mean K K (f0 K) false (ccorr W) al rs _ _ t1 t2 period level_size binning nlevel norm method m nm _ _ (H1 p Hp) EM EN l) as Q. rewrite LS in Q. rewrite (Q Hl). f_equal.
    unfold levels_at. rewrite (nth_indep _ DBad (pix (level_data slow 0) p)) by (rewrite map_length, seq_length; exact Hl). rewrite (map_nth (fun l => pix (level_data slow l) p)), seq_nth by exact Hl. reflexivity.
  Qed.
End Arrays.
Print Assumptions C96_cross.
Print Assumptions C96_auto.
Print Assumptions C96_divisor.
Print Assumptions C96_one_axis.
Print Assumptions C96_mask.
Print Assumptions C96_mask_refused.
Print Assumptions C96_block_means.

(** Twelve frames of two by two pixels (and of one line of two pixels), the time along any axis *)
Definition yval (k : Z) (t i j : nat) : Cx QcF := cz (Z.of_nat (t * t mod 7 + 3 * i + j) + k) (k * Z.of_nat t - Z.of_nat j).
Definition yfirst k : nd (Cx QcF) := Nd [12; 2; 2] (fun p => match p with [t; i; j] => yval k t i j | _ => c0 QcF end).
Definition ymid k : nd (Cx QcF) := Nd [2; 12; 2] (fun p => match p with [i; t; j] => yval k t i j | _ => c0 QcF end).
Definition ylast k : nd (Cx QcF) := Nd [2; 2; 12] (fun p => match p with [i; j; t] => yval k t i j | _ => c0 QcF end).
Definition yline k : nd (Cx QcF) := Nd [12; 2] (fun p => match p with [t; j] => yval k t 0 j | _ => c0 QcF end).
Definition yturned k : nd (Cx QcF) := Nd [2; 12] (fun p => match p with [j; t] => yval k t 0 j | _ => c0 QcF end).
Definition ymask : nd bool := Nd [2; 2] (fun p => match p with [0; 1] => true | [1; 0] => true | [1; 1] => true | _ => false end).
Definition yall (_ : nat) := true.
Definition ycross f1 f2 axis divisor mask := ccorr_multi_nd nW yall yall no_rs (q 99) (q 99) (cz 99 0) true f1 f2 None None axis 1 5 None None (Some 1%Z) None false divisor mask.
Definition yshow (r : res (ndata QcF QcF * ndata QcF QcF)) ps :=
  match r with Ok (a, b) => Some (first_shape a, first_shape b, map (fun p => (show_cor (pix a p), map show_cor (levels_at b p))) ps) | Raise _ => None end.
Definition yerr (r : res (ndata QcF QcF * ndata QcF QcF)) := match r with Ok _ => None | Raise e => Some e end.

(** The pixel (1, 0) alone; the arrays with the time along any of the three axes, divided for threads; the array with a mask *)
Example C96_example :
  let one := ([(1526, 1); (2684, 1); (2331, 1); (1965, 1); (1654, 1)], [[(3021, 4); (1166, 1); (818, 1); (538, 1); (577, 2)]])%Z in
  (exists c1 c2, show_rows (ccorr_multi nW no_al no_rs (series (yfirst 1) 0 [1; 0]) (series (yfirst 2) 0 [1; 0]) None None 1 5 None None (Some 1%Z) None) = Some (fst one, c1, snd one, c2)) /\
  yshow (ycross (yfirst 1) (yfirst 2) 0 None None) [[1; 0]] = Some ([2; 2; 5], [1; 2; 2; 5], [one]) /\
  yshow (ycross (ymid 1) (ymid 2) (-2) None None) [[1; 0]] = Some ([2; 2; 5], [1; 2; 2; 5], [one]) /\
  yshow (ycross (ylast 1) (ylast 2) (-1) None None) [[1; 0]] = Some ([2; 2; 5], [1; 2; 2; 5], [one]) /\
  yshow (ycross (yfirst 1) (yfirst 2) 0 (Some 4%Z) None) [[1; 0]] = Some ([2; 2; 5], [1; 2; 2; 5], [one]) /\
  yshow (ycross (yfirst 1) (yfirst 2) 0 None (Some ymask)) [[0; 0]; [1; 0]] = Some ([2; 2; 5], [1; 2; 2; 5], [(repeat (99, 1)%Z 5, [repeat (99, 1)%Z 5]); one]).
Proof. split; [do 2 eexists; vm_compute; reflexivity|]. vm_compute. repeat split. Qed.

(** Documented: "axis : int, optional. Axis over which to calculate". For frames with one axis only the axis 0 can be
    used. With the pixels first, axis 1 gives numbers that belong to no pixel, and -1 is an error; -2, the same axis as 0, is an error too. *)
Definition yfirsts (r : res (ndata QcF QcF * ndata QcF QcF)) ps :=
  match r with Ok (a, b) => Some (first_shape a, first_shape b, map (fun p => hd (0, 0)%Z (show_cor (pix a p))) ps) | Raise _ => None end.
Theorem C96_axis_refuted : exists f1 f2 g1 g2 : nd (Cx QcF),
  shape f1 = [12; 2] /\ shape g1 = [2; 12] /\ (forall j t, at_ g1 [j; t] = at_ f1 [t; j] /\ at_ g2 [j; t] = at_ f2 [t; j]) /\
  yfirsts (ycross f1 f2 0 None None) [[0; 0]; [0; 1]] = Some ([1; 2; 5], [1; 1; 2; 5], [(1172, 1); (1080, 1)]%Z) /\
  yfirsts (ycross g1 g2 1 None None) [[0; 0]; [0; 1]] = Some ([1; 2; 5], [1; 1; 2; 5], [(976, 1); (1276, 1)]%Z) /\
  yerr (ycross g1 g2 (-1) None None) = Some AssertionError /\ yerr (ycross f1 f2 (-2) None None) = Some AssertionError.
Proof. exists (yline 1), (yline 2), (yturned 1), (yturned 2). split; [reflexivity|]. split; [reflexivity|]. split; [split; reflexivity|]. vm_compute. repeat split. Qed.
Print Assumptions C96_axis_refuted.
(** Documented: "thread_divisor : int, optional. If specified, input frame is reshaped to 2D with first axis of length
    specified with the argument", "mask : ndarray, optional. If specified, computation is done only over elements
    specified by the mask. The rest of elements are not computed". Frames with one axis and a divisor above one,
    masks with one axis are errors; a mask with the divisor 3 is an error and with the divisor 1 gives an axis too many. *)
Theorem C96_divisor_refuted : exists f1 f2 : nd (Cx QcF), shape f1 = [12; 2] /\ shape f2 = [12; 2] /\
  yerr (ycross f1 f2 0 (Some 2%Z) None) = Some ValueError /\ yerr (ycross f1 f2 0 None (Some (Nd [2] (fun _ => true)))) = Some ValueError.
Proof. exists (yline 1), (yline 2). vm_compute. repeat split. Qed.
Print Assumptions C96_divisor_refuted.
Theorem C96_mask_divisor_refuted : exists (f1 f2 : nd (Cx QcF)) mask, shape f1 = [12; 2; 2] /\ shape mask = [2; 2] /\
  yerr (ycross f1 f2 0 (Some 3%Z) (Some mask)) = Some ValueError /\
  exists l, yfirsts (ycross f1 f2 0 (Some 1%Z) (Some mask)) l = Some ([1; 2; 2; 5], [1; 1; 2; 2; 5], []).
Proof. exists (yfirst 1), (yfirst 2), ymask. split; [reflexivity|]. split; [reflexivity|]. split; [vm_compute; reflexivity|exists []; vm_compute; reflexivity]. Qed.
Print Assumptions C96_mask_divisor_refuted.
(** A mask with three axes: with one level the axis of the levels is lost, with two levels it is an error *)
Theorem C96_mask_axes_refuted : exists (f1 f2 g1 g2 : nd (Cx QcF)) mask, shape f1 = 12 :: shape mask /\ shape g1 = 20 :: shape mask /\ shape mask = [1; 2; 2] /\
  yfirsts (ycross f1 f2 0 None None) [] = Some ([1; 2; 2; 5], [1; 1; 2; 2; 5], []) /\ yfirsts (ycross f1 f2 0 None (Some mask)) [] = Some ([1; 2; 2; 5], [1; 2; 2; 5], []) /\
  yfirsts (ycross g1 g2 0 None None) [] = Some ([1; 2; 2; 5], [2; 1; 2; 2; 5], []) /\ yerr (ycross g1 g2 0 None (Some mask)) = Some ValueError.
Proof.
  set (f k n := Nd [n; 1; 2; 2] (fun p => match p with [t; _; i; j] => yval k t i j | _ => c0 QcF end)).
  exists (f 1%Z 12), (f 2%Z 12), (f 1%Z 20), (f 2%Z 20), (Nd [1; 2; 2] (fun p => match p with [_; i; j] => at_ ymask [i; j] | _ => false end)). vm_compute. repeat split.
Qed.
Print Assumptions C96_mask_axes_refuted.
