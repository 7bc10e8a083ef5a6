(** C93: correlations of arrays with the time along any axis. *)
From Coq Require Import String.
From Verif Require Import Base Kernels CoreModel CoreProofs CoreApi PairSpec FftModel Examples NormModel CorrModel CorrSpec CorrProofs CorrProofs2 Prop_Norm1
  NormArrayModel NormArrayProofs Prop_NormArray AxisModel AxisProofs AxisProofs2 AxisProofs3.
Open Scope string_scope.
Open Scope nat_scope.
Local Notation length := List.length.
Set Implicit Arguments.

Section Arrays.
  Variable K : Fld.
  Notation C := (Cx K).
  Variable W : nat -> C.

  (** Cross-correlations and differences: every pixel is the correlation of its two series alone, whatever the
      axis of the times; [aligned] stands for the algorithm that is chosen. *)
  Theorem C93_cross contig (f1 f2 : nd C) t1 t2 axis n align aout aoutc :
    let aligned := _is_aligned contig (rank f1) axis align in
    every_pixel f1 f2 axis aout (fun x y o => cross_correlate x y t1 t2 n aligned o) (cross_correlate_nd contig f1 f2 t1 t2 axis n align aout) /\
    sized f1 f2 axis aout n false (cross_correlate_nd contig f1 f2 t1 t2 axis n align aout) /\
    every_pixel f1 f2 axis aoutc (fun x y o => cross_correlate_complex x y t1 t2 n aligned o) (cross_correlate_complex_nd contig f1 f2 t1 t2 axis n align aoutc) /\
    sized f1 f2 axis aoutc n true (cross_correlate_complex_nd contig f1 f2 t1 t2 axis n align aoutc) /\
    every_pixel f1 f2 axis aout (fun x y o => cross_difference x y t1 t2 n aligned o) (cross_difference_nd contig f1 f2 t1 t2 axis n align aout) /\
    sized f1 f2 axis aout n false (cross_difference_nd contig f1 f2 t1 t2 axis n align aout).
  Proof.
    intros aligned. destruct (@cross_correlate_pixels K contig f1 f2 t1 t2 axis n align aout) as (A1 & A2). destruct (@cross_correlate_complex_pixels K contig f1 f2 t1 t2 axis n align aoutc) as (B1 & B2). destruct (@cross_difference_pixels K contig f1 f2 t1 t2 axis n align aout) as (D1 & D2). exact (Logic.conj A1 (Logic.conj A2 (Logic.conj B1 (Logic.conj B2 (Logic.conj D1 D2))))).
  Qed.
  Theorem C93_auto contig (f : nd C) t axis n align aout aoutc :
    let aligned := _is_aligned contig (rank f) axis align in
    every_pixel f f axis aout (fun x _ o => auto_correlate x t n aligned o) (auto_correlate_nd contig f t axis n align aout) /\
    sized f f axis aout n false (auto_correlate_nd contig f t axis n align aout) /\
    every_pixel f f axis aoutc (fun x _ o => auto_correlate_complex x t n aligned o) (auto_correlate_complex_nd contig f t axis n align aoutc) /\
    sized f f axis aoutc n false (auto_correlate_complex_nd contig f t axis n align aoutc) /\
    every_pixel f f axis aout (fun x _ o => auto_difference x t n aligned o) (auto_difference_nd contig f t axis n align aout) /\
    sized f f axis aout n false (auto_difference_nd contig f t axis n align aout).
  Proof.
    intros aligned. destruct (@auto_correlate_pixels K contig f t axis n align aout) as (A1 & A2). destruct (@auto_correlate_complex_pixels K contig f t axis n align aoutc) as (B1 & B2). destruct (@auto_difference_pixels K contig f t axis n align aout) as (D1 & D2). exact (Logic.conj A1 (Logic.conj A2 (Logic.conj B1 (Logic.conj B2 (Logic.conj D1 D2))))).
  Qed.
  Theorem C93_fft (f1 f2 : nd C) t1 t2 axis n aout aoutc :
    every_pixel f1 f2 axis aout (fun x y o => cross_correlate_fft W x y t1 t2 n o) (cross_correlate_fft_nd W f1 f2 t1 t2 axis n aout) /\
    sized f1 f2 axis aout n false (cross_correlate_fft_nd W f1 f2 t1 t2 axis n aout) /\
    every_pixel f1 f2 axis aoutc (fun x y o => cross_correlate_fft_complex W x y t1 t2 n o) (cross_correlate_fft_complex_nd W f1 f2 t1 t2 axis n aoutc) /\
    sized f1 f2 axis aoutc n true (cross_correlate_fft_complex_nd W f1 f2 t1 t2 axis n aoutc) /\
    every_pixel f1 f1 axis aout (fun x _ o => auto_correlate_fft W x t1 n o) (auto_correlate_fft_nd W f1 t1 axis n aout) /\
    sized f1 f1 axis aout n false (auto_correlate_fft_nd W f1 t1 axis n aout) /\
    every_pixel f1 f1 axis aoutc (fun x _ o => auto_correlate_fft_complex W x t1 n o) (auto_correlate_fft_complex_nd W f1 t1 axis n aoutc) /\
    sized f1 f1 axis aoutc n false (auto_correlate_fft_complex_nd W f1 t1 axis n aoutc).
  Proof.
    destruct (@cross_correlate_fft_pixels K W f1 f2 t1 t2 axis n aout) as (A1 & A2). destruct (@cross_correlate_fft_complex_pixels K W f1 f2 t1 t2 axis n aoutc) as (B1 & B2). destruct (@auto_correlate_fft_pixels K W f1 t1 axis n aout) as (D1 & D2). destruct (@auto_correlate_fft_complex_pixels K W f1 t1 axis n aoutc) as (E1 & E2).
    exact (Logic.conj A1 (Logic.conj A2 (Logic.conj B1 (Logic.conj B2 (Logic.conj D1 (Logic.conj D2 (Logic.conj E1 E2))))))).
  Qed.
  (** Sums of real or complex data *)
  Theorem C93_sums (G : QGrp) (toC : G -> C) (back : C -> G) (f : nd G) t t_other axis n complex inv aout :
    every_pixel f f axis aout (fun x _ o => cross_sum G x t t_other n complex inv o) (cross_sum_nd G f t t_other axis n complex inv aout) /\
    sized f f axis aout n complex (cross_sum_nd G f t t_other axis n complex inv aout) /\
    every_pixel f f axis aout (fun x _ o => auto_sum G x t n o) (auto_sum_nd G f t axis n aout) /\
    sized f f axis aout n false (auto_sum_nd G f t axis n aout) /\
    every_pixel f f axis aout (fun x _ o => run_cross_sum_fft W G toC back x t t_other n complex inv o) (cross_sum_fft_nd G W toC back f t t_other axis n complex inv aout) /\
    sized f f axis aout n complex (cross_sum_fft_nd G W toC back f t t_other axis n complex inv aout) /\
    every_pixel f f axis aout (fun x _ o => run_auto_sum_fft W G toC back x t n o) (auto_sum_fft_nd G W toC back f t axis n aout) /\
    sized f f axis aout n false (auto_sum_fft_nd G W toC back f t axis n aout).
  Proof.
    destruct (@cross_sum_pixels G f t t_other axis n complex inv aout) as (A1 & A2). destruct (@auto_sum_pixels G f t axis n aout) as (B1 & B2). destruct (@cross_sum_fft_pixels G K W toC back f t t_other axis n complex inv aout) as (D1 & D2). destruct (@auto_sum_fft_pixels G K W toC back f t axis n aout) as (E1 & E2).
    exact (Logic.conj A1 (Logic.conj A2 (Logic.conj B1 (Logic.conj B2 (Logic.conj D1 (Logic.conj D2 (Logic.conj E1 E2))))))).
  Qed.

  (** ** ccorr and acorr *)
  (** The data tuple [r] has the pixels [fr], each of them what [one] gives for it, and there is one if no
      pixel alone is an error.  A new tuple has the same number of delays everywhere, and so has one that a
      regular tuple is added to. *)
  Definition tuple_of (V : Type) (fr : list nat) (aout : option (ndata K V)) (n : option nat) (complex : bool) (one : list nat -> res (cdata K V)) (r : res (ndata K V)) : Prop :=
    (forall d, r = Ok d -> shaped d fr /\ (forall p, valid p fr -> one p = Ok (pix d p)) /\
       (aout = None -> exists m, wf d fr m /\ forall k, n = Some k -> m = if complex then 2 * k - 1 else k) /\
       (forall d0 m, aout = Some d0 -> d0 <> NBad _ _ -> wf d0 fr m -> match n with Some k => m = (if complex then 2 * k - 1 else k) | None => complex = true -> Nat.Odd m end -> wf d fr m)) /\
    ((exists p, valid p fr) -> (forall p, valid p fr -> exists v, one p = Ok v) -> exists d, r = Ok d).
  Lemma tuple_pixelwise V al norm fr (aout : option (ndata K V)) n complex one r : pixelwise fr (@pix K V) (result_ok al norm aout n complex fr) one r -> tuple_of fr aout n complex one r.
  Proof.
    intros H. split.
    - intros d ->. destruct H as ((HS & _ & N & (D1 & D2) & HW) & H). split; [exact HS|]. split; [exact H|]. split.
      + intros ->. exists (if complex then 2 * N - 1 else N). split; [apply HW; [reflexivity|discriminate]|]. intros k Hk. rewrite (D1 k Hk). reflexivity.
      + intros d0 m -> Hb Hd Hm. apply HW; [|intros d' E; injection E as <-; exact Hd]. destruct n as [k|].
        * rewrite (D1 k eq_refl). exact Hm.
        * rewrite (D2 d0 fr m eq_refl eq_refl Hd Hb). destruct complex; [|reflexivity]. destruct (Hm eq_refl) as (j & ->). replace (2 * j + 1 + 1) with ((j + 1) * 2) by lia. rewrite Nat.div_mul by lia. lia.
    - intros Ex Al. destruct r as [d|e]; [eexists; reflexivity|]. destruct (H Ex Al).
  Qed.
  Theorem C93_ccorr contig contig' f1 f2 t1 t2 axis n norm align method f1s f2s aout aoutc a :
    norm_axis (rank f1) axis = Ok a -> shape f2 = shape f1 ->
    (forall s, f1s = Some s -> shape s = shape f1) -> (forall s, f2s = Some s -> shape s = shape f1) ->
    (forall d, aout = Some d -> shaped d (del a (shape f1))) -> (forall d, aoutc = Some d -> shaped d (del a (shape f1))) ->
    let fr := del a (shape f1) in
    let squares s p := option_map (fun s => series s a p) s in
    exists aligned : bool,
    tuple_of fr aout n false (fun p => ccorr W aligned (series f1 a p) (series f2 a p) t1 t2 n norm method (squares f1s p) (squares f2s p) (option_map (fun d => pix d p) aout))
      (ccorr_nd W contig' contig f1 f2 t1 t2 axis n norm align method f1s f2s aout) /\
    tuple_of fr aoutc n true (fun p => ccorr_complex W aligned (series f1 a p) (series f2 a p) t1 t2 n norm method (squares f1s p) (squares f2s p) (option_map (fun d => pix d p) aoutc))
      (ccorr_complex_nd W contig' contig f1 f2 t1 t2 axis n norm align method f1s f2s aoutc).
  Proof.
    intros Ea E2 H1 H2 H3 H4 fr squares. exists (chosen contig contig' (rank f1) axis align t1). split; eapply tuple_pixelwise; [apply ccorr_pixels|apply ccorr_complex_pixels]; assumption.
  Qed.
  Theorem C93_acorr contig contig' f t fs axis n norm align method aout a :
    norm_axis (rank f) axis = Ok a -> (forall s, fs = Some s -> shape s = shape f) -> (forall d, aout = Some d -> shaped d (del a (shape f))) ->
    exists aligned : bool,
    tuple_of (del a (shape f)) aout n false (fun p => acorr W aligned (series f a p) t (option_map (fun s => series s a p) fs) n norm method (option_map (fun d => pix d p) aout))
      (acorr_nd W contig' contig f t fs axis n norm align method aout).
  Proof.
    intros Ea H1 H3. exists (chosen contig contig' (rank f) axis align t). eapply tuple_pixelwise, acorr_pixels; assumption.
  Qed.

  (** ** The layout does not matter *)
  Lemma series_length A (f : nd A) a p : length (series f a p) = nth a (shape f) 0.
  Proof. unfold series. rewrite map_length, seq_length. reflexivity. Qed.
  (** A new correlation tuple: for any axis, layout and alignment it exists and every pixel holds the sums over the pairs
      of samples of that pixel. *)
  Theorem C93_layout contig contig' (f1 f2 : nd C) t1 t2 axis N norm nm align method m a :
    norm_axis (rank f1) axis = Ok a -> shape f2 = shape f1 -> (exists p, valid p (del a (shape f1))) ->
    match t1, t2 with
    | None, None => N <= nth a (shape f1) 0 + 1
    | Some u1, Some u2 => length u1 = nth a (shape f1) 0 /\ length u2 = nth a (shape f1) 0 /\ 0 < nth a (shape f1) 0
    | _, _ => False
    end ->
    _default_method method (Some N) = Ok m -> _default_norm norm m true = Ok nm ->
    (forall p, valid p (del a (shape f1)) -> method_ok W m (series f1 a p) (series f2 a p) t1 t2 N) ->
    exists d, ccorr_nd W contig' contig f1 f2 t1 t2 axis (Some N) norm align method None None None = Ok d /\ wf d (del a (shape f1)) N /\
      forall p, valid p (del a (shape f1)) ->
        let P i := pairs_at i (samples (series f1 a p) t1) (samples (series f2 a p) t2) in
        pix d p = corr_tuple (plus_cells (fmon K) (repeat (f0 K) N) (fun i => Sum (fmon K) (P i) (@re_prod K))) None None None None N nm P.
  Proof.
    intros Ea E2 Ex HT Hm HN HM.
    destruct (@C93_ccorr contig contig' f1 f2 t1 t2 axis (Some N) norm align method None None None None a Ea E2) as (al & (Q1 & Q2) & _); try (intros; discriminate).
    assert (HP : forall p, valid p (del a (shape f1)) -> let P i := pairs_at i (samples (series f1 a p) t1) (samples (series f2 a p) t2) in
      ccorr W al (series f1 a p) (series f2 a p) t1 t2 (Some N) norm method None None None = Ok (corr_tuple (plus_cells (fmon K) (repeat (f0 K) N) (fun i => Sum (fmon K) (P i) (@re_prod K))) None None None None N nm P)).
    { intros p Hp P. apply (@ccorr_tuple K W al (series f1 a p) (series f2 a p) t1 t2 (Some N) norm nm method m None None None None None None None None N); try exact Logic.I; try assumption; try reflexivity; try (intros s E; discriminate E).
      - split; [rewrite !series_length, E2; reflexivity|]. destruct t1 as [u1|], t2 as [u2|]; try contradiction; [|exact Logic.I]. rewrite !series_length, E2. destruct HT as (H1 & H2 & H3). split; [exact H1|]. split; [exact H2|]. intros E. apply (f_equal (@length C)) in E. rewrite series_length in E. cbn in E. lia.
      - apply HM. exact Hp.
      - split; [reflexivity|exact Logic.I].
      - intros E. subst t1. rewrite series_length. destruct t2; [contradiction|]. exact HT. }
    destruct (Q2 Ex) as (d & Ed). { intros p Hp. eexists. apply HP. exact Hp. }
    exists d. split; [exact Ed|]. destruct (Q1 d Ed) as (_ & R2 & R3 & _). split.
    - destruct (R3 eq_refl) as (k & Hk & En). rewrite (En N eq_refl) in Hk. exact Hk.
    - intros p Hp P. specialize (R2 p Hp). cbn [option_map] in R2. rewrite (HP p Hp) in R2. injection R2 as R2. symmetry. exact R2.
  Qed.

  (** ** Correlation and normalization *)
  (** ccorr of two arrays and normalize of its tuple: every pixel of the result is the normalized correlation
      of that pixel alone. *)
  Theorem C93_pipeline (O : NormOps K K) denoise contig contig' f1 f2 t1 t2 axis n norm0 align method a d background variance norm mode scale out :
    (forall l, length (denoise l) = length l) ->
    norm_axis (rank f1) axis = Ok a -> shape f2 = shape f1 ->
    ccorr_nd W contig' contig f1 f2 t1 t2 axis n norm0 align method None None None = Ok d ->
    stat_ok background (del a (shape f1)) -> stat_ok variance (del a (shape f1)) ->
    normalize_nd O denoise d background variance norm mode scale None None = Ok out ->
    exists aligned m, shape out = (del a (shape f1) ++ [m])%list /\ forall p, valid p (del a (shape f1)) ->
      exists c, ccorr W aligned (series f1 a p) (series f2 a p) t1 t2 n norm0 method None None None = Ok c /\
        normalize O denoise c (stat_at background p) (stat_at variance p) norm mode scale None = Ok (row out p).
  Proof.
    intros HD Ea E2 Ed Hb Hv En.
    destruct (@C93_ccorr contig contig' f1 f2 t1 t2 axis n norm0 align method None None None None a Ea E2) as (al & (Q1 & _) & _); try (intros; discriminate).
    destruct (Q1 d Ed) as (_ & R2 & R3 & _). destruct (R3 eq_refl) as (m & Hm & _). exists al, m.
    pose proof (@C92_pixels K K O denoise d background variance norm mode scale None None (del a (shape f1)) (del a (shape f1)) m (fun p => p) HD ltac:(split; reflexivity) Hm Hb Hv Logic.I) as P. cbv zeta in P. rewrite En in P. destruct P as (S1 & P). split; [exact S1|]. intros p Hp. exists (pix d p). split; [apply (R2 p Hp)|apply (P p Hp)].
  Qed.

  (** ** Errors *)
  Lemma mid_rank r c : norm_axis r (-2) = Ok c -> 1 < r /\ c = r - 2.
  Proof. intros E. assert (H : 1 < r). { unfold norm_axis in E. destruct (Z.leb_spec (- Z.of_nat r) (-2)); [|discriminate E]. lia. } split; [exact H|]. rewrite (axis_mid H) in E. injection E as E. lia. Qed.
  Lemma two_last A (l : list A) : 1 < length l -> exists d u w, l = (d ++ [u; w])%list /\ length d = length l - 2.
  Proof.
    intros H. destruct (@split_last _ l (length l - 1)) as (d & w & -> & Ld); [lia|]. destruct (@split_last _ d (length d - 1)) as (d' & u & -> & Ld'); [rewrite app_length in *; cbn in *; lia|].
    exists d', u, w. rewrite <- app_assoc. split; [reflexivity|]. rewrite !app_length in *. cbn in *. lia.
  Qed.
  (** An output array has the pixels of the data, or is refused *)
  Lemma out_shape B (zero : B) o s n na complex r c : norm_axis (length s) na = Ok c -> na = (-1)%Z \/ na = (-2)%Z -> _default_out_nd zero (Some o) s n na complex = Ok r -> exists m, shape o = (del c s ++ [m])%list.
  Proof.
    intros Ec Hn. unfold _default_out_nd. rewrite Ec. cbn [bind]. unfold shape_at. destruct (norm_axis (length (shape o)) (-1)) as [l|] eqn:El; [|discriminate]. cbn [bind]. pose proof (axis_lt _ _ El) as Hl. pose proof (axis_lt _ _ Ec) as Hc.
    unfold _transpose_data. destruct Hn as [E|E]; subst na.
    - destruct (@split_last _ (shape o) (length (shape o) - 1)) as (d & w & Eo & Ld); [lia|]. destruct (@keep_last _ o d w Eo) as (y & -> & Sy & _). cbn [bind]. destruct (list_eq_dec _ _ _) as [E|]; [|discriminate]. intros _. rewrite Sy in E. rewrite axis_last in Ec by lia. injection Ec as Ec. subst c.
      exists w. rewrite Eo. unfold del. rewrite skipn_all2 in E |- * by lia. rewrite app_nil_r. apply app_inj_tail in E. destruct E as [<- _]. reflexivity.
    - destruct (mid_rank _ Ec) as (H2 & ->). destruct (@two_last _ s H2) as (s' & v & x & Es & Ls). destruct (moveaxis o (-2) (-1)) as [y|] eqn:Ey; [|discriminate]. cbn [bind]. destruct (list_eq_dec _ _ _) as [E|]; [|discriminate]. intros _.
      assert (H3 : 1 < length (shape o)). { unfold moveaxis, rank in Ey. destruct (norm_axis (length (shape o)) (-2)) as [k|] eqn:Ek; [|discriminate Ey]. apply (mid_rank _ Ek). }
      destruct (@two_last _ (shape o) H3) as (o' & u & w & Eo & Lo). destruct (@swap_last _ o o' u w Eo) as (y' & Ey' & Sy & _). rewrite Ey in Ey'. injection Ey' as ->. rewrite Sy in E. rewrite Eo. rewrite <- Ls in E |- *. rewrite Es in E |- *. rewrite firstn_end, skipn_S in E by reflexivity. rewrite del_mid by reflexivity. exists w.
      replace (o' ++ [w; u])%list with ((o' ++ [w]) ++ [u])%list in E by (rewrite <- app_assoc; reflexivity). match type of E with _ = (s' ++ ?z :: [x])%list => replace (s' ++ [z; x])%list with ((s' ++ [z]) ++ [x])%list in E by (rewrite <- app_assoc; reflexivity) end.
      apply app_inj_tail in E. destruct E as [E ->]. apply app_inj_tail in E. destruct E as [-> _]. rewrite <- app_assoc. reflexivity.
  Qed.
  Lemma run_out A B T (zero : B) complex always inspect over_last (kernel1 : T -> _) kernel2 (f1 f2 : nd A) axis o r a : norm_axis (rank f1) axis = Ok a ->
    run_nd zero complex always inspect over_last kernel1 kernel2 f1 f2 axis (Some o) = Ok r -> exists m, shape o = (del a (shape f1) ++ [m])%list.
  Proof.
    intros Ea. unfold run_nd. destruct (_ || _)%bool; [discriminate|]. destruct (shape_at (shape o) (-1)) as [al|]; [|discriminate]. cbn [bind]. destruct (inspect _ _) as [[ts n]|]; [|discriminate]. cbn [bind]. pose proof (axis_lt _ _ Ea) as La. pose proof (del_length (shape f1) La) as LD.
    destruct ((rank f1 <=? 1) || over_last ts)%bool eqn:EB.
    - destruct (@move_any _ f1 axis a always Ea) as (g & -> & Sg & _). cbn [bind]. match goal with |- context [bind ?m _] => destruct m; [|discriminate] end. cbn [bind]. destruct (_default_out_nd _ _ _ _ _ _) eqn:EO; [|discriminate]. intros _.
      assert (Lg : 0 < length (shape g)) by (rewrite Sg, app_length; cbn; lia). apply (@out_shape _ _ _ _ _ _ _ _ (length (shape g) - 1)) in EO; [|apply axis_last; exact Lg|left; reflexivity]. rewrite Sg, app_length in EO. cbn [length] in EO. replace (_ + 1 - 1) with (length (del a (shape f1))) in EO by lia. rewrite del_end in EO by reflexivity. exact EO.
    - apply Bool.orb_false_iff in EB. destruct EB as [EB _]. apply Nat.leb_gt in EB. unfold rank in *. destruct (@split_last _ (del a (shape f1)) (length (shape f1) - 2)) as (d & w & D & Ld); [lia|].
      destruct (@move_mid _ f1 axis a d w always Ea D) as (g & -> & Sg & _). cbn [bind]. match goal with |- context [bind ?m _] => destruct m; [|discriminate] end. cbn [bind]. destruct (_default_out_nd _ _ _ _ _ _) eqn:EO; [|discriminate]. intros _.
      assert (Lg : 1 < length (shape g)) by (rewrite Sg, app_length; cbn; lia). apply (@out_shape _ _ _ _ _ _ _ _ (length (shape g) - 2)) in EO; [|apply axis_mid; exact Lg|right; reflexivity]. rewrite Sg, app_length in EO. cbn [length] in EO. replace (_ + 2 - 2) with (length d) in EO by lia. rewrite del_mid in EO by reflexivity. rewrite D. exact EO.
  Qed.
  (** Wrong output arrays: whatever function, a result means that the output array has the pixels of the data *)
  Theorem C93_out contig (f1 f2 : nd C) t1 t2 axis n align o oc a complex inv (g : nd K) :
    norm_axis (rank f1) axis = Ok a -> shape g = shape f1 ->
    let pixels (B : Type) (o : nd B) (r : res (nd B)) := forall out, r = Ok out -> exists m, shape o = (del a (shape f1) ++ [m])%list in
    pixels K o (cross_correlate_nd contig f1 f2 t1 t2 axis n align (Some o)) /\ pixels C oc (cross_correlate_complex_nd contig f1 f2 t1 t2 axis n align (Some oc)) /\
    pixels K o (cross_difference_nd contig f1 f2 t1 t2 axis n align (Some o)) /\ pixels K o (auto_correlate_nd contig f1 t1 axis n align (Some o)) /\
    pixels C oc (auto_correlate_complex_nd contig f1 t1 axis n align (Some oc)) /\ pixels K o (auto_difference_nd contig f1 t1 axis n align (Some o)) /\
    pixels K o (cross_correlate_fft_nd W f1 f2 t1 t2 axis n (Some o)) /\ pixels C oc (cross_correlate_fft_complex_nd W f1 f2 t1 t2 axis n (Some oc)) /\
    pixels K o (auto_correlate_fft_nd W f1 t1 axis n (Some o)) /\ pixels C oc (auto_correlate_fft_complex_nd W f1 t1 axis n (Some oc)) /\
    pixels K o (cross_sum_nd (fgrp K) g t1 t2 axis n complex inv (Some o)) /\ pixels C oc (cross_sum_nd (cgrp K) f1 t1 t2 axis n complex inv (Some oc)) /\
    pixels K o (auto_sum_nd (fgrp K) g t1 axis n (Some o)) /\ pixels C oc (auto_sum_nd (cgrp K) f1 t1 axis n (Some oc)).
  Proof.
    intros Ea Eg pixels. assert (Ea' : norm_axis (rank g) axis = Ok a) by (unfold rank in *; rewrite Eg; exact Ea). repeat split; intros out E; first [exact (run_out _ _ _ _ _ _ _ _ _ _ _ Ea E)|rewrite <- Eg; exact (run_out _ _ _ _ _ _ _ _ _ _ _ Ea' E)].
  Qed.
  Theorem C93_shapes contig contig' (f1 f2 : nd C) t1 t2 axis n norm align method f1s f2s aout aout' nm m :
    (rank f1 = 0 \/ shape f1 <> shape f2) ->
    cross_correlate_nd contig f1 f2 t1 t2 axis n align aout = Raise ValueError /\ cross_difference_nd contig f1 f2 t1 t2 axis n align aout = Raise ValueError /\
    cross_correlate_fft_nd W f1 f2 t1 t2 axis n aout = Raise ValueError /\
    (_default_method method n = Ok m -> _default_norm norm m true = Ok nm -> ccorr_nd W contig' contig f1 f2 t1 t2 axis n norm align method f1s f2s aout' = Raise ValueError).
  Proof.
    intros H. assert (E : ((rank f1 =? 0) || (if list_eq_dec Nat.eq_dec (shape f1) (shape f2) then false else true))%bool = true). { destruct H as [H|H]; [rewrite H; reflexivity|]. destruct (list_eq_dec _ _ _); [contradiction|]. apply Bool.orb_true_r. }
    split; [|split; [|split]]; try (unfold cross_correlate_nd, cross_difference_nd, cross_correlate_fft_nd, run_cross_nd, run_cross_fft_nd, run_nd; rewrite E; reflexivity).
    intros Hm Hn. unfold ccorr_nd, ccorr_nd_gen. rewrite Hm. cbn [bind]. rewrite Hn. cbn [bind]. rewrite Bool.andb_false_r. unfold unpack_aout_nd. destruct aout' as [[d c sq s1 s2|d c s1 s2|]|], (String.eqb m "diff"); cbn [bind]; rewrite ?E; reflexivity.
  Qed.
  (** ccorr and acorr refuse an axis that the array does not have *)
  Theorem C93_axis contig contig' (f1 f2 : nd C) t1 t2 axis n norm align method f1s f2s fs aout aout' e :
    norm_axis (rank f1) axis = Raise e ->
    (forall r, ccorr_nd W contig' contig f1 f2 t1 t2 axis n norm align method f1s f2s aout <> Ok r) /\
    (forall r, ccorr_complex_nd W contig' contig f1 f2 t1 t2 axis n norm align method f1s f2s aout' <> Ok r) /\
    (forall r, acorr_nd W contig' contig f1 t1 fs axis n norm align method aout <> Ok r).
  Proof.
    intros E. assert (S : shape_at (shape f1) axis = Raise e) by (unfold shape_at; unfold rank in E; rewrite E; reflexivity).
    split; [|split]; intros r; unfold ccorr_nd, ccorr_complex_nd, acorr_nd, ccorr_nd_gen, acorr_nd_gen; rewrite S;
      destruct (_default_method method n) as [m|]; cbn [bind]; try discriminate; destruct (_default_norm norm m _) as [nm|]; cbn [bind]; try discriminate.
    - destruct (_ && _)%bool; [discriminate|]. destruct (unpack_aout_nd _ _) as [[[[[cor count] sq] s1] s2]|]; cbn [bind]; [|discriminate]. destruct (_ || _)%bool; [discriminate|]. destruct (match cor with None => Ok None | Some o => _ end); cbn [bind]; [|discriminate]. destruct (inspect_cross _ _ _ _ _ _) as [[? ?]|]; cbn [bind]; discriminate.
    - destruct (_ && _)%bool; [discriminate|]. destruct (unpack_aout_nd _ _) as [[[[[cor count] sq] s1] s2]|]; cbn [bind]; [|discriminate]. destruct (_ || _)%bool; [discriminate|]. destruct (match cor with None => Ok None | Some o => _ end); cbn [bind]; [|discriminate]. destruct (inspect_cross _ _ _ _ _ _) as [[? ?]|]; cbn [bind]; discriminate.
    - destruct (unpack_aout_nd _ _) as [[[[[cor count] sq] s1] s2]|]; cbn [bind]; [|discriminate]. destruct (_ =? _); [discriminate|]. destruct (match cor with None => Ok None | Some o => _ end); cbn [bind]; [|discriminate]. destruct (inspect_auto _ _ _ _) as [[? ?]|]; cbn [bind]; discriminate.
  Qed.
  (** So do the functions by Fourier transform, also for one-dimensional data *)
  Theorem C93_axis_fft (G : QGrp) (toC : G -> C) (back : C -> G) (f1 f2 : nd C) (g : nd G) t1 t2 axis n complex inv aout aoutc aoutg e :
    norm_axis (rank f1) axis = Raise e -> rank g = rank f1 ->
    (forall r, cross_correlate_fft_nd W f1 f2 t1 t2 axis n aout <> Ok r) /\ (forall r, cross_correlate_fft_complex_nd W f1 f2 t1 t2 axis n aoutc <> Ok r) /\
    (forall r, auto_correlate_fft_nd W f1 t1 axis n aout <> Ok r) /\ (forall r, auto_correlate_fft_complex_nd W f1 t1 axis n aoutc <> Ok r) /\
    (forall r, cross_sum_fft_nd G W toC back g t1 t2 axis n complex inv aoutg <> Ok r) /\ (forall r, auto_sum_fft_nd G W toC back g t1 axis n aoutg <> Ok r).
  Proof.
    assert (R : forall A B T (zero : B) cx (inspect : res nat -> option nat -> res (T * nat)) over k1 k2 (x y : nd A) (o : option (nd B)) r, norm_axis (rank x) axis = Raise e -> run_nd zero cx true inspect over k1 k2 x y axis o <> Ok r).
    { intros A B T zero cx inspect over k1 k2 x y o r E. unfold run_nd. destruct (_ || _)%bool; [discriminate|]. destruct (match o with None => Ok None | Some o => _ end); cbn [bind]; [|discriminate]. destruct (inspect _ _) as [[ts m]|]; cbn [bind]; [|discriminate]. unfold moveaxis. rewrite E. discriminate. }
    intros E Eg. assert (E' : norm_axis (rank g) axis = Raise e) by (rewrite Eg; exact E). repeat split; intros r; apply R; assumption.
  Qed.
  (** The mean square difference has no complex version *)
  Theorem C93_complex_diff contig contig' (f1 f2 : nd C) t1 t2 axis n norm align method f1s f2s aout nm :
    _default_method method n = Ok "diff" -> _default_norm norm "diff" true = Ok nm -> ccorr_complex_nd W contig' contig f1 f2 t1 t2 axis n norm align method f1s f2s aout = Raise ValueError.
  Proof. intros Hm Hn. unfold ccorr_complex_nd, ccorr_nd_gen. rewrite Hm. cbn [bind]. rewrite Hn. reflexivity. Qed.
  (** The functions for data with the time in contiguous memory are used if the caller asks to align the data or if
      the time is the last axis of contiguous data. *)
  Theorem C93_aligned contig r axis align a : norm_axis r axis = Ok a -> _is_aligned contig r axis align = true <-> align = true \/ contig = true /\ S a = r.
  Proof.
    unfold norm_axis, _is_aligned. intros E. rewrite Bool.orb_true_iff, Bool.andb_true_iff, Bool.orb_true_iff, !Z.eqb_eq. destruct (_ && _)%bool eqn:B in E; [|discriminate]. apply Bool.andb_true_iff in B. injection E as E. destruct B as (B1 & B2). apply Z.leb_le in B1. apply Z.ltb_lt in B2. assert (A : (axis = -1 \/ axis = Z.of_nat r - 1)%Z <-> S a = r) by (subst a; destruct (Z.ltb_spec axis 0); lia). rewrite A. tauto.
  Qed.
End Arrays.
Print Assumptions C93_axis_fft.
Print Assumptions C93_complex_diff.
Print Assumptions C93_aligned.
Print Assumptions C93_cross.
Print Assumptions C93_auto.
Print Assumptions C93_fft.
Print Assumptions C93_sums.
Print Assumptions C93_ccorr.
Print Assumptions C93_acorr.
Print Assumptions C93_layout.
Print Assumptions C93_pipeline.
Print Assumptions C93_shapes.
Print Assumptions C93_axis.
Print Assumptions C93_out.

(** Four frames of a 3 by 2 video for each of two cameras: time along the first, the middle or the last axis *)
Definition xval (k : Z) (t i j : nat) : Cx QcF := (q (Z.of_nat (3 * t * t + 2 * i + j) + k), q (k * Z.of_nat t - Z.of_nat j)).
Definition xfirst k : nd (Cx QcF) := Nd [4; 3; 2] (fun p => match p with [t; i; j] => xval k t i j | _ => c0 QcF end).
Definition xmid k : nd (Cx QcF) := Nd [3; 4; 2] (fun p => match p with [i; t; j] => xval k t i j | _ => c0 QcF end).
Definition xlast k : nd (Cx QcF) := Nd [3; 2; 4] (fun p => match p with [i; j; t] => xval k t i j | _ => c0 QcF end).
Definition xshow (r : res (nd QcF)) := match r with Ok o => Some (shape o, map (fun p => map show (row o p)) (indices (removelast (shape o)))) | Raise _ => None end.
Definition xtuple (r : res (ndata QcF QcF)) := match r with Ok d => Some (map (fun p => match pix d p with DCorr c n sq s1 s2 => (map show c, n, option_map (map show) sq, option_map (@length _) s1) | _ => ([], [], None, None) end) [[0; 0]; [2; 1]]) | Raise _ => None end.
Definition xpixels := Some ([3; 2; 3], [[(1044, 1); (935, 1); (308, 1)]; [(1130, 1); (1052, 1); (394, 1)]; [(1252, 1); (1223, 1); (516, 1)];
                                        [(1354, 1); (1364, 1); (618, 1)]; [(1492, 1); (1559, 1); (756, 1)]; [(1610, 1); (1724, 1); (874, 1)]]%Z).
Example C93_example :
  norm_axis (rank (xmid 1)) (-2) = Ok 1 /\ shape (xmid 2) = shape (xmid 1) /\ valid [2; 1] (del 1 (shape (xmid 1))) /\
  method_ok nW "corr" (series (xmid 1) 1 [2; 1]) (series (xmid 2) 1 [2; 1]) None None 3 /\
  xshow (cross_correlate_nd true (xlast 1) (xlast 2) None None (-1) (Some 3) false None) = xpixels /\
  xshow (cross_correlate_nd false (xfirst 1) (xfirst 2) None None 0 (Some 3) false None) = xpixels /\
  xshow (cross_correlate_nd false (xmid 1) (xmid 2) None None (-2) (Some 3) true None) = xpixels /\
  xshow (cross_correlate_nd false (xfirst 1) (xfirst 2) (Some [0; 1; 2; 3]%Z) (Some [0; 1; 2; 3]%Z) 0 (Some 3) false None) = xpixels /\
  xtuple (ccorr_nd nW true false (xfirst 1) (xfirst 2) None None 0 (Some 3) (Some 7%Z) false (Some "corr") None None None) =
  xtuple (ccorr_nd nW false true (xlast 1) (xlast 2) None None 2 (Some 3) (Some 7%Z) true (Some "corr") None None None) /\
  xtuple (ccorr_nd nW true false (xfirst 1) (xfirst 2) None None 0 (Some 3) (Some 7%Z) false (Some "corr") None None None) <> None.
Proof.
  split; [reflexivity|]. split; [reflexivity|]. split; [repeat constructor|]. split; [left; reflexivity|].
  split; [vm_compute; reflexivity|]. split; [vm_compute; reflexivity|]. split; [vm_compute; reflexivity|]. split; [vm_compute; reflexivity|]. split; [vm_compute; reflexivity|]. vm_compute; discriminate.
Qed.
(** ccorr refuses an axis that the array does not have, cross_correlate does not always: with one-dimensional
    data and a given number of delays the axis is not looked at. *)
Theorem C93_axis_refuted :
  norm_axis 1 5 = Raise IndexError /\
  ~ (forall (K : Fld) contig (f1 f2 : nd (Cx K)) t1 t2 axis n align e, norm_axis (rank f1) axis = Raise e -> forall r, cross_correlate_nd contig f1 f2 t1 t2 axis n align None <> Ok r).
Proof.
  split; [reflexivity|]. intros H.
  specialize (H QcF true (Nd [3] (fun p => xval 1 (hd 0 p) 0 0)) (Nd [3] (fun p => xval 2 (hd 0 p) 0 0)) None None 5%Z (Some 2) true IndexError eq_refl).
  match type of H with forall r, ?x <> Ok r => assert (E : match x with Ok _ => True | Raise _ => False end) by (vm_compute; exact Logic.I); destruct x as [r|] eqn:Ex; [exact (H r eq_refl)|exact E] end.
Qed.
Print Assumptions C93_axis_refuted.
