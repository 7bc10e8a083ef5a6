(** C81: normalization of multiple-tau data. *)
From Verif Require Import Base PairSpec Kernels KernelProofs RegularProofs CoreModel FftModel NormModel CorrModel VecModel MultiModel MultiSpec MultiProofs MultiLevels FftProofs Prop_Norm1 Prop_Fft Prop_Multi MultiComplex Prop_MultiComplex Prop_Choose MultiNormModel Examples.
From Coq Require Import String ZifyBool ZifyNat.
Open Scope string_scope.
Open Scope nat_scope.
Open Scope list_scope.
Local Notation length := List.length.
Set Implicit Arguments.

(** Which optional arrays a tuple has *)
Definition same_kind (K : Fld) V (a b : cdata K V) : Prop :=
  match a, b with
  | DCorr _ _ sq s1 _, DCorr _ _ sq' s1' _ => (sq = None <-> sq' = None) /\ (s1 = None <-> s1' = None)
  | DDiff _ _ s1 s2, DDiff _ _ s1' s2' => (s1 = None <-> s1' = None) /\ (s2 = None <-> s2' = None)
  | _, _ => False
  end.

Lemma given_same A B (x : option A) (y : option B) : (x = None <-> y = None) -> given x = given y.
Proof. destruct x, y; intros [H1 H2]; try reflexivity; exfalso; [specialize (H2 eq_refl)|specialize (H1 eq_refl)]; discriminate. Qed.
Lemma kind_norm (K : Fld) V (a b : cdata K V) norm : same_kind a b -> _default_norm_from_data a norm = _default_norm_from_data b norm.
Proof.
  destruct a as [d c sq s1 s2|d c s1 s2|], b as [d' c' sq' s1' s2'|d' c' s1' s2'|]; cbn [same_kind]; try contradiction;
    intros [H1 H2]; cbn [_default_norm_from_data]; rewrite (given_same H1), (given_same H2); reflexivity.
Qed.
Lemma kind_method (K : Fld) V (a b : cdata K V) : same_kind a b -> _method_from_data a = _method_from_data b.
Proof. destruct a, b; cbn; try contradiction; reflexivity. Qed.

(** A default norm is one of the norms it stands for *)
Lemma default_again (K : Fld) V (a : cdata K V) norm z : _default_norm_from_data a norm = Ok z -> _default_norm_from_data a (Some z) = Ok z.
Proof.
  destruct a as [d c sq s1 s2|d c s1 s2|]; cbn [_default_norm_from_data]; [| |discriminate].
  - destruct norm as [n|].
    + intros H. assert (n = z) as ->; [|exact H]. unfold _norm_from_ccorr_data in H. destruct (given s1), (given sq); cbn [negb] in H;
        (destruct (in_list _ _); [|discriminate H]); cbn [negb] in H; (destruct (_ =? _)%Z; [|discriminate H]); congruence.
    + destruct (given s1), (given sq); intros H; injection H as <-; reflexivity.
  - destruct norm as [n|].
    + intros H. assert (n = z) as ->; [|exact H]. unfold _norm_from_cdiff_data in H. destruct (given s1), (given s2); cbn [negb] in H;
        (destruct (in_list _ _); [|discriminate H]); cbn [negb] in H; (destruct (_ =? _)%Z; [|discriminate H]); congruence.
    + destruct (given s1), (given s2); intros H; injection H as <-; reflexivity.
Qed.

(** The number a norm argument stands for *)
Definition norm_number (norm : option normarg) : res (option Z) :=
  match norm with Some (NStr s) => let* z := norm_from_string s in Ok (Some z) | Some (NInt z) => Ok (Some z) | None => Ok None end.

Lemma normalize_number (K : Fld) V (O : NormOps K V) denoise data bg var norm mode scale k z :
  norm_number norm = Ok k -> _default_norm_from_data data k = Ok z ->
  normalize O denoise data bg var norm mode scale None = normalize O denoise data bg var (Some (NInt z)) mode scale None.
Proof.
  intros H1 H2. unfold normalize, normalize_body. destruct (_method_from_data data); [|reflexivity]. cbn [bind]. destruct (_inspect_mode mode); [|reflexivity]. cbn [bind].
  fold (norm_number norm). rewrite H1. cbn [bind]. rewrite H2, (default_again _ _ H2). reflexivity.
Qed.

(** On data whose levels have the same arrays as the fast part (all data of ccorr_multi and acorr_multi are such), normalize_multi is normalize of
    all parts with the same arguments. *)
Theorem C81_parts (K : Fld) V (O : NormOps K V) denoise lin multi bg var norm mode scale :
  (forall row, In row multi -> same_kind lin row) ->
  normalize_multi O denoise (lin, multi) bg var norm mode scale =
  let* l := normalize O denoise lin bg var norm mode scale None in
  let* m := map_res (fun row => normalize O denoise row bg var norm mode scale None) multi in
  Ok (l, m).
Proof.
  intros HK. unfold normalize_multi.
  assert (Hn : forall e, (match _method_from_data lin with Raise e => Raise e | Ok _ => match _inspect_mode mode with Raise e => Raise e | Ok _ => match norm_number norm with Raise e => Raise e | Ok k => match _default_norm_from_data lin k with Raise e => Raise e | Ok _ => Ok tt end end end end) = Raise e ->
    normalize O denoise lin bg var norm mode scale None = Raise e).
  { intros e H. unfold normalize, normalize_body. destruct (_method_from_data lin); cbn [bind]; [|congruence]. destruct (_inspect_mode mode); cbn [bind]; [|congruence].
    fold (norm_number norm). destruct (norm_number norm); cbn [bind]; [|congruence]. destruct (_default_norm_from_data lin _); cbn [bind]; congruence. }
  destruct (_method_from_data lin) eqn:EM; cbn [bind]; [|rewrite (Hn _ eq_refl); reflexivity].
  destruct (_inspect_mode mode) as [mode'|] eqn:EI; cbn [bind]; [|rewrite (Hn _ eq_refl); reflexivity].
  assert (mode' = mode) as -> by (unfold _inspect_mode in EI; destruct (_ || _)%bool; congruence).
  fold (norm_number norm). destruct (norm_number norm) as [k|] eqn:EN; cbn [bind]; [|rewrite (Hn _ eq_refl); reflexivity].
  destruct (_default_norm_from_data lin k) as [z|] eqn:ED; cbn [bind]; [|rewrite (Hn _ eq_refl); reflexivity].
  clear Hn. rewrite (normalize_number O denoise lin bg var norm mode scale EN ED).
  destruct (normalize O denoise lin bg var (Some (NInt z)) mode scale None); [|reflexivity]. cbn [bind].
  assert (E : map_res (fun row => normalize O denoise row bg var (Some (NInt z)) mode scale None) multi = map_res (fun row => normalize O denoise row bg var norm mode scale None) multi); [|rewrite E; reflexivity].
  induction multi as [|row multi IH]; [reflexivity|]. cbn [map_res].
  rewrite (normalize_number O denoise row bg var norm mode scale EN (z := z)) by (rewrite <- (@kind_norm K V lin row k (HK row (or_introl eq_refl))); exact ED).
  rewrite IH by (intros r Hr; apply HK; right; exact Hr). reflexivity.
Qed.
Print Assumptions C81_parts.

(** The arrays of the data of a method and norm *)
Definition of_kind (K : Fld) V (cross : bool) (m : string) (nm : Z) (r : cdata K V) : Prop :=
  match r with
  | DCorr _ _ sq s1 s2 => m <> "diff" /\ given sq = has_flag nm NORM_STRUCTURED /\ given s1 = has_flag nm NORM_SUBTRACTED
  | DDiff _ _ s1 s2 => m = "diff" /\ given s1 = (cross && has_flag nm NORM_SUBTRACTED)%bool /\ given s2 = (cross && has_flag nm NORM_SUBTRACTED)%bool
  | DBad => False
  end.
Lemma given_none A (x : option A) : x = None <-> given x = false.
Proof. destruct x; cbn; split; congruence. Qed.
Lemma of_kind_same (K : Fld) V cross m nm (a b : cdata K V) : of_kind cross m nm a -> of_kind cross m nm b -> same_kind a b.
Proof.
  destruct a, b; cbn [of_kind same_kind]; try tauto; try (intros [H _] [H' _]; exact (False_ind _ (H H'))); try (intros [H _] [H' _]; exact (False_ind _ (H' H)));
    intros (_ & A1 & A2) (_ & B1 & B2); rewrite !given_none, A1, A2, B1, B2; tauto.
Qed.

Lemma norm_fixed nm m cross z : _default_norm (Some nm) m cross = Ok z -> z = nm.
Proof. unfold _default_norm. cbv zeta. destruct (in_list _ _); [|discriminate]. congruence. Qed.

Lemma cross_kind (K : Fld) (W : nat -> Cx K) V complex fft corr diff f1 f2 t1 t2 n nm m f1s f2s aout r :
  aout = None \/ (exists zero cx k, aout = Some (slow_row K zero cx true (negb (String.eqb m "diff")) nm k)) ->
  @ccorr_gen K W V complex fft corr diff f1 f2 t1 t2 (Some n) (Some nm) (Some m) f1s f2s aout = Ok r -> of_kind true m nm r.
Proof.
  intros HA H. unfold ccorr_gen in H. apply bind_ok in H. destruct H as (m' & HM & H).
  assert (m' = m) as -> by (unfold _default_method in HM; match type of HM with (if ?c then _ else _) = _ => destruct c end; congruence).
  apply bind_ok in H. destruct H as (nm' & HN & H). apply norm_fixed in HN. subst nm'.
  destruct ((m =? "diff")%string && complex)%bool; [discriminate|].
  apply bind_ok in H. destruct H as ([[[[cor count] sq] ds1] ds2] & HU & H).
  apply bind_ok in H. destruct H as ([ts n'] & HI & H).
  apply bind_ok in H. destruct H as (cor' & HC & H). apply bind_ok in H. destruct H as (count' & HC' & H).
  apply bind_ok in H. destruct H as (sq' & HQ & H). apply bind_ok in H. destruct H as ([e1 e2] & HE & H).
  assert (HG : given e1 = has_flag nm NORM_SUBTRACTED /\ given e2 = has_flag nm NORM_SUBTRACTED).
  { destruct (has_flag nm NORM_SUBTRACTED) eqn:EF.
    - apply bind_ok in HE. destruct HE as (? & _ & HE). apply bind_ok in HE. destruct HE as (? & _ & HE). injection HE as <- <-. split; reflexivity.
    - injection HE as <- <-. destruct HA as [->|(zero & cx & k & ->)]; [cbn in HU; injection HU as _ _ _ <- <-; split; reflexivity|].
      unfold slow_row in HU. rewrite EF in HU. destruct (String.eqb m "diff"); cbn in HU; injection HU as _ _ _ <- <-; split; reflexivity. }
  destruct HG as [G1 G2]. destruct (String.eqb_spec m "diff") as [ED|ED]; injection H as <-; cbn [of_kind]; [exact (Logic.conj ED (Logic.conj G1 G2))|].
  split; [exact ED|]. split; [|exact G1]. rewrite Bool.andb_true_r in HQ. destruct (has_flag nm NORM_STRUCTURED) eqn:EF.
  - apply bind_ok in HQ. destruct HQ as (? & _ & HQ). apply bind_ok in HQ. destruct HQ as (? & _ & HQ). injection HQ as <-. reflexivity.
  - injection HQ as <-. destruct HA as [->|(zero & cx & k & ->)]; [cbn in HU; injection HU as _ _ <- _ _; reflexivity|].
    unfold slow_row in HU. rewrite EF in HU. cbn in HU. injection HU as _ _ <- _ _. reflexivity.
Qed.
Lemma auto_kind (K : Fld) (W : nat -> Cx K) V fft corr diff f t n nm m fs aout r :
  aout = None \/ (exists zero cx k, aout = Some (slow_row K zero cx false (negb (String.eqb m "diff")) nm k)) ->
  @acorr_gen K W V fft corr diff f t fs (Some n) (Some nm) (Some m) aout = Ok r -> of_kind false m nm r.
Proof.
  intros HA H. unfold acorr_gen in H. apply bind_ok in H. destruct H as (m' & HM & H).
  assert (m' = m) as -> by (unfold _default_method in HM; match type of HM with (if ?c then _ else _) = _ => destruct c end; congruence).
  apply bind_ok in H. destruct H as (nm' & HN & H). apply norm_fixed in HN. subst nm'.
  apply bind_ok in H. destruct H as ([[[[cor count] sq] ds1] ds2] & HU & H).
  apply bind_ok in H. destruct H as ([ts n'] & HI & H).
  apply bind_ok in H. destruct H as (cor' & HC & H). apply bind_ok in H. destruct H as (count' & HC' & H).
  apply bind_ok in H. destruct H as (sq' & HQ & H). apply bind_ok in H. destruct H as (e1 & HE & H).
  destruct (String.eqb_spec m "diff") as [ED|ED]; injection H as <-; cbn [of_kind andb given]; [auto|].
  split; [exact ED|]. rewrite Bool.andb_true_r in HQ, HE. split.
  - destruct (has_flag nm NORM_STRUCTURED) eqn:EF.
    + apply bind_ok in HQ. destruct HQ as (? & _ & HQ). injection HQ as <-. reflexivity.
    + injection HQ as <-. destruct HA as [->|(zero & cx & k & ->)]; [cbn in HU; injection HU as _ _ <- _ _; reflexivity|].
      unfold slow_row in HU. rewrite EF in HU. cbn in HU. injection HU as _ _ <- _ _. reflexivity.
  - destruct (has_flag nm NORM_SUBTRACTED) eqn:EF.
    + apply bind_ok in HE. destruct HE as (? & _ & HE). injection HE as <-. reflexivity.
    + injection HE as <-. destruct HA as [->|(zero & cx & k & ->)]; [cbn in HU; injection HU as _ _ _ <- _; reflexivity|].
      unfold slow_row in HU. rewrite EF in HU. cbn in HU. injection HU as _ _ _ <- _. reflexivity.
Qed.

Lemma levels_from (K : Fld) V zero complex cc aligned rs todo : forall i b nm m n f1 f2 f1s f2s rows,
  @multi_levels K V zero complex cc aligned rs todo i b nm m n f1 f2 f1s f2s = Ok rows ->
  forall row, In row rows -> exists al g1 g2 s1 s2, cc al g1 g2 None None (Some n) (Some nm) (Some m) s1 s2 (Some (slow_row K zero complex true (negb (String.eqb m "diff")) nm n)) = Ok row.
Proof.
  induction todo as [|todo IH]; intros i b nm m n f1 f2 f1s f2s rows H row HI; cbn [multi_levels] in H; [injection H as <-; destruct HI|].
  apply bind_ok in H. destruct H as (r & HR & H). apply bind_ok in H. destruct H as (rest & HT & H). injection H as <-.
  destruct HI as [<-|HI]; [do 5 eexists; exact HR|eapply IH; eassumption].
Qed.
Lemma levels_from_auto (K : Fld) V zero complex ac aligned rs todo : forall i b nm m n f fs rows,
  @multi_levels_auto K V zero complex ac aligned rs todo i b nm m n f fs = Ok rows ->
  forall row, In row rows -> exists al g s, ac al g None s (Some n) (Some nm) (Some m) (Some (slow_row K zero complex false (negb (String.eqb m "diff")) nm n)) = Ok row.
Proof.
  induction todo as [|todo IH]; intros i b nm m n f fs rows H row HI; cbn [multi_levels_auto] in H; [injection H as <-; destruct HI|].
  apply bind_ok in H. destruct H as (r & HR & H). apply bind_ok in H. destruct H as (rest & HT & H). injection H as <-.
  destruct HI as [<-|HI]; [do 3 eexists; exact HR|eapply IH; eassumption].
Qed.

Lemma multi_cross_kind (K : Fld) V zero complex cc aligned rs f1 f2 t1 t2 period n binning nlevel norm method fast slow :
  (forall m nm al g1 g2 u1 u2 k s1 s2 aout r, aout = None \/ (exists zero cx k, aout = Some (slow_row K zero cx true (negb (String.eqb m "diff")) nm k)) ->
    cc al g1 g2 u1 u2 (Some k) (Some nm) (Some m) s1 s2 aout = Ok r -> of_kind true m nm r) ->
  @multi_cross K V zero complex cc aligned rs f1 f2 t1 t2 period n binning nlevel norm method = Ok (fast, slow) ->
  forall row, In row slow -> same_kind fast row.
Proof.
  intros HC H row HI. unfold multi_cross in H. apply bind_ok in H. destruct H as ([m b] & HM & H). apply bind_ok in H. destruct H as (nm & HN & H).
  apply bind_ok in H. destruct H as ([ts n'] & _ & H). apply bind_ok in H. destruct H as ([[nf ns] nl] & _ & H).
  apply bind_ok in H. destruct H as (df & HF & H). apply bind_ok in H. destruct H as (ds & HS & H). injection H as <- <-.
  apply (@of_kind_same K V true m nm); [eapply HC; [left; reflexivity|exact HF]|].
  destruct (@levels_from _ _ _ _ _ _ _ _ _ _ _ _ _ _ _ _ _ _ HS row HI) as (al & g1 & g2 & s1 & s2 & E). eapply HC; [|exact E]. right. eauto.
Qed.
Lemma multi_auto_kind (K : Fld) V zero complex ac aligned rs f t period n binning nlevel norm method fast slow :
  (forall m nm al g u k s aout r, aout = None \/ (exists zero cx k, aout = Some (slow_row K zero cx false (negb (String.eqb m "diff")) nm k)) ->
    ac al g u s (Some k) (Some nm) (Some m) aout = Ok r -> of_kind false m nm r) ->
  @multi_auto K V zero complex ac aligned rs f t period n binning nlevel norm method = Ok (fast, slow) ->
  forall row, In row slow -> same_kind fast row.
Proof.
  intros HC H row HI. unfold multi_auto in H. apply bind_ok in H. destruct H as ([m b] & HM & H). apply bind_ok in H. destruct H as (nm & HN & H).
  apply bind_ok in H. destruct H as ([ts n'] & _ & H). apply bind_ok in H. destruct H as ([[nf ns] nl] & _ & H).
  apply bind_ok in H. destruct H as (df & HF & H). apply bind_ok in H. destruct H as (ds & HS & H). injection H as <- <-.
  apply (@of_kind_same K V false m nm); [eapply HC; [left; reflexivity|exact HF]|].
  destruct (@levels_from_auto _ _ _ _ _ _ _ _ _ _ _ _ _ _ _ _ HS row HI) as (al & g & s & E). eapply HC; [|exact E]. right. eauto.
Qed.

(** The data of ccorr_multi and acorr_multi are such data, for all norms, methods and binnings *)
Theorem C81_kinds (K : Fld) (W : nat -> Cx K) aligned rs f1 f2 t1 t2 period n binning nlevel norm method :
  (forall fast slow, ccorr_multi W aligned rs f1 f2 t1 t2 period n binning nlevel norm method = Ok (fast, slow) -> forall row, In row slow -> same_kind fast row) /\
  (forall fast slow, ccorr_multi_complex W aligned rs f1 f2 t1 t2 period n binning nlevel norm method = Ok (fast, slow) -> forall row, In row slow -> same_kind fast row) /\
  (forall fast slow, acorr_multi W aligned rs f1 t1 period n binning nlevel norm method = Ok (fast, slow) -> forall row, In row slow -> same_kind fast row) /\
  (forall fast slow, acorr_multi_complex W aligned rs f1 t1 period n binning nlevel norm method = Ok (fast, slow) -> forall row, In row slow -> same_kind fast row).
Proof.
  split; [|split; [|split]]; intros fast slow H.
  - eapply multi_cross_kind; [|exact H]. intros m nm al g1 g2 u1 u2 k s1 s2 aout r HA E. eapply cross_kind; [exact HA|exact E].
  - eapply multi_cross_kind; [|exact H]. intros m nm al g1 g2 u1 u2 k s1 s2 aout r HA E. eapply cross_kind; [exact HA|exact E].
  - eapply multi_auto_kind; [|exact H]. intros m nm al g u k s aout r HA E. eapply auto_kind; [exact HA|exact E].
  - eapply multi_auto_kind; [|exact H]. intros m nm al g u k s aout r HA E. eapply auto_kind; [exact HA|exact E].
Qed.
Print Assumptions C81_kinds.

(** So level l of the normalized cross-correlation is the normalized cross-correlation of the block means (with the means of the squares), for every
    norm, mode, scale, background and variance. *)
Theorem C81_levels (K : Fld) (W : nat -> Cx K) O denoise aligned rs f1 f2 t1 t2 period n binning nlevel norm method m nm fast slow bg var norm' mode scale lin multi :
  ccorr_multi W aligned rs f1 f2 t1 t2 period n binning nlevel norm method = Ok (fast, slow) ->
  _default_method_and_binning method binning = Ok (m, BINNING_MEAN) -> _default_norm norm m true = Ok nm ->
  normalize_multi O denoise (fast, slow) bg var norm' mode scale = Ok (lin, multi) ->
  normalize O denoise fast bg var norm' mode scale None = Ok lin /\ length multi = length slow /\
  forall l, l < length slow -> exists data,
    ccorr W (aligned (S l)) (block_means (cgrp K) (S l) f1) (block_means (cgrp K) (S l) f2) None None (Some n) (Some nm) (Some m)
      (option_map (block_means (fgrp K) (S l)) (squares_arg nm m f1)) (option_map (block_means (fgrp K) (S l)) (squares_arg nm m f2))
      (Some (slow_row K (f0 K) false true (negb (String.eqb m "diff")) nm n)) = Ok data /\
    normalize O denoise data bg var norm' mode scale None = Ok (nth l multi []).
Proof.
  intros H HM HN HP.
  rewrite C81_parts in HP by exact (proj1 (C81_kinds W aligned rs f1 f2 t1 t2 period n binning nlevel norm method) fast slow H).
  apply bind_ok in HP. destruct HP as (l0 & HL & HP). apply bind_ok in HP. destruct HP as (m0 & HS & HP). injection HP as <- <-.
  split; [exact HL|].
  assert (HR : length m0 = length slow /\ forall l, l < length slow -> normalize O denoise (nth l slow DBad) bg var norm' mode scale None = Ok (nth l m0 [])).
  { clear H. revert m0 HS. induction slow as [|row slow IH]; intros m0 HS; cbn [map_res] in HS; [injection HS as <-; split; [reflexivity|intros l Hl; inversion Hl]|].
    apply bind_ok in HS. destruct HS as (y & HY & HS). apply bind_ok in HS. destruct HS as (ys & HYS & HS). injection HS as <-.
    destruct (IH _ HYS) as [I1 I2]. split; [cbn; rewrite I1; reflexivity|]. intros [|l] Hl; [exact HY|]. cbn [nth]. apply I2. cbn [List.length] in Hl. lia. }
  destruct HR as [HR1 HR2]. split; [exact HR1|]. intros l Hl. exists (nth l slow DBad). split; [|apply HR2; exact Hl].
  exact (@C29_cross_mean _ _ _ _ _ _ _ _ _ _ _ _ _ _ _ _ _ _ _ _ _ H HM HN l Hl).
Qed.
Print Assumptions C81_levels.

Lemma mismatch_formula (K : Fld) V (O : NormOps K V) d cnt sq s1 s2 b1 b2 var z mode r : length cnt <> length d ->
  normalize_formula O (DCorr d cnt sq s1 s2) b1 b2 var z mode <> Ok r.
Proof.
  intros HL. assert (HC : forall more f, cells (V := V) (length cnt :: more) (length d) f = Raise ValueError).
  { intros more f. unfold cells. cbn [forallb]. replace (Nat.eqb (length d) (length cnt)) with false by (symmetry; apply Nat.eqb_neq; congruence). reflexivity. }
  unfold normalize_formula. destruct (z =? 1)%Z; [rewrite HC; discriminate|].
  destruct (z =? 2)%Z; [destruct (scale_factor K var); [|discriminate]; cbn [bind]; destruct sq; cbn [need bind]; [rewrite HC|]; discriminate|].
  destruct ((z =? 5) || (z =? 13))%Z%bool; [destruct s1; cbn [need bind]; [rewrite HC|]; discriminate|].
  destruct (z =? 9)%Z; [destruct s1; cbn [need bind]; [rewrite HC|]; discriminate|].
  destruct ((z =? 6) || (z =? 14))%Z%bool; [destruct (scale_factor K var); [|discriminate]; cbn [bind]; destruct s1; cbn [need bind]; [|discriminate]; destruct sq; cbn [need bind]; [rewrite HC|]; discriminate|].
  destruct (z =? 10)%Z; [destruct (scale_factor K var); [|discriminate]; cbn [bind]; destruct s1; cbn [need bind]; [|discriminate]; destruct sq; cbn [need bind]; [rewrite HC|]; discriminate|].
  discriminate.
Qed.
Lemma mismatch_body (K : Fld) V (O : NormOps K V) denoise rec d cnt sq s1 s2 bg var norm mode scale w r : length cnt <> length d -> (forall z r, rec z <> Ok r) ->
  normalize_body O denoise rec (DCorr d cnt sq s1 s2) bg var norm mode scale w <> Ok r.
Proof.
  intros HL HR H. unfold normalize_body in H.
  apply bind_ok in H. destruct H as (? & _ & H). apply bind_ok in H. destruct H as (? & _ & H). apply bind_ok in H. destruct H as (? & _ & H). apply bind_ok in H. destruct H as (z & _ & H).
  apply bind_ok in H. destruct H as (? & _ & H). apply bind_ok in H. destruct H as ([b1 b2] & _ & H).
  destruct (_ =? _)%Z in H; apply bind_ok in H; destruct H as (y & HY & _); [exact (HR _ _ HY)|eapply mismatch_formula; eassumption].
Qed.
Lemma mismatch (K : Fld) V (O : NormOps K V) denoise d cnt sq s1 s2 bg var norm mode scale w r : length cnt <> length d ->
  normalize O denoise (DCorr d cnt sq s1 s2) bg var norm mode scale w <> Ok r.
Proof.
  intros HL. unfold normalize. apply mismatch_body; [exact HL|]. intros z r'. 
  intros H. unfold normalize_body in H.
  apply bind_ok in H. destruct H as (? & _ & H). apply bind_ok in H. destruct H as (? & _ & H). apply bind_ok in H. destruct H as (? & _ & H). apply bind_ok in H. destruct H as (y & _ & H).
  apply bind_ok in H. destruct H as (? & _ & H). apply bind_ok in H. destruct H as ([b1 b2] & _ & H).
  destruct (_ =? _)%Z in H; apply bind_ok in H; destruct H as (q & HY & _); [discriminate HY|eapply mismatch_formula; eassumption].
Qed.

(** Complex data with at least one level cannot be normalized at all, since their counts do not fit to their data (C79) *)
Theorem C81_complex_refuted (K : Fld) (W : nat -> Cx K) O denoise aligned rs f1 f2 t1 t2 period n norm method m nm fast slow bg var norm' mode scale r :
  length f1 = length f2 ->
  ccorr_multi_complex W aligned rs f1 f2 t1 t2 period n (Some BINNING_MEAN) None norm method = Ok (fast, slow) ->
  _default_method_and_binning method (Some BINNING_MEAN) = Ok (m, BINNING_MEAN) -> _default_norm norm m true = Ok nm ->
  (m = "fft" -> forall k, 0 < k -> is_root (k * 2) (W (k * 2))) ->
  slow <> [] -> normalize_multi O denoise (fast, slow) bg var norm' mode scale <> Ok r.
Proof.
  intros HL H HB HN HW HS HP. assert (H0 : 0 < length slow) by (destruct slow; [congruence|cbn; lia]).
  destruct (@C79_counts_refuted K W aligned rs f1 f2 t1 t2 period n norm method m nm fast slow HL H HB HN HW 0 H0) as (cor & cnt & sq & d1 & d2 & E & HC & _).
  destruct slow as [|row slow]; [congruence|]. cbn [nth] in E. subst row.
  unfold normalize_multi in HP. do 4 (apply bind_ok in HP; destruct HP as (? & _ & HP)). apply bind_ok in HP. destruct HP as (? & _ & HP). apply bind_ok in HP. destruct HP as (ys & HY & _).
  cbn [map_res] in HY. apply bind_ok in HY. destruct HY as (y & HY & _). revert HY. apply mismatch. lia.
Qed.
Print Assumptions C81_complex_refuted.

(** Twelve frames, level size 5, one level: the parts of the normalized data, and the complex data which cannot be normalized *)
Definition no_filter (l : list (fval QcF)) := l.
Definition no_filter_c (l : list (fval (Cx QcF))) := l.
Definition show_f (x : fval QcF) := match x with Fin a => Some (show a) | NonFin => None end.
Example C81_example :
  let f := firstn 12 mf1 in let g := firstn 12 mf2 in
  match ccorr_multi nW no_al no_rs f g None None 1 5 None None None None with
  | Ok (fast, [row]) =>
      match normalize_multi real_ops no_filter (fast, [row]) (STwo (cz 1 0) (cz 0 1)) (SOne (q 3)) None "diff" true with
      | Ok (a, [b]) => length a = 5 /\ length b = 5 /\
          map show_f a = match normalize real_ops no_filter fast (STwo (cz 1 0) (cz 0 1)) (SOne (q 3)) None "diff" true None with Ok x => map show_f x | Raise _ => [] end /\
          map show_f b = match normalize real_ops no_filter row (STwo (cz 1 0) (cz 0 1)) (SOne (q 3)) (Some (NStr "weighted|subtracted")) "diff" true None with Ok x => map show_f x | Raise _ => [] end
      | _ => False
      end
  | _ => False
  end /\
  match ccorr_multi_complex nW no_al no_rs f g None None 1 5 None None None None with
  | Ok (fast, [row]) => normalize_multi complex_ops no_filter_c (fast, [row]) (STwo (cz 1 0) (cz 0 1)) (SOne (q 3)) None "diff" true = Raise ValueError
  | _ => False
  end.
Proof. split; vm_compute; repeat split. Qed.
