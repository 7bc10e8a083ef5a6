(** Several levels: the runs of iccorr_multi and iacorr_multi. *)
From Verif Require Import Base Kernels PairSpec KernelProofs PairLemmas RegularProofs CoreModel FftModel FftProofs CoreProofs CoreProofs2 CoreApi
  NormModel CorrModel CorrSpec CorrProofs CorrProofs2 PairAcc PairTuple MultiModel MultiSpec MultiProofs StreamModel CallPairs StreamBuffer StreamLoop StreamChunk StreamSpec StreamSetup StreamFits StreamIter StreamSingle StreamInst.
From Coq Require Import String ZifyBool ZifyNat.
Open Scope string_scope.
Open Scope nat_scope.
Open Scope list_scope.
Local Notation length := List.length.
Set Implicit Arguments.

(** The last level of the in-memory functions, without an explicit number of levels *)
Definition top_level (nf level : nat) : nat := count_levels (S nf) nf level 0 - 1.
Lemma top_level_spec nf level : 0 < level <= nf -> forall j, j <= top_level nf level <-> level <= nf / 2 ^ j.
Proof.
  intros [H0 H1] j. unfold top_level. rewrite <- (count_levels_spec nf H0 j).
  assert (0 < count_levels (S nf) nf level 0). { apply count_levels_spec; [exact H0|]. cbn [Nat.pow]. rewrite Nat.div_1_r. exact H1. }
  lia.
Qed.
(** The number of levels with buffers and the last level, with and without nlevel *)
Definition decades (D nf level : nat) (nlevel : option Z) : nat :=
  match nlevel with None => D | Some l => Nat.min (Z.to_nat l + 1) (S (top_level nf level)) end.
Definition last_level (nf level : nat) (nlevel : option Z) : nat :=
  match nlevel with None => top_level nf level | Some l => Nat.min (Z.to_nat l) (top_level nf level) end.
Definition nlevel_ok (nlevel : option Z) : Prop := match nlevel with None => True | Some l => (0 <= l)%Z end.
Definition multi (m : string) (bin : Z) (T1 T2 : list Z) (h level period D nf : nat) (nlevel : option Z) : setup :=
  Build_setup m bin T1 T2 h level (period * level) (decades D nf level nlevel) nf (last_level nf level nlevel).

Lemma multi_setup t1 t2 level period chunk_size method binning count len nlevel mode T1 T2 total h D m bin :
  mode = "full" \/ mode = "chunk" -> _default_method_and_binning method binning = Ok (m, bin) -> stream_args t1 t2 level chunk_size count len T1 T2 total h D ->
  nlevel_ok nlevel ->
  stream_setup t1 t2 period (Some level) chunk_size binning method count len nlevel mode = Ok (multi m bin T1 T2 h level period D (h * 2 ^ D) nlevel).
Proof.
  intros HM HB HA HL. assert (HA' := HA). destruct HA' as (_ & _ & _ & _ & _ & Hn & Hh & HD).
  apply setup_ok; [lia|]. exists T1, T2, total, h, D, m, bin. split; [exact HM|]. split; [exact HB|]. split; [exact HA|]. cbv zeta.
  assert (HT : 0 < count_levels (S (h * 2 ^ D)) (h * 2 ^ D) level 0).
  { apply count_levels_spec; [lia|]. cbn [Nat.pow]. rewrite Nat.div_1_r. pose proof (pow_pos D). nia. }
  unfold multi, decades, last_level, top_level. destruct nlevel as [l|]; [|reflexivity]. cbn in HL.
  split; [exact HL|]. split; [exact HT|]. f_equal; lia.
Qed.

Lemma no_rest D nf level nlevel : nlevel <> None -> last_level nf level nlevel + 1 = Nat.max (decades D nf level nlevel) 1.
Proof. destruct nlevel; [intros _|congruence]. unfold last_level, decades. lia. Qed.
Lemma decades_0 D nf level nlevel : decades D nf level nlevel = 0 -> D = 0.
Proof. unfold decades. destruct nlevel; lia. Qed.
Lemma decades_last D nf level nlevel : D <= top_level nf level -> decades D nf level nlevel <= last_level nf level nlevel + 1.
Proof. unfold decades, last_level. destruct nlevel; lia. Qed.
Lemma last_top nf level nlevel : last_level nf level nlevel <= top_level nf level.
Proof. unfold last_level. destruct nlevel; lia. Qed.

Section Rows.
  Variable K : Fld.
  Notation C := (Cx K).
  Variable V : CMon.
  Variable cross : bool.
  Variable w : world K.
  Variable norm : Z.
  Variables full auto_bg : bool.
  Variables (m : string) (bin : Z) (T1 T2 : list Z) (h level period D : nat) (nlevel : option Z).
  Notation nf := (h * 2 ^ D).
  Notation S0 := (multi m bin T1 T2 h level period D nf nlevel).
  Notation diff := (String.eqb m "diff").
  Variable prod : sample C * sample C -> V.
  Variables g1 g2 : sample C * sample C -> C.
  Variable lag : nat -> nat -> Z -> bool.
  Variable len : nat -> nat.
  Variable lost : bool.
  Variable frames : list (C * C).
  Variable x0 : C * C.
  Notation X := (fun k => nth k frames x0).
  Definition multi_row (j c : nat) : cdata K V := srow V cross w S0 norm full auto_bg prod g1 g2 lag len lost X j c.
  (** All pairs of the binned signals at level [l] *)
  Definition multi_all (j : nat) : cdata K V := srest V cross w S0 norm auto_bg prod g1 g2 lag len X j.
  Hypothesis Hinv : invariant false prod /\ invariant false g1 /\ (cross = true -> invariant false g2).
  Hypothesis Hn : 0 < level <= h.

  (** If the chunks of a level hold all its blocks, all pairs are counted. *)
  Theorem multi_row_all l c : full = true -> 0 < l -> c * h = nf / 2 ^ l -> (cross = true \/ lost = false) ->
    (forall i, i < len level -> forall d, lag level i d = true -> (Z.abs d < Z.of_nat level)%Z) ->
    (cross = false -> invariant true prod /\ invariant true g1) -> (cross = false -> forall n i d, lag n i (- d)%Z = lag n i d) ->
    multi_row l c = multi_all l.
  Proof.
    intros Hf Hl Hc HX Hsmall HI HE. unfold multi_row, multi_all, srow, srest, tail_row.
    assert (Hd : delays S0 l = level) by (unfold delays; replace (l =? 0) with false by lia; reflexivity).
    assert (T1' : forall k, tau1 S0 l k = Z.of_nat k) by (intros k; unfold tau1; replace (l =? 0) with false by lia; reflexivity).
    assert (T2' : forall k, tau2 S0 l k = Z.of_nat k) by (intros k; unfold tau2; replace (l =? 0) with false by lia; reflexivity).
    rewrite (@row_full K V cross (w_rs w) (w_rs_bg w) S0 norm full auto_bg X prod g1 g2 lag len lost Hinv l c HX Hf); [| | |exact HE].
    - f_equal. unfold all_pairs. change (s_nframes S0) with nf. change (s_half S0) with h. rewrite <- Hc.
      assert (HS : forall A (s : nat -> A) (tau : nat -> Z), (forall k, tau k = Z.of_nat k) -> ser s tau 0 (c * h) = samples (map s (seq 0 (c * h))) None).
      { intros A s tau HT. rewrite ser_regular. unfold ser. rewrite map_map. apply map_ext. intros k. unfold shift_time. cbn [fst snd]. rewrite HT. f_equal. lia. }
      destruct cross; rewrite ?HS by assumption; reflexivity.
    - rewrite Hd. intros i Hi a b Ha Hb HC. change (s_half S0) with h in *.
      assert (E : (if cross then tau2 S0 l else tau1 S0 l) b = Z.of_nat b) by (destruct cross; auto). rewrite E, T1'.
      destruct (lag level i (Z.of_nat b - Z.of_nat a)%Z) eqn:EL; [|reflexivity]. apply (Hsmall i Hi) in EL. exfalso.
      assert (Hb1 := Nat.div_mod_eq b h). assert (Ha1 := Nat.div_mod_eq a h).
      pose proof (Nat.mod_upper_bound a h ltac:(lia)). pose proof (Nat.mod_upper_bound b h ltac:(lia)).
      destruct Hn as [_ Hn2]. clear - EL Ha1 Hb1 HC H H0 Hn2. set (qa := a / h) in *. set (qb := b / h) in *.
      destruct HC as [HC|HC].
      + assert (h * (qa + 2) <= h * qb) by (apply Nat.mul_le_mono_l; lia). lia.
      + assert (h * (qb + 2) <= h * qa) by (apply Nat.mul_le_mono_l; lia). lia.
    - exact HI.
  Qed.
  (** Levels with less than a chunk of blocks stay empty without the rest. *)
  Theorem multi_row_empty l : 0 < l -> multi_row l 0 = zeros K V diff cross norm (len level).
  Proof.
    intros Hl. unfold multi_row, srow. rewrite row_0. f_equal. unfold delays. replace (l =? 0) with false by lia. reflexivity.
  Qed.
End Rows.

Section Multi.
  Variable K : Fld.
  Notation C := (Cx K).
  Variable V : CMon.
  Variable W : nat -> Cx K.
  Variables complex cross : bool.
  Variable cc : bool -> list C -> list C -> option (list Z) -> option (list Z) -> option nat ->
    option Z -> option string -> option (list K) -> option (list K) -> option (cdata K V) -> res (cdata K V).
  Variable ac : bool -> list C -> option (list Z) -> option (list K) -> option nat ->
    option Z -> option string -> option (cdata K V) -> res (cdata K V).
  Variable w : world K.
  Variable norm : Z.
  Variables full auto_bg stats : bool.
  Variables (m : string) (bin : Z) (T1 T2 : list Z) (h level period D : nat) (nlevel : option Z).
  Notation nf := (h * 2 ^ D).
  Let S0 := multi m bin T1 T2 h level period D nf nlevel.
  Notation diff := (String.eqb m "diff").
  Variable prod : sample C * sample C -> V.
  Variables g1 g2 : sample C * sample C -> C.
  Variable lag : nat -> nat -> Z -> bool.
  Variable len : nat -> nat.
  Variable lost : bool.
  Hypothesis Hcross : cross = true -> forall al v1 v2 t1 t2 n N d, okc W m v1 v2 t1 t2 N -> 0 < N -> shaped V diff true norm (len N) d ->
    cc al (map fst v1) (map fst v2) t1 t2 (Some n) (Some norm) (Some m) (sqarg K norm m (map snd v1)) (sqarg K norm m (map snd v2)) (Some d) =
    Ok (add_pairs prod g1 g2 d (fun i => sel (lag N i) (samples v1 t1) (samples v2 t2))).
  Hypothesis Hauto : cross = false -> forall al v t n d, oka W m v t n -> shaped V diff false norm (len n) d ->
    ac al (map fst v) t (sqarg K norm m (map snd v)) (Some n) (Some norm) (Some m) (Some d) =
    Ok (add_pairs prod g1 g2 d (fun i => usel (lag n i) (samples v t))).
  Hypothesis Hmerge : cross = false -> full = true -> forall al v1 v2 t1 t2 n crop d, okc W m v1 v2 (Some t1) (Some t2) n ->
    (lost = true -> forall a b, In a t1 -> In b t2 -> (b < a)%Z) -> 0 < crop <= n -> shaped V diff false norm (len crop) d ->
    (let* o := cc al (map fst v1) (map fst v2) (Some t1) (Some t2) (Some n) (Some norm) (Some m) (sqarg K norm m (map snd v1)) (sqarg K norm m (map snd v2)) None in
     merge_auto V crop d o) =
    Ok (add_pairs prod g1 g2 d (fun i => if lost then [] else sel (lag crop i) (samples v1 (Some t1)) (samples v2 (Some t2)))).
  Hypothesis Hinv : invariant false prod /\ invariant false g1 /\ (cross = true -> invariant false g2).
  Hypothesis Hlen : forall n, (if (complex && cross)%bool then 2 * n - 1 else n) = len n.
  Hypothesis Hn : 0 < level <= h.
  Hypothesis Hperiod : 0 < period.
  Hypothesis Htimes1 : nf <= length T1.
  Hypothesis Htimes2 : nf <= length T2.
  Hypothesis Hnlevel : nlevel_ok nlevel.
  Hypothesis Hbin : nlevel = None -> bin = BINNING_MEAN.
  Hypothesis Hfit : cross = true -> forall c c', (c + 1) * h <= nf -> (c' + 1) * h <= nf ->
    c' = c \/ (full = true /\ (c' = c + 1 \/ c = c' + 1)) -> call_fits W m (chunk_times h c T1) (chunk_times h c' T2) (period * level).
  Hypothesis Hfit_auto : cross = false -> forall c, (c + 1) * h <= nf -> NoDup (chunk_times h c T1) /\
    call_fits W m (chunk_times h c T1) (chunk_times h c T1) (period * level) /\
    (full = true -> 0 < c -> call_fits W m (chunk_times h c T1) (chunk_times h (c - 1) T1) (period * level)).
  Hypothesis Hincr : lost = true -> forall a b, a < b -> b < nf -> (nth a T1 0 < nth b T1 0)%Z.
  Hypothesis Hroots : 0 < last_level nf level nlevel -> m = "corr" \/ m = "diff" \/ (m = "fft" /\ all_roots W).
  Hypothesis Hfast_slow : cross = false -> full = true -> 1 < decades D nf level nlevel -> m = "fft" -> period * level <= h + 1.

  Variable mode : string.
  Hypothesis Hmode : String.eqb mode "full" = full.
  Variables (t1 t2 : option (list Z)) (chunk_size : option nat) (method : option string) (binning : option Z) (count lenf : option nat).
  Hypothesis Hsetup : stream_setup t1 t2 period (Some level) chunk_size binning method count lenf nlevel mode = Ok S0.
  Variable normarg : option Z.
  Hypothesis Hnorm : _default_norm normarg m cross = Ok norm.

  Variable frames : list (C * C).
  Variable x0 : C * C.
  Notation X := (fun k => nth k frames x0).
  Notation iter := (multi_iter V complex cc ac w cross frames t1 t2 period (Some level) chunk_size binning method count lenf auto_bg nlevel normarg stats mode).
  Notation multi_row := (multi_row V cross w norm full auto_bg m bin T1 T2 h level period D nlevel prod g1 g2 lag len lost frames x0).
  Notation multi_all := (multi_all V cross w norm auto_bg m bin T1 T2 h level period D nlevel prod g1 g2 lag len frames x0).

  Let Hpos : 0 < nf.
  Proof. pose proof (pow_pos D). nia. Qed.
  Let Hlevel_nf : 0 < level <= nf.
  Proof. pose proof (pow_pos D). nia. Qed.

  Theorem multi_run : nf <= length frames ->
    exists ys y, iter = Ok (ys ++ [y]) /\ length ys = 2 ^ D /\ fst (fst (fst y)) = multi_row 0 (2 ^ D) /\
      length (snd (fst (fst y))) = last_level nf level nlevel /\
      (forall l, 0 < l < decades D nf level nlevel -> nth (l - 1) (snd (fst (fst y))) DBad = multi_row l (nf / (h * 2 ^ l))) /\
      (forall l, Nat.max (decades D nf level nlevel) 1 <= l <= last_level nf level nlevel -> nth (l - 1) (snd (fst (fst y))) DBad = multi_all l) /\
      (forall c, c < length ys -> let y := nth c ys ((DBad, []), w_bg w, w_var w) in
        stats = true -> statistics cross S0 auto_bg X ((c + 1) * h) (snd (fst y)) (snd y)) /\
      (stats = true -> statistics cross S0 auto_bg X nf (snd (fst y)) (snd y)).
  Proof.
    intros HL.
    assert (HNE : frames <> []) by (destruct frames; [cbn in HL; lia|discriminate]).
    assert (Hsl : s_level S0 <= s_fast S0) by (cbn; clear - Hperiod; nia).
    assert (Hsi : s_decades S0 = 0 -> s_nframes S0 = s_half S0).
    { cbn [S0 multi s_decades s_nframes s_half]. intros H0. apply decades_0 in H0. clear - H0. subst D. cbn. lia. }
    assert (Hfr : exists n, nf = n * h) by (exists (2 ^ D); lia).
    assert (HDt : D <= top_level nf level).
    { apply top_level_spec; [exact Hlevel_nf|]. rewrite Nat.div_mul by (pose proof (pow_pos D); lia). lia. }
    assert (Hnl : s_decades S0 <= s_nlevel S0 + 1).
    { cbn [S0 multi s_decades s_nlevel]. apply decades_last. exact HDt. }
    assert (Hdiv : nf / h = 2 ^ D) by (rewrite Nat.mul_comm; apply Nat.div_mul; lia).
    destruct (@loop_run K V W complex cross cc ac w S0 norm full auto_bg stats prod g1 g2 lag len lost Hcross Hauto Hmerge Hinv Hlen
      Hn Hsl Htimes1 Htimes2 Hsi Hfr Hpos Hnl Hfit Hfit_auto Hincr Hroots Hfast_slow X frames) as (s & ys & E & HS & HLy & HY).
    - intros k Hk. apply nth_indep. exact Hk.
    - exact HL.
    - cbn [S0 multi s_nframes s_half] in HLy. rewrite Hdiv in HLy.
      assert (HF : exists rows, finish cross cc ac (w_aligned w) (w_rs_tail w) S0 norm s = Ok (with_data s (data_fast s) rows) /\
        data_fast s = multi_row 0 (2 ^ D) /\ length rows = last_level nf level nlevel /\
        (forall l, 0 < l < decades D nf level nlevel -> nth (l - 1) rows DBad = multi_row l (nf / (h * 2 ^ l))) /\
        (forall l, Nat.max (decades D nf level nlevel) 1 <= l <= last_level nf level nlevel -> nth (l - 1) rows DBad = multi_all l) /\
        (stats = true -> statistics cross S0 auto_bg X nf (out_bg s) (out_var s))).
      { assert (EN : nlevel <> None \/ nlevel = None) by (clear; destruct nlevel; [left; discriminate|right; reflexivity]).
        destruct EN as [EN|EN].
        - assert (H1 : s_nlevel S0 + 1 = Nat.max (s_decades S0) 1).
          { cbn [S0 multi s_decades s_nlevel]. apply no_rest. exact EN. }
          destruct (@end_none K V W complex cross cc ac w S0 norm full auto_bg stats prod g1 g2 lag len lost Hcross Hauto Hmerge Hinv Hlen
            Hn Hsl Htimes1 Htimes2 Hsi Hfr Hpos Hnl Hfit Hfit_auto Hincr Hroots Hfast_slow X s HS H1) as (F1 & F2 & F3 & F4 & F5).
          exists (data_slow s). split; [rewrite F1; destruct s; reflexivity|]. cbn [S0 multi s_nframes s_half] in F2. rewrite Hdiv in F2.
          split; [exact F2|]. split; [exact F3|]. split; [exact F4|]. split; [|exact F5].
          cbn [S0 multi s_decades s_nlevel] in H1. intros l' Hl'. exfalso. clear - H1 Hl'. lia.
        - assert (HT : forall j, j <= s_nlevel S0 -> s_level S0 <= s_nframes S0 / 2 ^ j).
          { cbn [S0 multi s_nlevel s_level s_nframes]. intros j Hj. apply top_level_spec; [exact Hlevel_nf|]. pose proof (last_top nf level nlevel). lia. }
          assert (HD : s_nframes S0 = s_half S0 * 2 ^ s_decades S0).
          { cbn [S0 multi s_nframes s_half s_decades]. clear - EN. unfold decades. rewrite EN. reflexivity. }
          destruct (@end_rest K V W complex cross cc ac w S0 norm full auto_bg stats prod g1 g2 lag len lost Hcross Hauto Hmerge Hinv Hlen
            Hn Hsl Htimes1 Htimes2 Hsi Hfr Hpos Hnl Hfit Hfit_auto Hincr Hroots Hfast_slow X s HS (Hbin EN) HD HT) as (rows & F1 & F2 & F3 & F4 & F5 & F6).
          exists rows. split; [exact F1|]. cbn [S0 multi s_nframes s_half] in F2. rewrite Hdiv in F2. auto. }
      destruct HF as (rows & F1 & F2 & F3 & F4 & F5 & F6).
      exists ys, (yield_of (with_data s (data_fast s) rows)). split.
      + unfold multi_iter, compute_multi_iter. rewrite Hsetup. cbn [bind]. destruct frames as [|x fr] eqn:EF; [contradiction|].
        change (s_method S0) with m. rewrite Hnorm. cbn [bind]. rewrite Hmode.
        match goal with |- bind ?x _ = _ => replace x with (@Ok (sstate K V * list (yielded K V)) (s, ys)) by (symmetry; exact E) end. cbn [bind].
        match goal with |- bind ?x _ = _ => replace x with (@Ok (sstate K V) (with_data s (data_fast s) rows)) by (symmetry; exact F1) end. reflexivity.
      + unfold yield_of, with_data. cbn [fst snd data_fast data_slow out_bg out_var].
        split; [exact HLy|]. split; [exact F2|]. split; [exact F3|]. split; [exact F4|]. split; [exact F5|]. split; [|exact F6].
        intros c Hc. cbv zeta. destruct (HY c Hc) as (Y1 & _ & Y3). exact Y3.
  Qed.

End Multi.
