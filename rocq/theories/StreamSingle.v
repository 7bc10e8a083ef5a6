(** One level: the runs of iccorr and iacorr. *)
From Verif Require Import Base Kernels PairSpec KernelProofs PairLemmas RegularProofs CoreModel FftModel FftProofs CoreProofs CoreProofs2 CoreApi
  NormModel CorrModel CorrSpec CorrProofs CorrProofs2 PairAcc PairTuple MultiModel MultiSpec MultiProofs StreamModel CallPairs StreamBuffer StreamLoop StreamChunk StreamSpec StreamSetup StreamFits StreamIter.
From Coq Require Import String ZifyBool ZifyNat.
Open Scope string_scope.
Open Scope nat_scope.
Open Scope list_scope.
Local Notation length := List.length.
Set Implicit Arguments.

Lemma method_binning method m : method_arg method m -> exists bin, _default_method_and_binning method None = Ok (m, bin).
Proof. intros [[->|[->| ->]] [->|[-> E]]]; try discriminate E; eexists; reflexivity. Qed.

(** What iccorr and iacorr determine *)
Definition single (m : string) (bin : Z) (T1 T2 : list Z) (h n nframes : nat) : setup := Build_setup m bin T1 T2 h n n 1 nframes 0.
Lemma single_setup t1 t2 n chunk_size method count len mode T1 T2 total h D m bin :
  mode = "full" \/ mode = "chunk" -> _default_method_and_binning method None = Ok (m, bin) -> stream_args t1 t2 n chunk_size count len T1 T2 total h D ->
  stream_setup t1 t2 1 (Some n) chunk_size None method count len (Some 0%Z) mode = Ok (single m bin T1 T2 h n (h * 2 ^ D)).
Proof.
  intros HM HB HA. assert (HA' := HA). destruct HA' as (_ & _ & _ & _ & _ & Hn & Hh & HD).
  apply setup_ok; [lia|]. exists T1, T2, total, h, D, m, bin. split; [exact HM|]. split; [exact HB|]. split; [exact HA|]. cbv zeta.
  assert (HT : 0 < count_levels (S (h * 2 ^ D)) (h * 2 ^ D) n 0).
  { apply count_levels_spec; [lia|]. cbn [Nat.pow]. rewrite Nat.div_1_r. pose proof (pow_pos D). nia. }
  split; [lia|]. split; [exact HT|]. unfold single. f_equal; lia.
Qed.

Section Single.
  Variable K : Fld.
  Notation C := (Cx K).
  Variable V : CMon.
  Variable W : nat -> Cx K.
  Variables complex cross : bool.
  Variable cc : bool -> list C -> list C -> option (list Z) -> option (list Z) -> option nat ->
    option Z -> option string -> option (list K) -> option (list K) -> option (cdata K V) -> res (cdata K V).
  Variable ac : bool -> list C -> option (list Z) -> option (list K) -> option nat ->
    option Z -> option string -> option (cdata K V) -> res (cdata K V).
  Variable w : world K.
  Variable norm : Z.
  Variables full auto_bg stats : bool.
  Variables (m : string) (bin : Z) (T1 T2 : list Z) (h n nframes : nat).
  Let S0 := single m bin T1 T2 h n nframes.
  Notation diff := (String.eqb m "diff").
  Variable prod : sample C * sample C -> V.
  Variables g1 g2 : sample C * sample C -> C.
  Variable lag : nat -> nat -> Z -> bool.
  Variable len : nat -> nat.
  Variable lost : bool.
  Hypothesis Hcross : cross = true -> forall al v1 v2 t1 t2 n N d, okc W m v1 v2 t1 t2 N -> 0 < N -> shaped V diff true norm (len N) d ->
    cc al (map fst v1) (map fst v2) t1 t2 (Some n) (Some norm) (Some m) (sqarg K norm m (map snd v1)) (sqarg K norm m (map snd v2)) (Some d) =
    Ok (add_pairs prod g1 g2 d (fun i => sel (lag N i) (samples v1 t1) (samples v2 t2))).
  Hypothesis Hauto : cross = false -> forall al v t n d, oka W m v t n -> shaped V diff false norm (len n) d ->
    ac al (map fst v) t (sqarg K norm m (map snd v)) (Some n) (Some norm) (Some m) (Some d) =
    Ok (add_pairs prod g1 g2 d (fun i => usel (lag n i) (samples v t))).
  Hypothesis Hmerge : cross = false -> full = true -> forall al v1 v2 t1 t2 n crop d, okc W m v1 v2 (Some t1) (Some t2) n ->
    (lost = true -> forall a b, In a t1 -> In b t2 -> (b < a)%Z) -> 0 < crop <= n -> shaped V diff false norm (len crop) d ->
    (let* o := cc al (map fst v1) (map fst v2) (Some t1) (Some t2) (Some n) (Some norm) (Some m) (sqarg K norm m (map snd v1)) (sqarg K norm m (map snd v2)) None in
     merge_auto V crop d o) =
    Ok (add_pairs prod g1 g2 d (fun i => if lost then [] else sel (lag crop i) (samples v1 (Some t1)) (samples v2 (Some t2)))).
  Hypothesis Hinv : invariant false prod /\ invariant false g1 /\ (cross = true -> invariant false g2).
  Hypothesis Hlen : forall n, (if (complex && cross)%bool then 2 * n - 1 else n) = len n.
  Hypothesis Hn : 0 < n <= h.
  Hypothesis Htimes1 : nframes <= length T1.
  Hypothesis Htimes2 : nframes <= length T2.
  Hypothesis Hframes : exists k, nframes = k * h.
  Hypothesis Hpos : 0 < nframes.
  Hypothesis Hfit : cross = true -> forall c c', (c + 1) * h <= nframes -> (c' + 1) * h <= nframes ->
    c' = c \/ (full = true /\ (c' = c + 1 \/ c = c' + 1)) -> call_fits W m (chunk_times h c T1) (chunk_times h c' T2) n.
  Hypothesis Hfit_auto : cross = false -> forall c, (c + 1) * h <= nframes -> NoDup (chunk_times h c T1) /\
    call_fits W m (chunk_times h c T1) (chunk_times h c T1) n /\
    (full = true -> 0 < c -> call_fits W m (chunk_times h c T1) (chunk_times h (c - 1) T1) n).
  Hypothesis Hincr : lost = true -> forall a b, a < b -> b < nframes -> (nth a T1 0 < nth b T1 0)%Z.

  Variable mode : string.
  Hypothesis Hmode : String.eqb mode "full" = full.
  Variables (t1 t2 : option (list Z)) (chunk_size : option nat) (method : option string) (count lenf : option nat).
  Hypothesis Hsetup : stream_setup t1 t2 1 (Some n) chunk_size None method count lenf (Some 0%Z) mode = Ok S0.
  Hypothesis Hnorm : _default_norm (Some norm) m cross = Ok norm.

  Variable frames : list (C * C).
  Variable x0 : C * C.
  Notation X := (fun k => nth k frames x0).
  Notation iter := (multi_iter V complex cc ac w cross frames t1 t2 1 (Some n) chunk_size None method count lenf auto_bg (Some 0%Z) (Some norm) stats mode).
  Definition single_row (c : nat) : cdata K V := srow V cross w S0 norm full auto_bg prod g1 g2 lag len lost X 0 c.

  Theorem single_run : nframes <= length frames ->
    exists ys y, iter = Ok (ys ++ [y]) /\ length ys = nframes / h /\ fst (fst y) = (single_row (nframes / h), []) /\
      (forall c, c < length ys -> let y := nth c ys ((DBad, []), w_bg w, w_var w) in
        fst (fst (fst y)) = single_row (c + 1) /\ (stats = true -> statistics cross S0 auto_bg X ((c + 1) * h) (snd (fst y)) (snd y))) /\
      (stats = true -> statistics cross S0 auto_bg X nframes (snd (fst y)) (snd y)).
  Proof.
    intros HL.
    assert (HNE : frames <> []) by (destruct frames; [cbn in HL; lia|discriminate]).
    assert (Hsl : s_level S0 <= s_fast S0) by (cbn; lia).
    assert (Hsi : s_decades S0 = 0 -> s_nframes S0 = s_half S0) by (cbn; discriminate).
    assert (Hnl : s_decades S0 <= s_nlevel S0 + 1) by (cbn; lia).
    assert (Hro : 0 < s_nlevel S0 -> m = "corr" \/ m = "diff" \/ (m = "fft" /\ all_roots W)) by (cbn; lia).
    assert (Hfs : cross = false -> full = true -> 1 < s_decades S0 -> m = "fft" -> s_fast S0 <= s_half S0 + 1) by (cbn; lia).
    destruct (@loop_run K V W complex cross cc ac w S0 norm full auto_bg stats prod g1 g2 lag len lost Hcross Hauto Hmerge Hinv Hlen
      Hn Hsl Htimes1 Htimes2 Hsi Hframes Hpos Hnl Hfit Hfit_auto Hincr Hro Hfs X frames) as (s & ys & E & HS & HLy & HY).
    - intros k Hk. apply nth_indep. exact Hk.
    - exact HL.
    - destruct (@end_none K V W complex cross cc ac w S0 norm full auto_bg stats prod g1 g2 lag len lost Hcross Hauto Hmerge Hinv Hlen
      Hn Hsl Htimes1 Htimes2 Hsi Hframes Hpos Hnl Hfit Hfit_auto Hincr Hro Hfs X s HS) as (F1 & F2 & F3 & _ & F5); [reflexivity|].
      exists ys, (yield_of s). split.
      + unfold multi_iter, compute_multi_iter. rewrite Hsetup. cbn [bind]. destruct frames as [|x fr] eqn:EF; [contradiction|].
        change (s_method S0) with m. rewrite Hnorm. cbn [bind]. rewrite Hmode.
        match goal with |- bind ?x _ = _ => replace x with (@Ok (sstate K V * list (yielded K V)) (s, ys)) by (symmetry; exact E) end. cbn [bind].
        match goal with |- bind ?x _ = _ => replace x with (@Ok (sstate K V) s) by (symmetry; exact F1) end. reflexivity.
      + split; [exact HLy|]. split; [|split].
        * unfold yield_of. cbn [fst]. rewrite F2. f_equal. destruct (data_slow s); [reflexivity|discriminate F3].
        * intros c Hc. cbv zeta. destruct (HY c Hc) as (Y1 & _ & Y3). split; [exact Y1|exact Y3].
        * exact F5.
  Qed.
End Single.
