(** The streaming functions on frames with any number of axes: the correlations of the chunks, pixel by pixel. *)
From Coq Require Import String ZifyBool ZifyNat.
From Verif Require Import Base Kernels KernelProofs CoreModel CoreProofs CoreApi VecModel VecProofs FftModel NormModel CorrModel NormArrayModel NormArrayProofs AxisModel AxisProofs AxisProofs2 AxisProofs3
  MultiModel LevelArrayModel LevelArrayProofs MultiArrayModel MultiArrayProofs MultiArrayProofs2 StreamModel StreamArrayModel StreamArrayProofs StreamArrayProofs2.
Open Scope string_scope.
Open Scope nat_scope.
Local Notation length := List.length.
Set Implicit Arguments.

Definition at_pixel (A : Type) (l : list (frame A)) (p : list nat) : list A := map (fun x => x p) l.

Lemma chunk_arith half D j ic : j < D -> Nat.min half (nth j (if 0 <? D then repeat (2 * half) D else [half]) 0 - half * (ic mod 2)) = half.
Proof.
  intros H. destruct (Nat.ltb_spec 0 D); [|lia]. assert (E : nth j (repeat (2 * half) D) 0 = 2 * half) by (rewrite (nth_indep _ 0 (2 * half)) by (rewrite repeat_length; exact H); apply nth_repeat). rewrite E.
  assert (ic mod 2 < 2) by (apply Nat.mod_upper_bound; lia). destruct (ic mod 2) as [|[|]]; lia.
Qed.
Section Sim.
  Variable K : Fld.
  Notation C := (Cx K).
  Variable V : CMon.
  Variables complex cross : bool.
  Variable cc : nat -> nd C -> nd C -> option (list Z) -> option (list Z) -> Z -> option nat -> option Z -> option string ->
    option (nd K) -> option (nd K) -> option (ndata K V) -> res (ndata K V).
  Variable ac : nat -> nd C -> option (list Z) -> option (nd K) -> Z -> option nat -> option Z -> option string ->
    option (ndata K V) -> res (ndata K V).
  Variable cc1 : bool -> list C -> list C -> option (list Z) -> option (list Z) -> option nat ->
    option Z -> option string -> option (list K) -> option (list K) -> option (cdata K V) -> res (cdata K V).
  Variable ac1 : bool -> list C -> option (list Z) -> option (list K) -> option nat ->
    option Z -> option string -> option (cdata K V) -> res (cdata K V).
  Variable aligned : nat -> bool.
  Variables rs rs_bg rs_tail : nat -> bool.
  Variable s : list nat.
  Definition cc_pixels : Prop := forall j f1 f2 t1 t2 n nm method f1s f2s aout N, given t1 = given t2 -> shape f1 = N :: s -> shape f2 = N :: s ->
    (forall q, f1s = Some q -> shape q = N :: s) -> (forall q, f2s = Some q -> shape q = N :: s) -> (forall d, aout = Some d -> shaped d s) ->
    pixelwise s (@pix K V) (result_ok (@cross_alike K V) (Some nm) aout (Some n) complex s)
      (fun p => cc1 (aligned j) (series f1 0 p) (series f2 0 p) t1 t2 (Some n) (Some nm) (Some method) (option_map (fun q => series q 0 p) f1s) (option_map (fun q => series q 0 p) f2s) (option_map (fun d => pix d p) aout))
      (cc j f1 f2 t1 t2 0 (Some n) (Some nm) (Some method) f1s f2s aout).
  Definition ac_pixels : Prop := forall j f t n nm method fs aout N, shape f = N :: s -> (forall q, fs = Some q -> shape q = N :: s) -> (forall d, aout = Some d -> shaped d s) ->
    pixelwise s (@pix K V) (result_ok (@auto_alike K V) (Some nm) aout (Some n) complex s)
      (fun p => ac1 (aligned j) (series f 0 p) t (option_map (fun q => series q 0 p) fs) (Some n) (Some nm) (Some method) (option_map (fun d => pix d p) aout))
      (ac j f t fs 0 (Some n) (Some nm) (Some method) aout).
  Hypothesis Hcc : cc_pixels.
  Hypothesis Hac : cross = false -> complex = false /\ ac_pixels.
  Variable S0 : setup.
  Variable nm : Z.
  Variable full : bool.
  Let cor := negb (String.eqb (s_method S0) "diff").
  Hypothesis Hsub : cross = false -> cor = false -> has_flag nm NORM_SUBTRACTED = false.
  Let keep := (has_flag nm NORM_STRUCTURED && cor)%bool.

  Lemma sq_series (l : list (frame K)) p : option_map (fun q => series q 0 p) (if keep then Some (stack (f0 K) s l) else None) = if keep then Some (at_pixel l p) else None.
  Proof. destruct keep; [|reflexivity]. cbn [option_map]. rewrite stack_series. reflexivity. Qed.
  Lemma sq_shape (l : list (frame K)) N : length l = N -> forall q, (if keep then Some (stack (f0 K) s l) else None) = Some q -> shape q = N :: s.
  Proof. intros HN q E. destruct keep; [|discriminate E]. injection E as <-. cbn [stack shape]. rewrite HN. reflexivity. Qed.
  Lemma shaped_out m (out : ndata K V) : tuple_form cross cor nm (s ++ [m]) [m] out -> forall d, Some out = Some d -> shaped d s.
  Proof. intros H d E. injection E as <-. eapply tuple_shaped. exact H. Qed.

  (** One call that adds to [out] *)
  Lemma cross_call j (l1 l2 : list (frame C)) t1 t2 n (q1 q2 : list (frame K)) m out N : cross = true -> given t1 = given t2 -> length l1 = N -> length l2 = N -> length q1 = N -> length q2 = N ->
    tuple_form cross cor nm (s ++ [m]) [m] out ->
    pixelwise s (@pix K V) (tuple_form cross cor nm (s ++ [m]) [m])
      (fun p => cc1 (aligned j) (at_pixel l1 p) (at_pixel l2 p) t1 t2 (Some n) (Some nm) (Some (s_method S0)) (if keep then Some (at_pixel q1 p) else None) (if keep then Some (at_pixel q2 p) else None) (Some (pix out p)))
      (cc j (stack (c0 K) s l1) (stack (c0 K) s l2) t1 t2 0 (Some n) (Some nm) (Some (s_method S0)) (if keep then Some (stack (f0 K) s q1) else None) (if keep then Some (stack (f0 K) s q2) else None) (Some out)).
  Proof using Hcc.
    intros HC Ht L1 L2 L3 L4 HF. eapply pw_weaken with (good := result_ok (@cross_alike K V) (Some nm) (Some out) (Some n) complex s).
    { intros x (_ & HA & _). specialize (HA _ _ eq_refl eq_refl). rewrite HC in HF |- *. eapply alike_cross_form; [exact HF|exact HA]. }
    pose proof (@Hcc j (stack (c0 K) s l1) (stack (c0 K) s l2) t1 t2 n nm (s_method S0) (if keep then Some (stack (f0 K) s q1) else None) (if keep then Some (stack (f0 K) s q2) else None) (Some out) N Ht) as H.
    eapply pw_ext; [|apply H; clear H; [rewrite stack_shape, L1; reflexivity|rewrite stack_shape, L2; reflexivity|apply sq_shape; exact L3|apply sq_shape; exact L4|eapply shaped_out; exact HF]].
    intros p _. cbv beta. rewrite !stack_series, !sq_series. reflexivity.
  Qed.
  Lemma auto_call j (l : list (frame C)) t n (q : list (frame K)) m out : cross = false -> length q = length l ->
    tuple_form cross cor nm (s ++ [m]) [m] out ->
    pixelwise s (@pix K V) (tuple_form cross cor nm (s ++ [m]) [m])
      (fun p => ac1 (aligned j) (at_pixel l p) t (if keep then Some (at_pixel q p) else None) (Some n) (Some nm) (Some (s_method S0)) (Some (pix out p)))
      (ac j (stack (c0 K) s l) t (if keep then Some (stack (f0 K) s q) else None) 0 (Some n) (Some nm) (Some (s_method S0)) (Some out)).
  Proof using Hac Hsub.
    intros HC L3 HF. destruct (Hac HC) as (_ & Ha). eapply pw_weaken with (good := result_ok (@auto_alike K V) (Some nm) (Some out) (Some n) complex s).
    { intros x (_ & HA & _). specialize (HA _ _ eq_refl eq_refl). pose proof (Hsub HC) as HS. rewrite HC in HF |- *. eapply alike_auto_form; [exact HS|exact HF|exact HA]. }
    pose proof (@Ha j (stack (c0 K) s l) t n nm (s_method S0) (if keep then Some (stack (f0 K) s q) else None) (Some out) (length l)) as H.
    eapply pw_ext; [|apply H; clear H; [reflexivity|apply sq_shape; exact L3|eapply shaped_out; exact HF]].
    intros p _. cbv beta. rewrite !stack_series, !sq_series. reflexivity.
  Qed.

  Lemma chunk_pixels j new1 new2 old1 old2 qn1 qn2 qo1 qo2 tw1 tw2 tn1 tn2 to1 to2 nw nacr m (has_old : bool) out N : given tw1 = given tw2 ->
    length new1 = N -> length new2 = N -> length qn1 = N -> length qn2 = N -> (has_old = true -> length old1 = N /\ length old2 = N /\ length qo1 = N /\ length qo2 = N) ->
    forall crop, (cross = false -> crop = m) -> tuple_form cross cor nm (s ++ [m]) [m] out ->
    pixelwise s (@pix K V) (tuple_form cross cor nm (s ++ [m]) [m])
      (fun p => chunk_update V cross cc1 ac1 S0 nm full (aligned j) (at_pixel new1 p) (at_pixel new2 p) (at_pixel old1 p) (at_pixel old2 p) (at_pixel qn1 p) (at_pixel qn2 p) (at_pixel qo1 p) (at_pixel qo2 p)
         tw1 tw2 tn1 tn2 to1 to2 nw nacr crop has_old (pix out p))
      (chunk_update_nd V cross cc ac S0 nm full s j new1 new2 old1 old2 qn1 qn2 qo1 qo2 tw1 tw2 tn1 tn2 to1 to2 nw nacr crop has_old out).
  Proof using Hcc Hac Hsub.
    intros Ht L1 L2 L3 L4 LO crop Hm HF. unfold chunk_update, chunk_update_nd. fold cor. fold keep. destruct (Bool.bool_dec cross true) as [HC|HC].
    - assert (E : forall X (a b : X), (if cross then a else b) = a) by (intros; rewrite HC; reflexivity). rewrite E. eapply pw_ext; [intros p _; rewrite E; reflexivity|]. eapply pw_bind; [apply (@cross_call j new1 new2 tw1 tw2 nw qn1 qn2 m out N HC Ht L1 L2 L3 L4 HF)|]. intros o1 H1. cbv beta. destruct (has_old && full)%bool eqn:EO; [|apply pw_ok; [exact H1|reflexivity]].
      apply andb_prop in EO. destruct EO as (EO & _). destruct (LO EO) as (O1 & O2 & O3 & O4).
      eapply pw_bind; [apply (@cross_call j new1 old2 (Some tn1) (Some to2) nacr qn1 qo2 m o1 N HC eq_refl L1 O2 L3 O4 H1)|]. intros o2 H2. cbv beta.
      apply (@cross_call j old1 new2 (Some to1) (Some tn2) nacr qo1 qn2 m o2 N HC eq_refl O1 L2 O3 L4 H2).
    - apply Bool.not_true_is_false in HC. assert (E : forall X (a b : X), (if cross then a else b) = b) by (intros; rewrite HC; reflexivity). rewrite E. eapply pw_ext; [intros p _; rewrite E; reflexivity|]. specialize (Hm HC). subst crop.
      eapply pw_bind; [apply (@auto_call j new1 tw1 nw qn1 m out HC ltac:(congruence) HF)|]. intros o1 H1. cbv beta. destruct (has_old && full)%bool eqn:EO; [|apply pw_ok; [exact H1|reflexivity]].
      apply andb_prop in EO. destruct EO as (EO & _). destruct (LO EO) as (O1 & O2 & O3 & O4).
      eapply pw_bind with (proj := @pix K V) (good := fun o => wf o s nacr).
      + eapply pw_weaken with (good := result_ok (@cross_alike K V) (Some nm) None (Some nacr) complex s).
        { intros o (_ & _ & N' & (HN & _) & HW). rewrite (HN _ eq_refl) in HW. destruct (Hac HC) as (EC & _). apply HW; [rewrite EC; reflexivity|discriminate]. }
        pose proof (@Hcc j (stack (c0 K) s new1) (stack (c0 K) s old1) (Some tn1) (Some to1) nacr nm (s_method S0) (if keep then Some (stack (f0 K) s qn1) else None) (if keep then Some (stack (f0 K) s qo1) else None) None N eq_refl) as H.
        eapply pw_ext; [|apply H; clear H; [rewrite stack_shape, L1; reflexivity|rewrite stack_shape, O1; reflexivity|apply sq_shape; exact L3|apply sq_shape; exact O3|discriminate]].
        intros p _. cbv beta. rewrite !stack_series, !sq_series. reflexivity.
      + intros o Ho. cbv beta. rewrite HC in H1 |- *. eapply merge_pixels; [exact H1|exact Ho].
  Qed.

  (** ** The state *)
  Let half := s_half S0.
  Let D := s_decades S0.
  Let L := s_nlevel S0.
  Definition out_len (n : nat) : nat := if (complex && cross)%bool then 2 * n - 1 else n.
  Let mf := out_len (s_fast S0).
  Let ms := out_len (s_level S0).
  Let WD := if 0 <? D then repeat (2 * half) D else [half].
  Hypothesis Hhalf : 0 < half.
  Hypothesis Hdec : D = 0 -> s_nframes S0 <= half.
  Let fast_form (d : ndata K V) : Prop := tuple_form cross cor nm (s ++ [mf]) [mf] d.
  Let slow_form (d : ndata K V) : Prop := tuple_form cross cor nm (L :: s ++ [ms]) [L; ms] d.
  Definition good_state (st : nstate K V) : Prop :=
    (widths (n_fdata1 st) = WD /\ widths (n_fdata2 st) = WD /\ widths (n_sq1 st) = WD /\ widths (n_sq2 st) = WD) /\ fast_form (n_fast st) /\ slow_form (n_slow st).
  Definition good_yield (y : nyielded K V) : Prop := fast_form (fst (fst (fst y))) /\ slow_form (snd (fst (fst y))).
  Lemma same_good st st' : same_widths st st' -> good_state st -> good_state st'.
  Proof using. unfold same_widths, good_state. intros (E1 & E2 & E3 & E4 & E5 & E6) ((H1 & H2 & H3 & H4) & H5 & H6). rewrite E1, E2, E3, E4, E5, E6. auto. Qed.
  Lemma row_width A (b : list (list A)) j : widths b = WD -> length (nth j b []) = nth j WD 0.
  Proof using. intros <-. unfold widths. rewrite <- (map_nth (@length A) b [] j). reflexivity. Qed.
  Definition clen (j ic : nat) : nat := Nat.min half (nth j WD 0 - half * (ic mod 2)).
  Lemma chunk_len A (b : list (list A)) j ic : widths b = WD -> length (level_chunk S0 b j ic) = clen j ic.
  Proof using. intros H. unfold level_chunk, slice. rewrite firstn_length, skipn_length, (row_width b j H). reflexivity. Qed.
  Lemma prev_len A (b : list (list A)) j ic : widths b = WD -> length (level_prev S0 b j ic) = clen j (ic + 1).
  Proof using. intros H. unfold level_prev, slice. rewrite firstn_length, skipn_length, (row_width b j H). reflexivity. Qed.
  Lemma clen_full j ic : j < D -> clen j ic = half.
  Proof using.
    exact (@chunk_arith half D j ic).
  Qed.

  Lemma level_pixels j ic tw1 tw2 tn1 tn2 to1 to2 nw nacr m crop st out : (0 < ic -> j < D) -> given tw1 = given tw2 -> (cross = false -> crop = m) -> good_state st -> tuple_form cross cor nm (s ++ [m]) [m] out ->
    pixelwise s (@pix K V) (tuple_form cross cor nm (s ++ [m]) [m])
      (fun p => chunk_update V cross cc1 ac1 S0 nm full (aligned j) (level_chunk S0 (fdata1 (st_at st p)) j ic) (level_chunk S0 (fdata2 (st_at st p)) j ic) (level_prev S0 (fdata1 (st_at st p)) j ic) (level_prev S0 (fdata2 (st_at st p)) j ic)
         (level_chunk S0 (sq1 (st_at st p)) j ic) (level_chunk S0 (sq2 (st_at st p)) j ic) (level_prev S0 (sq1 (st_at st p)) j ic) (level_prev S0 (sq2 (st_at st p)) j ic)
         tw1 tw2 tn1 tn2 to1 to2 nw nacr crop (0 <? ic) (pix out p))
      (chunk_update_nd V cross cc ac S0 nm full s j (level_chunk S0 (n_fdata1 st) j ic) (level_chunk S0 (n_fdata2 st) j ic) (level_prev S0 (n_fdata1 st) j ic) (level_prev S0 (n_fdata2 st) j ic)
         (level_chunk S0 (n_sq1 st) j ic) (level_chunk S0 (n_sq2 st) j ic) (level_prev S0 (n_sq1 st) j ic) (level_prev S0 (n_sq2 st) j ic)
         tw1 tw2 tn1 tn2 to1 to2 nw nacr crop (0 <? ic) out).
  Proof using Hcc Hac Hsub.
    intros Hj Ht Hm ((W1 & W2 & W3 & W4) & _) HF.
    pose proof (@chunk_pixels j (level_chunk S0 (n_fdata1 st) j ic) (level_chunk S0 (n_fdata2 st) j ic) (level_prev S0 (n_fdata1 st) j ic) (level_prev S0 (n_fdata2 st) j ic)
      (level_chunk S0 (n_sq1 st) j ic) (level_chunk S0 (n_sq2 st) j ic) (level_prev S0 (n_sq1 st) j ic) (level_prev S0 (n_sq2 st) j ic) tw1 tw2 tn1 tn2 to1 to2 nw nacr m (0 <? ic) out (clen j ic) Ht
      (chunk_len _ j ic W1) (chunk_len _ j ic W2) (chunk_len _ j ic W3) (chunk_len _ j ic W4)) as H.
    eapply pw_ext; [|apply H; clear H; [|exact Hm|exact HF]].
    - intros p _. cbn [st_at fdata1 fdata2 sq1 sq2]. rewrite !chunk_at, !prev_at. reflexivity.
    - intros Hi. apply Nat.ltb_lt in Hi. specialize (Hj Hi). rewrite (prev_len _ j ic W1), (prev_len _ j ic W2), (prev_len _ j ic W3), (prev_len _ j ic W4), !clen_full by exact Hj. auto.
  Qed.
  Lemma fast_pixels i st : i < s_nframes S0 -> good_state st ->
    pixelwise s (@pix K V) fast_form (fun p => fast_update cross cc1 ac1 aligned S0 nm full (i / half) (st_at st p)) (fast_update_nd cross cc ac S0 nm full s (i / half) st).
  Proof using All.
    intros Hi HG. unfold fast_update, fast_update_nd. cbn [data_fast st_at]. apply (@level_pixels 0 (i / half)); [|reflexivity| |exact HG|apply HG].
    - intros Hic. destruct (Nat.eq_dec D 0) as [E|E]; [|lia]. specialize (Hdec E). rewrite Nat.div_small in Hic by lia. lia.
    - intros HC. unfold mf, out_len. rewrite HC, andb_false_r. reflexivity.
  Qed.
  Lemma slow_pixels i st : i < s_nframes S0 -> good_state st -> forall todo j slow, 1 <= j -> j + todo <= Nat.max D 1 -> slow_form slow ->
    pixelwise s (@levels_at K V) slow_form (fun p => slow_update cross cc1 ac1 aligned S0 nm full todo j i (st_at st p) (levels_at slow p)) (slow_update_nd cross cc ac S0 nm full s todo j i st slow).
  Proof using All.
    intros Hi HG. induction todo as [|todo IH]; intros j slow Hj Ht HF; cbn [slow_update slow_update_nd]; [apply pw_ok; [exact HF|reflexivity]|]. fold half.
    destruct (_ =? _); [|apply pw_ok; [exact HF|reflexivity]]. destruct (hd 0 (first_shape slow) <=? j - 1) eqn:EL.
    { apply pw_raise. intros p _. rewrite levels_nth, EL. eexists. reflexivity. }
    eapply pw_ext; [intros p _; rewrite levels_nth, EL; reflexivity|].
    eapply pw_bind; [apply (@level_pixels j _ None None _ _ _ _ _ _ ms (s_level S0) st (level_data slow (j - 1)))|].
    - intros _. lia.
    - reflexivity.
    - intros HC. unfold ms, out_len. rewrite HC, andb_false_r. reflexivity.
    - exact HG.
    - eapply level_form. exact HF.
    - intros row HR. cbv beta. eapply pw_ext with (one' := fun p => slow_update cross cc1 ac1 aligned S0 nm full todo (S j) i (st_at st p) (levels_at (set_level slow (j - 1) row) p)).
      + intros p _. rewrite (@set_level_at K V cross cor nm L s ms ms slow row (j - 1) p HF HR). reflexivity.
      + apply IH; [lia|lia|]. apply (@set_level_pixels K V cross cor nm L s ms ms slow row (j - 1) HF HR).
  Qed.
  Lemma step_pixels auto_background stats i x st : i < s_nframes S0 -> good_state st ->
    pixelwise s (fun r p => (st_at (fst r) p, map (fun y => yield_at y p) (snd r))) (fun r => good_state (fst r) /\ Forall good_yield (snd r))
      (fun p => frame_step cross cc1 ac1 aligned rs rs_bg S0 nm full auto_background stats i (pair_at x p) (st_at st p))
      (frame_step_nd cross cc ac rs rs_bg S0 nm full s auto_background stats i x st).
  Proof using All.
    intros Hi HG. unfold frame_step, frame_step_nd. fold half. pose proof (@store_same K V cross S0 rs rs_bg auto_background i x st) as SS. set (st1 := store_frame_nd cross rs rs_bg S0 auto_background i x st) in *.
    assert (G1 : good_state st1) by (eapply same_good; eassumption).
    eapply pw_ext; [intros p _; rewrite <- store_at; fold st1; reflexivity|]. destruct (_ =? _); [|apply pw_ok; [split; [exact G1|constructor]|reflexivity]].
    set (st2 := if stats then stat_update_nd cross S0 (i / half) st1 else st1). assert (G2 : good_state st2) by (unfold st2; destruct stats; [eapply same_good; [apply stat_same|exact G1]|exact G1]).
    eapply pw_ext with (one' := fun p => let* fast := fast_update cross cc1 ac1 aligned S0 nm full (i / half) (st_at st2 p) in
        let* slow := slow_update cross cc1 ac1 aligned S0 nm full (s_decades S0 - 1) 1 i (st_at st2 p) (levels_at (n_slow st2) p) in
        Ok (with_data (st_at st2 p) fast slow, [yield_of (with_data (st_at st2 p) fast slow)])).
    { intros p _. unfold st2. destruct stats; [rewrite <- stat_at_nd; reflexivity|reflexivity]. }
    eapply pw_bind; [apply (fast_pixels Hi G2)|]. intros fast Hf. cbv beta. eapply pw_bind; [apply (slow_pixels Hi G2); [lia|fold D; lia|apply G2]|]. intros slow Hs. cbv beta.
    apply pw_ok; [|reflexivity]. cbn [fst snd]. split; [split; [apply G2|split; [exact Hf|exact Hs]]|]. constructor; [|constructor]. split; [exact Hf|exact Hs].
  Qed.
  Lemma loop_pixels mask auto_background stats : forall frames ys i st, Forall2 (fun x y => get_frames_nd cross s mask x = Ok y) frames ys -> i <= s_nframes S0 -> good_state st ->
    pixelwise s (fun r p => (st_at (fst r) p, map (fun y => yield_at y p) (snd r))) (fun r => good_state (fst r) /\ Forall good_yield (snd r))
      (fun p => stream_loop cross cc1 ac1 aligned rs rs_bg S0 nm full auto_background stats (map (fun y => pair_at y p) ys) i (st_at st p))
      (stream_loop_nd cross cc ac rs rs_bg S0 nm full s mask auto_background stats frames i st).
  Proof using All.
    induction frames as [|x frames IH]; intros ys i st HY Hi HG; destruct ys as [|y ys']; try (exfalso; inversion HY; fail); cbn [stream_loop stream_loop_nd map].
    - destruct (i - 1 <? s_nframes S0 - 1); [apply pw_raise; intros; eexists; reflexivity|apply pw_ok; [split; [exact HG|constructor]|reflexivity]].
    - assert (Hx : get_frames_nd cross s mask x = Ok y) by (inversion HY; assumption). assert (HY' : Forall2 (fun x y => get_frames_nd cross s mask x = Ok y) frames ys') by (inversion HY; assumption).
      destruct (Nat.eqb_spec i (s_nframes S0)) as [E|E]; [apply pw_ok; [split; [exact HG|constructor]|reflexivity]|]. rewrite Hx. cbn [bind].
      eapply pw_bind; [apply step_pixels; [lia|exact HG]|]. intros [st1 y1] (G1 & Y1). cbv beta. cbn [fst snd] in *. eapply pw_bind; [apply (IH ys' (S i) st1 HY'); [lia|exact G1]|]. intros [st2 y2] (G2 & Y2). cbv beta. cbn [fst snd] in *.
      apply pw_ok; cbn [fst snd]; [split; [exact G2|apply Forall_app; split; assumption]|]. intros p _. rewrite map_app. reflexivity.
  Qed.
  (** ** The rest of the data *)
  Lemma tail_pixels : forall todo j N f1 f2 q1 q2 (l1 l2 : list nat -> list C) (k1 k2 : list nat -> list K) slow, shape f1 = N :: s -> (cross = true -> shape f2 = N :: s) -> (forall x, q1 = Some x -> shape x = N :: s) -> (cross = true -> forall x, q2 = Some x -> shape x = N :: s) ->
    (forall p, valid p s -> series f1 0 p = l1 p /\ (cross = true -> series f2 0 p = l2 p) /\ option_map (fun x => series x 0 p) q1 = (if keep then Some (k1 p) else None) /\ (cross = true -> option_map (fun x => series x 0 p) q2 = if keep then Some (k2 p) else None)) ->
    slow_form slow ->
    pixelwise s (@levels_at K V) slow_form (fun p => tail_update V cross cc1 ac1 aligned rs_tail S0 nm todo j (l1 p) (l2 p) (k1 p) (k2 p) (levels_at slow p)) (tail_update_nd V cross cc ac rs_tail S0 nm todo j f1 f2 q1 q2 slow).
  Proof using All.
    induction todo as [|todo IH]; intros j N f1 f2 q1 q2 l1 l2 k1 k2 slow S1 S2 T1 T2 HP HF; cbn [tail_update tail_update_nd]; [apply pw_ok; [exact HF|reflexivity]|].
    set (b := s_binning S0) in *. set (r := rs_tail j) in *. assert (E0 : norm_axis (length (N :: s)) 0 = Ok 0) by (unfold norm_axis; cbn [length]; destruct (Z.leb_spec (- Z.of_nat (S (length s))) 0); [|lia]; destruct (Z.ltb_spec 0 (Z.of_nat (S (length s)))); [reflexivity|lia]).
    assert (IL : forall m, ins 0 m (del 0 (N :: s)) = m :: s) by reflexivity.
    destruct (@bin_signal K b r f1 (N :: s) 0 0 S1 E0) as (g1 & EG1 & SG1 & PG1). destruct (@bin_squares K b r q1 (N :: s) 0 0 T1 E0) as (u1 & EU1 & SU1 & PU1). rewrite IL in SG1, SU1. cbn [nth] in SG1, SU1. set (N' := bin_length b N) in *.
    assert (X : exists g2, (if cross then bin_nd (cgrp K) b r f2 0 0 else Ok f2) = Ok g2 /\ (cross = true -> shape g2 = N' :: s) /\ (cross = true -> forall p, valid p s -> series g2 0 p = bin_data (cgrp K) b r (series f2 0 p))).
    { destruct cross eqn:HC in S2 |- *; [|exists f2; split; [reflexivity|split; discriminate]]. destruct (@bin_signal K b r f2 (N :: s) 0 0 (S2 eq_refl) E0) as (g2 & EG2 & SG2 & PG2). exists g2. split; [exact EG2|]. split; [intros _; exact SG2|]. intros _ p Hp. apply PG2. apply valid_length in Hp. exact Hp. }
    destruct X as (g2 & EG2 & SG2 & PG2).
    assert (X : exists u2, (if cross then bin_opt (fgrp K) b r q2 0 0 else Ok q2) = Ok u2 /\ (cross = true -> forall x, u2 = Some x -> shape x = N' :: s) /\ (cross = true -> forall p, valid p s -> option_map (fun x => series x 0 p) u2 = option_map (bin_data (fgrp K) b r) (option_map (fun x => series x 0 p) q2))).
    { destruct cross eqn:HC in T2 |- *; [|exists q2; split; [reflexivity|split; discriminate]]. destruct (@bin_squares K b r q2 (N :: s) 0 0 (T2 eq_refl) E0) as (u2 & EU2 & SU2 & PU2). exists u2. split; [exact EU2|]. split; [intros _; exact SU2|]. intros _ p Hp. apply PU2. apply valid_length in Hp. exact Hp. }
    destruct X as (u2 & EU2 & SU2 & PU2).
    assert (HP' : forall p, valid p s -> series g1 0 p = bin_data (cgrp K) b r (l1 p) /\ (cross = true -> series g2 0 p = bin_data (cgrp K) b r (l2 p)) /\ option_map (fun x => series x 0 p) u1 = (if keep then Some (bin_data (fgrp K) b r (k1 p)) else None) /\ (cross = true -> option_map (fun x => series x 0 p) u2 = if keep then Some (bin_data (fgrp K) b r (k2 p)) else None)).
    { intros p Hp. destruct (HP p Hp) as (P1 & P2 & P3 & P4). pose proof (valid_length Hp) as Lp. split; [rewrite (PG1 p Lp), P1; reflexivity|]. split; [intros HC; rewrite (PG2 HC p Hp), (P2 HC); reflexivity|]. split; [rewrite (PU1 p Lp), P3; destruct keep; reflexivity|]. intros HC. rewrite (PU2 HC p Hp), (P4 HC). destruct keep; reflexivity. }
    rewrite EG1. cbn [bind]. rewrite EG2. cbn [bind]. rewrite EU1. cbn [bind]. rewrite EU2. cbn [bind].
    destruct (hd 0 (first_shape slow) <=? j - 1) eqn:EL.
    { apply pw_raise. intros p _. rewrite levels_nth, EL. eexists. reflexivity. }
    eapply pw_ext; [intros p _; rewrite levels_nth, EL; reflexivity|].
    eapply pw_bind with (proj := @pix K V) (good := tuple_form cross cor nm (s ++ [ms]) [ms]).
    - assert (HL : tuple_form cross cor nm (s ++ [ms]) [ms] (level_data slow (j - 1))) by (eapply level_form; exact HF). fold cor. fold keep. destruct (Bool.bool_dec cross true) as [HC|HC].
      + assert (E : forall X (a b : X), (if cross then a else b) = a) by (intros; rewrite HC; reflexivity). rewrite E. eapply pw_weaken with (good := result_ok (@cross_alike K V) (Some nm) (Some (level_data slow (j - 1))) (Some (s_level S0)) complex s).
        { intros x (_ & HA & _). specialize (HA _ _ eq_refl eq_refl). rewrite HC in HL |- *. eapply alike_cross_form; [exact HL|exact HA]. }
        pose proof (@Hcc j g1 g2 None None (s_level S0) nm (s_method S0) u1 u2 (Some (level_data slow (j - 1))) N' eq_refl SG1 (SG2 HC) SU1 (SU2 HC)) as H.
        eapply pw_ext; [|apply H; clear H; eapply shaped_out; exact HL]. intros p Hp. cbv beta. rewrite E. destruct (HP' p Hp) as (P1 & P2 & P3 & P4). f_equal; first [exact (eq_sym P1)|exact (eq_sym (P2 HC))|exact (eq_sym P3)|exact (eq_sym (P4 HC))].
      + apply Bool.not_true_is_false in HC. assert (E : forall X (a b : X), (if cross then a else b) = b) by (intros; rewrite HC; reflexivity). rewrite E. destruct (Hac HC) as (_ & Ha). eapply pw_weaken with (good := result_ok (@auto_alike K V) (Some nm) (Some (level_data slow (j - 1))) (Some (s_level S0)) complex s).
        { intros x (_ & HA & _). specialize (HA _ _ eq_refl eq_refl). pose proof (Hsub HC) as HS. rewrite HC in HL |- *. eapply alike_auto_form; [exact HS|exact HL|exact HA]. }
        pose proof (@Ha j g1 None (s_level S0) nm (s_method S0) u1 (Some (level_data slow (j - 1))) N' SG1 SU1) as H.
        eapply pw_ext; [|apply H; clear H; eapply shaped_out; exact HL]. intros p Hp. cbv beta. rewrite E. destruct (HP' p Hp) as (P1 & P2 & P3 & P4). f_equal; first [exact (eq_sym P1)|exact (eq_sym P3)].
    - intros row HR. cbv beta. eapply pw_ext; [intros p _; rewrite <- (@set_level_at K V cross cor nm L s ms ms slow row (j - 1) p HF HR); reflexivity|].
      apply (IH (S j) N' g1 g2 u1 u2 (fun p => bin_data (cgrp K) b r (l1 p)) (fun p => bin_data (cgrp K) b r (l2 p)) (fun p => bin_data (fgrp K) b r (k1 p)) (fun p => bin_data (fgrp K) b r (k2 p))); try assumption.
      apply (@set_level_pixels K V cross cor nm L s ms ms slow row (j - 1) HF HR).
  Qed.
  Lemma last_width A (b : list (list A)) : widths b = WD -> length (last b []) = last WD 0.
  Proof using. intros <-. unfold widths. induction b as [|x b IH]; [reflexivity|]. destruct b as [|y b]; [reflexivity|]. exact IH. Qed.
  Lemma finish_pixels st : good_state st ->
    pixelwise s (@st_at K V) good_state (fun p => finish cross cc1 ac1 aligned rs_tail S0 nm (st_at st p)) (finish_nd cross cc ac rs_tail S0 nm s st).
  Proof using All.
    intros HG. destruct HG as ((W1 & W2 & W3 & W4) & HF & HS). unfold finish, finish_nd. fold cor. fold keep. eapply pw_bind with (proj := @levels_at K V) (good := slow_form).
    - cbn [st_at fdata1 fdata2 sq1 sq2 data_slow].
      apply (@tail_pixels _ _ (last WD 0) _ _ _ _ (fun p => last (buf_at (n_fdata1 st) p) []) (fun p => last (buf_at (n_fdata2 st) p) []) (fun p => last (buf_at (n_sq1 st) p) []) (fun p => last (buf_at (n_sq2 st) p) [])).
      + rewrite stack_shape, (last_width _ W1). reflexivity.
      + intros _. rewrite stack_shape, (last_width _ W2). reflexivity.
      + apply sq_shape. apply (last_width _ W3).
      + intros _. apply sq_shape. apply (last_width _ W4).
      + intros p _. unfold buf_at. rewrite !last_map_nil, !stack_series, !sq_series. repeat split; reflexivity.
      + exact HS.
    - intros slow Hs. cbv beta. apply pw_ok; [split; [repeat split; assumption|split; [exact HF|exact Hs]]|]. reflexivity.
  Qed.
End Sim.
