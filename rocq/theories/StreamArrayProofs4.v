(** The streaming functions on frames with any number of axes: the whole generator, pixel by pixel. *)
From Coq Require Import String ZifyBool ZifyNat.
From Verif Require Import Base Kernels KernelProofs CoreModel CoreProofs CoreApi VecModel VecProofs FftModel NormModel CorrModel NormArrayModel NormArrayProofs AxisModel AxisProofs AxisProofs2 AxisProofs3
  MultiModel LevelArrayModel LevelArrayProofs MultiArrayModel MultiArrayProofs MultiArrayProofs2 MultiArrayProofs3 MultiArrayProofs4 MultiArrayProofs5 StreamModel StreamArrayModel StreamArrayProofs StreamArrayProofs2 StreamArrayProofs3.
Open Scope string_scope.
Open Scope nat_scope.
Local Notation length := List.length.
Set Implicit Arguments.

(** * The first state *)
Lemma zeros_row A (z : A) s m p : row (zeros (s ++ [m]) z) p = repeat z m.
Proof. rewrite (@row_map _ (zeros (s ++ [m]) z) s m p eq_refl). cbn [zeros at_]. rewrite map_const, seq_length. reflexivity. Qed.
Lemma zeros_item A (z : A) L s i : item (zeros (L :: s) z) i = zeros s z.
Proof. reflexivity. Qed.
Lemma zeros_rowc m : rowc (zeros [m] 0) = repeat 0 m.
Proof. unfold rowc. cbn [zeros shape at_ last]. rewrite map_const, seq_length. reflexivity. Qed.
Section Init.
  Variable K : Fld.
  Notation C := (Cx K).
  Variable V : CMon.
  Variables complex cross : bool.
  Lemma init_fast_at cor nm s n p : pix (init_data_nd K V complex cross cor nm [] s n) p = init_row K V complex cross cor nm n.
  Proof.
    unfold init_data_nd, init_row. cbn [List.app]. set (m := if (complex && cross)%bool then _ else _). destruct cor, (has_flag nm NORM_STRUCTURED), (has_flag nm NORM_SUBTRACTED), cross; cbn [pix option_map]; rewrite ?zeros_rowc, ?zeros_row; reflexivity.
  Qed.
  Lemma init_slow_at cor nm s n L p : levels_at (init_data_nd K V complex cross cor nm [L] s n) p = repeat (init_row K V complex cross cor nm n) L.
  Proof.
    assert (E : hd 0 (first_shape (init_data_nd K V complex cross cor nm [L] s n)) = L) by (unfold init_data_nd; destruct cor; reflexivity).
    unfold levels_at. rewrite E. rewrite (map_ext _ (fun _ => init_row K V complex cross cor nm n)); [rewrite map_const, seq_length; reflexivity|]. intros l. rewrite <- (init_fast_at cor nm s n p). f_equal.
    unfold init_data_nd. destruct cor, (has_flag nm NORM_STRUCTURED), (has_flag nm NORM_SUBTRACTED), cross; reflexivity.
  Qed.
  Lemma init_form cor nm lead s n : tuple_form cross cor nm (lead ++ s ++ [out_len complex cross n]) (lead ++ [out_len complex cross n]) (init_data_nd K V complex cross cor nm lead s n).
  Proof.
    unfold init_data_nd, out_len. set (m := if (complex && cross)%bool then _ else _). destruct cor; cbn [tuple_form].
    - destruct (has_flag nm NORM_STRUCTURED), (has_flag nm NORM_SUBTRACTED), cross; cbn [andb form]; repeat split; try reflexivity; eexists; split; reflexivity.
    - destruct (has_flag nm NORM_SUBTRACTED), cross; cbn [andb form]; repeat split; try reflexivity; eexists; split; reflexivity.
  Qed.
End Init.

(** * What is yielded *)
Section Out.
  Variable K : Fld.
  Notation C := (Cx K).
  Variable V : CMon.
  Variables (nanv : V) (nank : K) (nanc : C).
  Definition oyield (x : list nat -> list nat) (y : oyielded K V) (q : list nat) : yielded K V :=
    let '((fast, slow), (b1, b2), (v1, v2)) := y in ((pix fast q, levels_at slow q), (at_ b1 (x q), at_ b2 (x q)), (at_ v1 (x q), at_ v2 (x q))).
  Definition frames_shaped (s : list nat) (y : oyielded K V) : Prop :=
    let '(_, (b1, b2), (v1, v2)) := y in shape b1 = s /\ shape b2 = s /\ shape v1 = s /\ shape v2 = s.
  Definition oshaped (fr k : list nat) (y : oyielded K V) : Prop := both_shaped fr (fst (fst y)) /\ frames_shaped k y.

  Lemma frame_out A (nan : A) s k (x : frame A) : size_of s = size_of k -> reshape_frame_nd nan s k None x = Ok (Nd k (fun q => x (unravel s k q))).
  Proof. intros E. unfold reshape_frame_nd, reshape_to. cbn [shape]. rewrite E, Nat.eqb_refl. reflexivity. Qed.
  Variables (cross cor : bool) (nm : Z) (mf L ms : nat).
  Definition shapes (s : list nat) (y : nyielded K V) : Prop := tuple_form cross cor nm (s ++ [mf]) [mf] (fst (fst (fst y))) /\ tuple_form cross cor nm (L :: s ++ [ms]) [L; ms] (snd (fst (fst y))).
  Lemma output_one s k y : size_of s = size_of k -> length k <= length s -> size_of s = size_of (out_frame k s) -> shapes s y ->
    exists z, output_nd nanv nank nanc s k None y = Ok z /\ oshaped (out_frame k s) k z /\
      forall q, valid q (out_frame k s) -> yield_at y (unravel s (out_frame k s) q) = oyield (unravel k (out_frame k s)) z q.
  Proof.
    intros Es Hl Eo (F1 & F2). destruct y as [[[fast slow] [b1 b2]] [v1 v2]]. cbn [fst snd] in F1, F2.
    destruct (@outputs_pixels K V nanv nank nanc (fast, slow) k s mf L ms (@form_shaped K V cross cor nm _ _ _ F1) (@form_shaped K V cross cor nm _ _ _ F2) Hl Eo) as (fo & so & E1 & E2 & HS & HP). cbn [fst snd] in E1, E2.
    unfold output_nd. rewrite E1. cbn [bind]. rewrite E2. cbn [bind fst snd]. rewrite (frame_out nanc s k b1 Es), (frame_out nanc s k b2 Es), (frame_out nank s k v1 Es), (frame_out nank s k v2 Es). cbn [bind]. eexists. split; [reflexivity|]. split; [split; [exact HS|cbn; auto]|].
    intros q Hq. specialize (HP q Hq). unfold both_at in HP. cbn [fst snd] in HP. cbn [yield_at oyield at_]. unfold pair_at. cbn [fst snd]. assert (Ek : size_of k = size_of (out_frame k s)) by congruence.
    rewrite !(@unravel_trans s k (out_frame k s) q Ek Hq). rewrite HP. reflexivity.
  Qed.
  Lemma outputs_all s k ys : size_of s = size_of k -> length k <= length s -> size_of s = size_of (out_frame k s) -> Forall (shapes s) ys ->
    exists zs, outputs_nd nanv nank nanc s k None ys = Ok zs /\ Forall (oshaped (out_frame k s) k) zs /\
      forall q, valid q (out_frame k s) -> map (fun y => yield_at y (unravel s (out_frame k s) q)) ys = map (fun z => oyield (unravel k (out_frame k s)) z q) zs.
  Proof.
    intros Es Hl Eo. induction ys as [|y ys IH]; intros H; [exists []; repeat split; constructor|]. inversion H as [|y' ys' H1 H2]; subst. destruct (@output_one s k y Es Hl Eo H1) as (z & E & S1 & P1). destruct (IH H2) as (zs & E' & S2 & P2).
    cbn [outputs_nd]. rewrite E. cbn [bind]. rewrite E'. cbn [bind]. exists (z :: zs). split; [reflexivity|]. split; [constructor; assumption|]. intros q Hq. cbn [map]. rewrite (P1 q Hq), (P2 q Hq). reflexivity.
  Qed.
  (** With a mask *)
  Definition blank_out (mask : nd bool) (y : oyielded K V) : Prop :=
    masked_ok nanv nank nanc mask (fst (fst y)) /\ frames_shaped (shape mask) y /\ forall q, at_ mask q = false -> let '(_, (b1, b2), (v1, v2)) := y in at_ b1 q = nanc /\ at_ b2 q = nanc /\ at_ v1 q = nank /\ at_ v2 q = nank.
  Lemma frame_masked A (nan : A) mask (x : frame A) : let P := length (positions mask) in
    exists y, reshape_frame_nd nan [P] [P] (Some mask) x = Ok y /\ shape y = shape mask /\ (forall q, at_ mask q = false -> at_ y q = nan) /\ forall p, valid p [P] -> at_ y (nth (hd 0 p) (positions mask) []) = x p.
  Proof.
    intros P. unfold reshape_frame_nd, reshape_to. cbn [shape]. rewrite Nat.eqb_refl. cbn [bind shape]. fold P. rewrite broadcasts_same. eexists. split; [reflexivity|]. cbn [shape at_]. split; [reflexivity|]. split.
    - intros q Hq. rewrite place_lost; [reflexivity|]. unfold positions. rewrite filter_In. intros (_ & X). congruence.
    - intros p Hp. destruct (valid_line Hp) as (i & -> & Hi). cbn [hd]. rewrite place_found; [|apply positions_nodup|exact Hi]. rewrite broadcast_index_same by exact Hp. f_equal. exact (unravel_id Hp).
  Qed.
  Lemma masked_one mask y : rank mask = 2 -> shapes [length (positions mask)] y ->
    exists z, output_nd nanv nank nanc [length (positions mask)] [length (positions mask)] (Some mask) y = Ok z /\ blank_out mask z /\
      forall p, valid p [length (positions mask)] -> yield_at y p = oyield (fun q => q) z (nth (hd 0 p) (positions mask) []).
  Proof.
    intros HR (F1 & F2). destruct y as [[[fast slow] [b1 b2]] [v1 v2]]. cbn [fst snd] in F1, F2.
    destruct (@masked_outputs K V nanv nank nanc mask (fast, slow) mf L ms HR (@form_shaped K V cross cor nm _ _ _ F1) (@form_shaped K V cross cor nm _ _ _ F2)) as (fo & so & E1 & E2 & HS & HP). cbn [fst snd] in E1, E2.
    destruct (frame_masked nanc mask b1) as (x1 & X1 & S1 & N1 & P1). destruct (frame_masked nanc mask b2) as (x2 & X2 & S2 & N2 & P2). destruct (frame_masked nank mask v1) as (x3 & X3 & S3 & N3 & P3). destruct (frame_masked nank mask v2) as (x4 & X4 & S4 & N4 & P4).
    unfold output_nd. rewrite E1. cbn [bind]. rewrite E2. cbn [bind fst snd]. rewrite X1. cbn [bind]. rewrite X2. cbn [bind]. rewrite X3. cbn [bind]. rewrite X4. cbn [bind]. eexists. split; [reflexivity|]. split.
    - split; [exact HS|]. split; [cbn; auto|]. intros q Hq. auto.
    - intros p Hp. specialize (HP p Hp). unfold both_at in HP. cbn [fst snd] in HP. cbn [yield_at oyield]. unfold pair_at. cbn [fst snd]. rewrite (P1 p Hp), (P2 p Hp), (P3 p Hp), (P4 p Hp), HP. reflexivity.
  Qed.
  Lemma masked_all mask ys : rank mask = 2 -> Forall (shapes [length (positions mask)]) ys ->
    exists zs, outputs_nd nanv nank nanc [length (positions mask)] [length (positions mask)] (Some mask) ys = Ok zs /\ Forall (blank_out mask) zs /\
      forall p, valid p [length (positions mask)] -> map (fun y => yield_at y p) ys = map (fun z => oyield (fun q => q) z (nth (hd 0 p) (positions mask) [])) zs.
  Proof.
    intros HR. induction ys as [|y ys IH]; intros H; [exists []; repeat split; constructor|]. inversion H as [|y' ys' H1 H2]; subst. destruct (@masked_one mask y HR H1) as (z & E & S1 & P1). destruct (IH H2) as (zs & E' & S2 & P2).
    cbn [outputs_nd]. rewrite E. cbn [bind]. rewrite E'. cbn [bind]. exists (z :: zs). split; [reflexivity|]. split; [constructor; assumption|]. intros q Hq. cbn [map]. rewrite (P1 q Hq), (P2 q Hq). reflexivity.
  Qed.
  Lemma last_at (f : oyielded K V -> yielded K V) zs : last_yield (map f zs) = let* z := last_yield_nd zs in Ok (f z).
  Proof. unfold last_yield, last_yield_nd. rewrite <- map_rev. destruct (rev zs); reflexivity. Qed.
  Lemma last_good (P : oyielded K V -> Prop) zs z : Forall P zs -> last_yield_nd zs = Ok z -> P z.
  Proof.
    intros H E. unfold last_yield_nd in E. destruct (rev zs) as [|y l] eqn:R; [discriminate|]. apply ok_same in E. subst y. rewrite Forall_forall in H. apply H. apply in_rev. rewrite R. left. reflexivity.
  Qed.
End Out.

(** * The generator *)
Lemma setup_facts t1 t2 period level_size chunk_size binning method count len nlevel mode S0 : stream_setup t1 t2 period level_size chunk_size binning method count len nlevel mode = Ok S0 ->
  0 < s_half S0 /\ (s_decades S0 = 0 -> s_nframes S0 <= s_half S0).
Proof.
  unfold stream_setup. destruct (negb _); [discriminate|]. destruct (_default_method_and_binning method binning) as [[m b]|]; [|discriminate]. cbn [bind]. destruct (_inspect_t1_t2_count t1 t2 count len) as [[[u1 u2] c]|]; [|discriminate]. cbn [bind].
  destruct level_size as [l|]; [|discriminate]. destruct (_default_chunk_size chunk_size c l) as [half|]; [|discriminate]. cbn [bind]. cbv zeta. destruct (Nat.eqb_spec half 0); [discriminate|].
  destruct nlevel as [z|]; cbn [bind].
  - match goal with |- context [(?a <? 1)%Z] => destruct (Z.ltb_spec a 1); [discriminate|] end. cbn [bind]. intros E. apply ok_same in E. subst S0. cbn [s_half s_decades s_nframes]. split; [lia|]. lia.
  - intros E. apply ok_same in E. subst S0. cbn [s_half s_decades s_nframes]. split; [lia|]. intros ->. cbn [Nat.pow]. lia.
Qed.
Section Gen.
  Variable K : Fld.
  Notation C := (Cx K).
  Variable V : CMon.
  Variables complex cross : bool.
  Variable cc : nat -> nd C -> nd C -> option (list Z) -> option (list Z) -> Z -> option nat -> option Z -> option string ->
    option (nd K) -> option (nd K) -> option (ndata K V) -> res (ndata K V).
  Variable ac : nat -> nd C -> option (list Z) -> option (nd K) -> Z -> option nat -> option Z -> option string ->
    option (ndata K V) -> res (ndata K V).
  Variable cc1 : bool -> list C -> list C -> option (list Z) -> option (list Z) -> option nat ->
    option Z -> option string -> option (list K) -> option (list K) -> option (cdata K V) -> res (cdata K V).
  Variable ac1 : bool -> list C -> option (list Z) -> option (list K) -> option nat ->
    option Z -> option string -> option (cdata K V) -> res (cdata K V).
  Variables rs rs_bg rs_tail : nat -> bool.
  Variables (e1 e2 : nat -> nat -> frame C) (es1 es2 : nat -> nat -> frame K) (ebg : frame C * frame C) (evar : frame K * frame K).
  Variables (nanv : V) (nank : K) (nanc : C).
  Variable s : list nat.
  Variable aligned : nat -> bool.
  Hypothesis Hcc : cc_pixels V complex cc cc1 aligned s.
  Hypothesis Hac : cross = false -> complex = false /\ ac_pixels V complex ac ac1 aligned s.
  Notation iter1 p frames := (compute_multi_iter V complex cross cc1 ac1 aligned rs rs_bg rs_tail (fun j k => e1 j k p) (fun j k => e2 j k p) (fun j k => es1 j k p) (fun j k => es2 j k p) (pair_at ebg p) (pair_at evar p) frames) (only parsing).
  Notation iter := (compute_multi_iter_nd V complex cross cc ac rs rs_bg rs_tail e1 e2 es1 es2 ebg evar nanv nank nanc) (only parsing).
  Lemma iter_pixels fr k mask divisor t1 t2 period level_size chunk_size binning method count len auto_background nlevel norm stats mode
      (phi : list nat -> list nat) frames ys (good : oyielded K V -> Prop) (view : oyielded K V -> list nat -> yielded K V) :
    ReshapeModel.thread_frame_shape k divisor (match mask with None => true | Some _ => false end) = Ok (map Z.of_nat s) ->
    Forall (fun y => exists m, masked_frame mask (fst y) = Ok m /\ shape m = k) frames ->
    Forall2 (fun x y => get_frames_nd cross s mask x = Ok y) frames ys ->
    (forall q, valid q fr -> valid (phi q) s) -> (forall p, valid p s -> exists q, valid q fr /\ phi q = p) ->
    (forall cor nm mf L ms l, Forall (shapes cross cor nm mf L ms s) l -> exists zs, outputs_nd nanv nank nanc s k mask l = Ok zs /\ Forall good zs /\ forall q, valid q fr -> map (fun y => yield_at y (phi q)) l = map (fun z => view z q) zs) ->
    pixelwise fr (fun zs q => map (fun z => view z q) zs) (Forall good)
      (fun q => iter1 (phi q) (map (fun y => pair_at y (phi q)) ys) t1 t2 period level_size chunk_size binning method count len auto_background nlevel norm stats mode)
      (iter frames t1 t2 period level_size chunk_size binning method count len auto_background nlevel norm stats mode divisor mask).
  Proof using All.
    intros HD HM HY P1 P2 HO. unfold compute_multi_iter, compute_multi_iter_nd. destruct (stream_setup t1 t2 period level_size chunk_size binning method count len nlevel mode) as [S0|e] eqn:ES; cbn [bind]; [|apply pw_raise; intros; eexists; reflexivity].
    destruct (setup_facts _ _ _ _ _ _ _ _ _ _ _ ES) as (Hh & Hd). destruct frames as [|y0 frames].
    { inversion HY; subst ys. cbn [map]. destruct (_ <? _); apply pw_raise; intros; eexists; reflexivity. }
    inversion HM as [|? ? (m & Em & Sm) _]; subst. rewrite Em. cbn [bind]. rewrite HD. cbn [bind].
    eapply pw_ext with (one' := fun q => let* norm0 := _default_norm norm (s_method S0) cross in
      let* (st, l) := stream_loop cross cc1 ac1 aligned rs rs_bg S0 norm0 (String.eqb mode "full") auto_background stats (map (fun y => pair_at y (phi q)) ys) 0
        (init_state V complex cross (fun j k => e1 j k (phi q)) (fun j k => e2 j k (phi q)) (fun j k => es1 j k (phi q)) (fun j k => es2 j k (phi q)) (pair_at ebg (phi q)) (pair_at evar (phi q)) S0 norm0) in
      let* st := finish cross cc1 ac1 aligned rs_tail S0 norm0 st in Ok (l ++ [yield_of st])%list).
    { intros q _. inversion HY; subst. reflexivity. }
    destruct (_default_norm norm (s_method S0) cross) as [nm|e] eqn:EN; cbn [bind]; [|apply pw_raise; intros; eexists; reflexivity].
    rewrite existsb_of_nat, map_nat_Z. set (cor := negb (String.eqb (s_method S0) "diff")).
    assert (Hsub : cross = false -> cor = false -> has_flag nm NORM_SUBTRACTED = false).
    { intros HC HK. rewrite HC in EN. unfold _default_norm in EN. unfold cor in HK. destruct (String.eqb (s_method S0) "diff"); [|discriminate HK]. cbn [last] in EN. destruct (in_list _ _) eqn:EI in EN; [|discriminate EN]. apply ok_same in EN. subst nm. cbn [in_list existsb] in EI. rewrite orb_false_r in EI. apply Z.eqb_eq in EI. rewrite EI. reflexivity. }
    set (st0 := init_state_nd _ _ _ _ _ _ _ _ _ _ _ _). 
    assert (G0 : good_state complex cross s S0 nm st0).
    { unfold good_state, st0, init_state_nd. cbn [n_fdata1 n_fdata2 n_sq1 n_sq2 n_fast n_slow]. rewrite !init_buffer_widths. split; [auto|]. split; [apply (init_form K V complex cross cor nm [] s)|apply (init_form K V complex cross cor nm [s_nlevel S0] s)]. }
    assert (A0 : forall p, st_at st0 p = init_state V complex cross (fun j k => e1 j k p) (fun j k => e2 j k p) (fun j k => es1 j k p) (fun j k => es2 j k p) (pair_at ebg p) (pair_at evar p) S0 nm).
    { intros p. unfold st0, init_state_nd, init_state, st_at. cbn [n_fdata1 n_fdata2 n_sq1 n_sq2 n_fast n_slow n_bg n_sums n_sqsums n_outbg n_outvar option_map]. rewrite !init_buffer_at, init_fast_at, init_slow_at. reflexivity. }
    eapply pw_ext; [intros q _; rewrite <- A0; reflexivity|]. clearbody st0.
    pose proof (@loop_pixels K V complex cross cc ac cc1 ac1 aligned rs rs_bg rs_tail s Hcc Hac S0 nm (String.eqb mode "full") Hsub Hh Hd mask auto_background stats (y0 :: frames) ys 0 st0 HY (Nat.le_0_l _) G0) as HL. 
    apply (@pw_reindex s fr phi _ _ _ _ _ _ P1 P2) in HL. cbv beta in HL.
    eapply pw_bind; [exact HL|]. intros [st l] (G1 & Y1). cbv beta. cbn [fst snd] in *.
    pose proof (@finish_pixels K V complex cross cc ac cc1 ac1 aligned rs rs_bg rs_tail s Hcc Hac S0 nm true Hsub Hh Hd st G1) as HF. apply (@pw_reindex s fr phi _ _ _ _ _ _ P1 P2) in HF. cbv beta in HF.
    eapply pw_bind; [exact HF|]. intros st' G2. cbv beta.
    destruct (HO cor nm (out_len complex cross (s_fast S0)) (s_nlevel S0) (out_len complex cross (s_level S0)) (l ++ [yield_of_nd st'])%list) as (zs & EZ & GZ & PZ).
    { apply Forall_app. split; [exact Y1|]. constructor; [|constructor]. exact (proj2 G2). }
    rewrite EZ. apply pw_ok; [exact GZ|]. intros q Hq. rewrite <- (PZ q Hq), map_app. reflexivity.
  Qed.
End Gen.
