(** The streaming functions on frames with any number of axes: the functions of the package. *)
From Coq Require Import String ZifyBool ZifyNat.
From Verif Require Import Base Kernels KernelProofs CoreModel CoreProofs CoreApi VecModel VecProofs FftModel NormModel CorrModel NormArrayModel NormArrayProofs AxisModel AxisProofs AxisProofs2 AxisProofs3
  MultiModel LevelArrayModel LevelArrayProofs MultiArrayModel MultiArrayProofs MultiArrayProofs2 MultiArrayProofs3 MultiArrayProofs4 MultiArrayProofs5 StreamModel StreamArrayModel StreamArrayProofs StreamArrayProofs2 StreamArrayProofs3
  StreamArrayProofs4.
Open Scope string_scope.
Open Scope nat_scope.
Local Notation length := List.length.
Set Implicit Arguments.

(** * The correlations of the chunks *)
Section Calls.
  Variable K : Fld.
  Notation C := (Cx K).
  Variable W : nat -> C.
  Variable w : nworld K.
  Variable s : list nat.
  Definition choice (j : nat) : bool := chosen (nw_contig w j) (nw_contig' w j) (S (length s)) 0 false None.
  Lemma axis_zero A (f : nd A) N : shape f = N :: s -> norm_axis (rank f) 0 = Ok 0 /\ rank f = S (length s) /\ del 0 (shape f) = s.
  Proof. intros E. unfold rank. rewrite E. cbn [length del]. split; [|split; reflexivity]. unfold norm_axis. destruct (Z.leb_spec (- Z.of_nat (S (length s))) 0); [|lia]. destruct (Z.ltb_spec 0 (Z.of_nat (S (length s)))); [reflexivity|lia]. Qed.
  Lemma cc_real_pixels : @cc_pixels K (fmon K) false (cc_real W w) (ccorr W) choice s.
  Proof.
    intros j f1 f2 t1 t2 n nm method f1s f2s aout N Ht S1 S2 Q1 Q2 HA. destruct (axis_zero f1 S1) as (Ea & Er & Ed).
    pose proof (@ccorr_pixels K W (nw_contig w j) (nw_contig' w j) f1 f2 t1 t2 0 (Some n) (Some nm) false (Some method) f1s f2s aout 0 Ea) as H. rewrite S1, S2 in H. specialize (H eq_refl Q1 Q2). change (del 0 (N :: s)) with s in H. specialize (H HA).
    eapply pw_ext; [|exact H]. intros p _. cbv beta. rewrite Er. destruct t1 as [t1|], t2 as [t2|]; try discriminate Ht; [|reflexivity]. apply ccorr_times.
  Qed.
  Lemma cc_complex_pixels : @cc_pixels K (cmon K) true (cc_complex W w) (ccorr_complex W) choice s.
  Proof.
    intros j f1 f2 t1 t2 n nm method f1s f2s aout N Ht S1 S2 Q1 Q2 HA. destruct (axis_zero f1 S1) as (Ea & Er & Ed).
    pose proof (@ccorr_complex_pixels K W (nw_contig w j) (nw_contig' w j) f1 f2 t1 t2 0 (Some n) (Some nm) false (Some method) f1s f2s aout 0 Ea) as H. rewrite S1, S2 in H. specialize (H eq_refl Q1 Q2). change (del 0 (N :: s)) with s in H. specialize (H HA).
    eapply pw_ext; [|exact H]. intros p _. cbv beta. rewrite Er. destruct t1 as [t1|], t2 as [t2|]; try discriminate Ht; [|reflexivity]. apply ccorr_complex_times.
  Qed.
  Lemma ac_real_pixels : @ac_pixels K (fmon K) false (ac_real W w) (acorr W) choice s.
  Proof.
    intros j f t n nm method fs aout N S1 Q1 HA. destruct (axis_zero f S1) as (Ea & Er & Ed).
    pose proof (@acorr_pixels K W (nw_contig w j) (nw_contig' w j) f t fs 0 (Some n) (Some nm) false (Some method) aout 0 Ea) as H. rewrite S1 in H. specialize (H Q1). change (del 0 (N :: s)) with s in H. specialize (H HA).
    eapply pw_ext; [|exact H]. intros p _. cbv beta. rewrite Er. destruct t as [t|]; [|reflexivity]. apply acorr_times.
  Qed.
  (** What the world is for one pixel *)
  Definition world_at (p : list nat) : world K :=
    {| w_aligned := choice; w_rs := nw_rs w; w_rs_bg := nw_rs_bg w; w_rs_tail := nw_rs_tail w; w_e1 := fun j k => nw_e1 w j k p; w_e2 := fun j k => nw_e2 w j k p; w_es1 := fun j k => nw_es1 w j k p; w_es2 := fun j k => nw_es2 w j k p;
       w_bg := pair_at (nw_bg w) p; w_var := pair_at (nw_var w) p |}.
End Calls.

(** * The layout of the frames *)
Section Layout.
  Variable K : Fld.
  Notation C := (Cx K).
  Variable V : CMon.
  Variables (nanv : V) (nank : K) (nanc : C).
  Variable cross : bool.
  (** The two values of a pixel *)
  Definition pixel_of (p : list nat) (x : nd C * nd C) : C * C := (at_ (fst x) p, if cross then at_ (snd x) p else c0 K).
  (** Frames with the pixels [fr] of the result, computed with the shape [s]; [phi] and [xi] give the pixel of the computation and of
      the frames, [view] what is yielded for a pixel *)
  Definition layout (fr s k : list nat) (divisor : option Z) (mask : option (nd bool)) (phi xi : list nat -> list nat) (view : oyielded K V -> list nat -> yielded K V) (good : oyielded K V -> Prop) (frames : list (nd C * nd C)) : Prop :=
    ReshapeModel.thread_frame_shape k divisor (match mask with None => true | Some _ => false end) = Ok (map Z.of_nat s) /\
    Forall (fun y => exists m, masked_frame mask (fst y) = Ok m /\ shape m = k) frames /\
    (exists ys, Forall2 (fun x y => get_frames_nd cross s mask x = Ok y) frames ys /\ forall q, valid q fr -> map (fun y => pair_at y (phi q)) ys = map (pixel_of (xi q)) frames) /\
    (forall q, valid q fr -> valid (phi q) s) /\ (forall p, valid p s -> exists q, valid q fr /\ phi q = p) /\
    (forall cor nm mf L ms l, Forall (shapes cross cor nm mf L ms s) l -> exists zs, outputs_nd nanv nank nanc s k mask l = Ok zs /\ Forall good zs /\ forall q, valid q fr -> map (fun y => yield_at y (phi q)) l = map (fun z => view z q) zs).
  Lemma plain_layout s k divisor frames : ReshapeModel.thread_frame_shape k divisor true = Ok (map Z.of_nat s) -> size_of s = size_of k -> length k <= length s -> size_of s = size_of (out_frame k s) ->
    Forall (fun x => shape (fst x) = k /\ (cross = true -> shape (snd x) = k)) frames ->
    layout (out_frame k s) s k divisor None (unravel s (out_frame k s)) (unravel k (out_frame k s)) (oyield (unravel k (out_frame k s))) (oshaped (out_frame k s) k) frames.
  Proof.
    intros HD Es Hl Eo HF. assert (Ek : size_of k = size_of (out_frame k s)) by congruence. split; [exact HD|]. split; [eapply Forall_impl; [|exact HF]; intros y (E & _); exists (fst y); split; [reflexivity|exact E]|].
    split.
    - exists (map (fun x : nd C * nd C => (fun p => at_ (fst x) (unravel k s p), fun p => if cross then at_ (snd x) (unravel k s p) else c0 K)) frames). split.
      + induction HF as [|x l (E1 & E2) HF IH]; cbn [map]; constructor; [|exact IH]. unfold get_frames_nd, one_frame, masked_frame. cbn [bind]. unfold reshape_to. rewrite E1, Es, Nat.eqb_refl. cbn [bind at_]. destruct cross; [|reflexivity]. rewrite (E2 eq_refl), Nat.eqb_refl. reflexivity.
      + intros q Hq. rewrite map_map. apply map_ext. intros x. unfold pair_at, pixel_of. cbn [fst snd]. rewrite !(@unravel_trans k s (out_frame k s) q Eo Hq). reflexivity.
    - split; [intros q Hq; apply unravel_valid; assumption|]. split.
      + intros p Hp. exists (unravel (out_frame k s) s p). split; [apply unravel_valid; [symmetry; exact Eo|exact Hp]|]. rewrite unravel_trans by (try (symmetry; exact Eo); exact Hp). apply unravel_id. exact Hp.
      + intros cor nm mf L ms l H. exact (@outputs_all K V nanv nank nanc cross cor nm mf L ms s k l Es Hl Eo H).
  Qed.
  Lemma masked_layout mask frames : rank mask = 2 -> Forall (fun x => shape (fst x) = shape mask /\ (cross = true -> shape (snd x) = shape mask)) frames ->
    let P := [length (positions mask)] in let place := fun p => nth (hd 0 p) (positions mask) [] in
    layout P P P None (Some mask) (fun p => p) place (fun z p => oyield (fun q => q) z (place p)) (blank_out nanv nank nanc mask) frames.
  Proof.
    intros HR HF P place. split; [reflexivity|]. assert (M : forall A (x : nd A), shape x = shape mask -> masked_frame (Some mask) x = Ok (Nd P (fun q => at_ x (place q)))). { intros A x E. unfold masked_frame. destruct (list_eq_dec Nat.eq_dec (shape x) (shape mask)); [reflexivity|contradiction]. }
    split; [eapply Forall_impl; [|exact HF]; intros y (E & _); eexists; split; [apply M; exact E|reflexivity]|].
    split.
    - exists (map (fun x : nd C * nd C => (fun p => at_ (fst x) (place (unravel P P p)), fun p => if cross then at_ (snd x) (place (unravel P P p)) else c0 K)) frames). split.
      + induction HF as [|x l (E1 & E2) HF IH]; cbn [map]; constructor; [|exact IH]. unfold get_frames_nd, one_frame. rewrite (M _ _ E1). cbn [bind]. unfold reshape_to. cbn [shape]. rewrite Nat.eqb_refl. cbn [bind at_]. destruct cross; [|reflexivity]. rewrite (M _ _ (E2 eq_refl)). cbn [bind shape]. rewrite Nat.eqb_refl. reflexivity.
      + intros q Hq. rewrite map_map. apply map_ext. intros x. unfold pair_at, pixel_of. cbn [fst snd]. rewrite !(unravel_id Hq). reflexivity.
    - split; [auto|]. split; [intros p Hp; exists p; auto|]. intros cor nm mf L ms l H. exact (@masked_all K V nanv nank nanc cross cor nm mf L ms mask l HR H).
  Qed.
End Layout.

(** * The functions *)
Section Functions.
  Variable K : Fld.
  Notation C := (Cx K).
  Variable w : nworld K.
  Variable V : CMon.
  Variable complex : bool.
  Variables (nanv : V) (nank : K) (nanc : C).
  Variable cc : nat -> nd C -> nd C -> option (list Z) -> option (list Z) -> Z -> option nat -> option Z -> option string ->
    option (nd K) -> option (nd K) -> option (ndata K V) -> res (ndata K V).
  Variable ac : nat -> nd C -> option (list Z) -> option (nd K) -> Z -> option nat -> option Z -> option string ->
    option (ndata K V) -> res (ndata K V).
  Variable cc1 : bool -> list C -> list C -> option (list Z) -> option (list Z) -> option nat ->
    option Z -> option string -> option (list K) -> option (list K) -> option (cdata K V) -> res (cdata K V).
  Variable ac1 : bool -> list C -> option (list Z) -> option (list K) -> option nat ->
    option Z -> option string -> option (cdata K V) -> res (cdata K V).
  Variables fr s k : list nat.
  Hypothesis Hcc : cc_pixels V complex cc cc1 (choice w s) s.
  Variables (divisor : option Z) (mask : option (nd bool)) (phi xi : list nat -> list nat) (view : oyielded K V -> list nat -> yielded K V) (good : oyielded K V -> Prop).
  Lemma multi_pixels cross frames t1 t2 period level_size chunk_size binning method count len auto_background nlevel norm stats mode : (cross = false -> complex = false /\ ac_pixels V complex ac ac1 (choice w s) s) ->
    layout nanv nank nanc cross fr s k divisor mask phi xi view good frames ->
    pixelwise fr view good
      (fun q => let* ys := multi_iter V complex cc1 ac1 (world_at w s (phi q)) cross (map (pixel_of cross (xi q)) frames) t1 t2 period level_size chunk_size binning method count len auto_background nlevel norm stats mode in last_yield ys)
      (let* ys := multi_iter_nd w nank nanc V complex nanv cc ac cross frames t1 t2 period level_size chunk_size binning method count len auto_background nlevel norm stats mode divisor mask in last_yield_nd ys).
  Proof using Hcc.
    intros Hac (H1 & H2 & (ys & H3 & H4) & H5 & H6 & H7). eapply pw_bind.
    - unfold multi_iter, multi_iter_nd. cbn [world_at w_aligned w_rs w_rs_bg w_rs_tail w_e1 w_e2 w_es1 w_es2 w_bg w_var].
      eapply pw_ext; [|apply (@iter_pixels K V complex cross cc ac cc1 ac1 (nw_rs w) (nw_rs_bg w) (nw_rs_tail w) (nw_e1 w) (nw_e2 w) (nw_es1 w) (nw_es2 w) (nw_bg w) (nw_var w) nanv nank nanc s (choice w s) Hcc Hac fr k mask divisor t1 t2 period level_size chunk_size binning method count len auto_background nlevel norm stats mode phi frames ys good view); assumption].
      intros q Hq. cbv beta. rewrite <- (H4 q Hq). reflexivity.
    - intros zs HZ. cbv beta. eapply pw_ext; [intros q _; rewrite (last_at (fun z => view z q)); reflexivity|]. destruct (last_yield_nd zs) as [z|e] eqn:E; cbn [bind]; [|apply pw_raise; intros; eexists; reflexivity]. apply pw_ok; [|reflexivity]. eapply last_good; eassumption.
  Qed.
End Functions.
