(** The multiple-tau algorithm on arrays: every pixel gets the data of its own series. *)
From Coq Require Import String ZifyBool ZifyNat.
From Verif Require Import Base Kernels KernelProofs CoreModel CoreProofs CoreApi VecModel VecProofs FftModel NormModel CorrModel NormArrayModel NormArrayProofs AxisModel AxisProofs AxisProofs2 AxisProofs3
  MultiModel LevelArrayModel LevelArrayProofs MultiArrayModel MultiArrayProofs MultiArrayProofs2 MultiArrayProofs3.
Open Scope string_scope.
Open Scope nat_scope.
Open Scope list_scope.
Local Notation length := List.length.
Set Implicit Arguments.

(** The frames [k] are calculated as frames [k'] *)
Definition frames_ok (axis : Z) (a : nat) (divisor : option Z) (k k' : list nat) : Prop :=
  ReshapeModel.thread_frame_shape k divisor true = Ok (map Z.of_nat k') /\ size_of k' = size_of k /\ (a = 0 \/ k' = k) /\ a <= length k /\ length k <= length k' /\ (axis = 0%Z \/ length k' = length k) /\ size_of k' = size_of (out_frame k k').
Definition both_shaped (K : Fld) (V : Type) (fr : list nat) (d : ndata K V * ndata K V) : Prop :=
  (exists m, all_shaped (fst d) (fr ++ [m])) /\ exists L m, all_shaped (snd d) (L :: fr ++ [m]).
Definition both_at (K : Fld) (V : Type) (d : ndata K V * ndata K V) (p : list nat) : cdata K V * list (cdata K V) := (pix (fst d) p, levels_at (snd d) p).

Lemma reindex k k' X Y (proj : X -> list nat -> Y) good one r : length k <= length k' -> size_of k' = size_of (out_frame k k') ->
  pixelwise k' proj good one r -> pixelwise (out_frame k k') (fun d q => proj d (unravel k' (out_frame k k') q)) good (fun q => one (unravel k' (out_frame k k') q)) r.
Proof.
  intros HL Es. apply pw_reindex.
  - intros q Hq. apply unravel_valid; assumption.
  - intros p Hp. exists (unravel (out_frame k k') k' p). split; [apply unravel_valid; [symmetry; exact Es|exact Hp]|]. rewrite unravel_trans by (try (symmetry; exact Es); exact Hp). apply unravel_id. exact Hp.
Qed.
(** Both tuples are reshaped *)
Lemma outputs_pixels K V nanv nank nanc (d : ndata K V * ndata K V) k k' mf L ms : all_shaped (fst d) (k' ++ [mf]) -> all_shaped (snd d) (L :: k' ++ [ms]) -> length k <= length k' -> size_of k' = size_of (out_frame k k') ->
  exists fast slow, reshape_output_nd nanv nank nanc (fst d) k None = Ok fast /\ reshape_output_nd nanv nank nanc (snd d) k None = Ok slow /\ both_shaped (out_frame k k') (fast, slow) /\
    forall q, valid q (out_frame k k') -> both_at d (unravel k' (out_frame k k') q) = both_at (fast, slow) q.
Proof.
  intros HF HS HL Es. destruct (@output_pixels K V nanv nank nanc (fst d) [] k k' mf HF HL Es) as (fast & EF & SF & RF). destruct (@output_pixels K V nanv nank nanc (snd d) [L] k k' ms HS HL Es) as (slow & ES & SS & RS).
  exists fast, slow. split; [exact EF|]. split; [exact ES|]. split.
  - split; cbn [fst snd]; [exists mf; exact SF|exists L, ms; exact SS].
  - intros q Hq. unfold both_at. cbn [fst snd]. f_equal.
    + symmetry. eapply pix_rows; [exact RF|]. exists [], q. repeat split; [constructor|exact Hq].
    + unfold levels_at. assert (E1 : hd 0 (first_shape (snd d)) = L) by (destruct (snd d); cbn [all_shaped first_shape] in *; [destruct HS as (-> & _)|destruct HS as (-> & _)|contradiction]; reflexivity).
      assert (E2 : hd 0 (first_shape slow) = L) by (destruct slow; cbn [all_shaped first_shape] in *; [destruct SS as (-> & _)|destruct SS as (-> & _)|contradiction]; reflexivity).
      rewrite E1, E2. apply map_ext_in. intros l Hl. apply in_seq in Hl. symmetry. eapply pix_level_rows; [exact HS|exact SS|exact RS|]. exists [l], q. repeat split; [|exact Hq]. constructor; [lia|constructor].
Qed.
Lemma series_len A (f : nd A) a p : length (series f a p) = nth a (shape f) 0.
Proof. unfold series. rewrite map_length, seq_length. reflexivity. Qed.
Lemma axis_again r r' axis a : norm_axis r axis = Ok a -> (axis = 0%Z /\ 0 < r' \/ r' = r) -> norm_axis r' axis = Ok a.
Proof.
  intros H [[E Hr]|E]; [|rewrite E; exact H]. subst axis. unfold norm_axis in *. destruct r; [discriminate H|]. destruct r'; [lia|]. exact H.
Qed.

Section Cross.
  Variable K : Fld.
  Notation C := (Cx K).
  Variable V : Type.
  Variable zero : V.
  Variable complex : bool.
  Variable cc : nat -> nd C -> nd C -> option (list Z) -> option (list Z) -> Z -> option nat -> option Z -> option string ->
    option (nd K) -> option (nd K) -> option (ndata K V) -> res (ndata K V).
  Variable cc1 : bool -> list C -> list C -> option (list Z) -> option (list Z) -> option nat ->
    option Z -> option string -> option (list K) -> option (list K) -> option (cdata K V) -> res (cdata K V).
  Variable rs : nat -> nat -> bool.
  Variables (nanv : V) (nank : K) (nanc : C).
  Hypothesis Hcc : forall R na (T1 T2 : option (list Z)), exists aligned : nat -> bool, forall j f1 f2 n nm method f1s f2s aout a, let t1 := if j =? 0 then T1 else None in let t2 := if j =? 0 then T2 else None in
    norm_axis (rank f1) na = Ok a -> rank f1 = R -> shape f2 = shape f1 ->
    (forall s, f1s = Some s -> shape s = shape f1) -> (forall s, f2s = Some s -> shape s = shape f1) -> (forall d, aout = Some d -> shaped d (del a (shape f1))) ->
    pixelwise (del a (shape f1)) (@pix K V) (result_ok (@cross_alike K V) (Some nm) aout (Some n) complex (del a (shape f1)))
      (fun p => cc1 (aligned j) (series f1 a p) (series f2 a p) t1 t2 (Some n) (Some nm) (Some method) (option_map (fun s => series s a p) f1s) (option_map (fun s => series s a p) f2s) (option_map (fun d => pix d p) aout))
      (cc j f1 f2 t1 t2 na (Some n) (Some nm) (Some method) f1s f2s aout).
  Hypothesis Hnb : forall na j f1 f2 t1 t2 n nm method f1s f2s aout d, cc j f1 f2 t1 t2 na (Some n) (Some nm) (Some method) f1s f2s aout = Ok d -> d <> NBad _ _.

  Theorem multi_cross_pixels contig (f1 f2 : nd C) t1 t2 axis period level_size binning nlevel norm method align divisor a k k' :
    norm_axis (rank f1) axis = Ok a -> shape f2 = shape f1 -> k = del a (shape f1) -> frames_ok axis a divisor k k' ->
    exists aligned, pixelwise (out_frame k k') (@both_at K V) (both_shaped (out_frame k k'))
      (fun q => multi_cross zero complex cc1 aligned rs (series f1 a (unravel k (out_frame k k') q)) (series f2 a (unravel k (out_frame k k') q)) t1 t2 period level_size binning nlevel norm method)
      (multi_cross_nd zero complex cc rs nanv nank nanc contig f1 f2 t1 t2 axis period level_size binning nlevel norm method align divisor None).
  Proof using Hcc Hnb.
    intros Ea E2 Ek (Ht & Hs & Ha & Hak & HL & Hx & Es). pose proof (axis_lt _ _ Ea) as La. unfold rank in La. unfold multi_cross, multi_cross_nd.
    destruct (_default_method_and_binning method binning) as [[m b]|e] eqn:EM; cbn [bind]; [|exists (fun _ => true); apply pw_raise; intros; eexists; reflexivity].
    destruct (_default_norm norm m true) as [nm|e] eqn:EN; cbn [bind]; [|exists (fun _ => true); apply pw_raise; intros; eexists; reflexivity].
    pose proof (methods_and_binning _ _ EM) as Hm. unfold rank at 1. destruct (Nat.eqb_spec (length (shape f1)) 0); [lia|]. rewrite E2. destruct (list_eq_dec Nat.eq_dec (shape f1) (shape f1)); [|contradiction]. cbn [orb].
    unfold shape_at at 1. unfold rank in Ea. rewrite Ea. cbn [bind]. rewrite inspect_cross_one.
    assert (SL : forall p, _inspect_cross_arguments (length (series f1 a p)) (length (series f2 a p)) t1 t2 (Some level_size) None false = _inspect_cross_arguments (nth a (shape f1) 0) (nth a (shape f1) 0) t1 t2 (Some level_size) None false) by (intros p; rewrite !series_len, E2; reflexivity).
    destruct (_inspect_cross_arguments (nth a (shape f1) 0) (nth a (shape f1) 0) t1 t2 (Some level_size) None false) as [[ts ls]|er] eqn:EI; cbn [bind]; [|exists (fun _ => true); apply pw_raise; intros; rewrite SL; eexists; reflexivity].
    assert (Ea2 : norm_axis (rank f2) axis = Ok a) by (unfold rank; rewrite E2; exact Ea).
    assert (Ek2 : del a (shape f2) = k) by (rewrite E2; symmetry; exact Ek).
    destruct (@input_pixels C f1 axis a divisor k' Ea) as (g1 & EG1 & S1 & P1); rewrite <- ?Ek; try assumption; [lia|].
    destruct (@input_pixels C f2 axis a divisor k' Ea2) as (g2 & EG2 & S2 & P2); rewrite ?Ek2; try assumption; [lia|].
    rewrite EG1. cbn [bind]. rewrite EG2. cbn [bind]. rewrite Ek2. rewrite <- Ek in P1. rewrite Ek2 in P2. rewrite E2 in S2. rewrite <- S1 in S2.
    assert (Lk : length k = length (shape f1) - 1) by (rewrite Ek, del_length; lia).
    assert (RG : rank g1 = S (length k')) by (unfold rank; rewrite S1, ins_length; lia).
    assert (EG : norm_axis (rank g1) axis = Ok a) by (eapply axis_again; [exact Ea|]; destruct Hx as [Hx|Hx]; [left; split; [exact Hx|lia]|right; lia]).
    assert (DG : del a (shape g1) = k') by (rewrite S1; apply del_ins; lia).
    assert (NG : nth a (shape g1) 0 = nth a (shape f1) 0) by (rewrite S1; apply nth_ins; lia).
    destruct (@Hcc (rank g1) (multi_axis contig (rank g1) axis align (negb (given ts))) (option_map fst ts) (option_map snd ts)) as (aligned & HC). exists aligned.
    pose proof (@reshaped_pixels K V zero complex cc cc1 rs (rank g1) (multi_axis contig (rank g1) axis align (negb (given ts))) (option_map fst ts) (option_map snd ts) aligned HC (@Hnb (multi_axis contig (rank g1) axis align (negb (given ts))))
      contig g1 g2 ts axis period ls b nlevel nm m align a (negb (String.eqb m "diff")) eq_refl Hm eq_refl eq_refl eq_refl eq_refl EG S2) as H.
    rewrite DG in H. pose proof (@reindex k k' _ _ _ _ _ _ HL Es H) as H'. clear H.
    match type of H' with pixelwise _ _ _ ?one _ => eapply pw_ext with (one' := fun q => let* y := one q in Ok y) end; [|eapply pw_bind with (k := fun _ y => Ok y); [exact H'|]].
    - intros q Hq. rewrite SL. cbn [bind]. destruct (unravel_valid k' Es Hq) as (V' & _). rewrite (P1 _ V'), (P2 _ V'), !(@unravel_trans k k' _ q Es Hq). rewrite bind_ok, Hm. reflexivity.
    - intros d ((mf & HW) & NB & L & ms & n0 & HF). destruct d as [d1 d2]. cbn [fst snd] in HW, NB, HF.
      destruct (@outputs_pixels K V nanv nank nanc (d1, d2) k k' mf L ms) as (fast & slow & E1 & E3 & HB & HQ); cbn [fst snd]; [apply wf_shaped; assumption|eapply form_shaped; exact HF|exact HL|exact Es|].
      cbn [fst snd] in E1, E3. rewrite E1. cbn [bind]. rewrite E3. cbn [bind]. apply pw_ok; [exact HB|]. exact HQ.
  Qed.
End Cross.

Lemma diff_norm_auto norm m nm method binning b : _default_method_and_binning method binning = Ok (m, b) -> _default_norm norm m false = Ok nm -> negb (String.eqb m "diff") = false -> has_flag nm NORM_SUBTRACTED = false.
Proof.
  intros _ H E. unfold _default_norm in H. destruct (String.eqb m "diff"); [|discriminate E]. cbn [last] in H. destruct (in_list _ _) eqn:EI in H; [|discriminate H]. apply ok_same in H. subst nm. cbn [in_list existsb] in EI. rewrite orb_false_r in EI. apply Z.eqb_eq in EI. rewrite EI. reflexivity.
Qed.

Section Auto.
  Variable K : Fld.
  Notation C := (Cx K).
  Variable V : Type.
  Variable zero : V.
  Variable complex : bool.
  Variable ac : nat -> nd C -> option (list Z) -> option (nd K) -> Z -> option nat -> option Z -> option string -> option (ndata K V) -> res (ndata K V).
  Variable ac1 : bool -> list C -> option (list Z) -> option (list K) -> option nat -> option Z -> option string -> option (cdata K V) -> res (cdata K V).
  Variable rs : nat -> nat -> bool.
  Variables (nanv : V) (nank : K) (nanc : C).
  Hypothesis Hac : forall R na (T : option (list Z)), exists aligned : nat -> bool, forall j f n nm method fs aout a, let t := if j =? 0 then T else None in
    norm_axis (rank f) na = Ok a -> rank f = R -> (forall s, fs = Some s -> shape s = shape f) -> (forall d, aout = Some d -> shaped d (del a (shape f))) ->
    pixelwise (del a (shape f)) (@pix K V) (result_ok (@auto_alike K V) (Some nm) aout (Some n) complex (del a (shape f)))
      (fun p => ac1 (aligned j) (series f a p) t (option_map (fun s => series s a p) fs) (Some n) (Some nm) (Some method) (option_map (fun d => pix d p) aout))
      (ac j f t fs na (Some n) (Some nm) (Some method) aout).
  Hypothesis Hnb : forall na j f t n nm method fs aout d, ac j f t fs na (Some n) (Some nm) (Some method) aout = Ok d -> d <> NBad _ _.

  Theorem multi_auto_pixels contig (f : nd C) t axis period level_size binning nlevel norm method align divisor a k k' :
    norm_axis (rank f) axis = Ok a -> k = del a (shape f) -> frames_ok axis a divisor k k' ->
    exists aligned, pixelwise (out_frame k k') (@both_at K V) (both_shaped (out_frame k k'))
      (fun q => multi_auto zero complex ac1 aligned rs (series f a (unravel k (out_frame k k') q)) t period level_size binning nlevel norm method)
      (multi_auto_nd zero complex ac rs nanv nank nanc contig f t axis period level_size binning nlevel norm method align divisor None).
  Proof using Hac Hnb.
    intros Ea Ek (Ht & Hs & Ha & Hak & HL & Hx & Es). pose proof (axis_lt _ _ Ea) as La. unfold rank in La. unfold multi_auto, multi_auto_nd.
    destruct (_default_method_and_binning method binning) as [[m b]|e] eqn:EM; cbn [bind]; [|exists (fun _ => true); apply pw_raise; intros; eexists; reflexivity].
    destruct (_default_norm norm m false) as [nm|e] eqn:EN; cbn [bind]; [|exists (fun _ => true); apply pw_raise; intros; eexists; reflexivity].
    pose proof (methods_and_binning _ _ EM) as Hm. unfold rank at 1. destruct (Nat.eqb_spec (length (shape f)) 0); [lia|].
    unfold shape_at at 1. unfold rank in Ea. rewrite Ea. cbn [bind]. rewrite inspect_auto_one.
    assert (SL : forall p, _inspect_auto_arguments (length (series f a p)) t (Some level_size) None = _inspect_auto_arguments (nth a (shape f) 0) t (Some level_size) None) by (intros p; rewrite !series_len; reflexivity).
    destruct (_inspect_auto_arguments (nth a (shape f) 0) t (Some level_size) None) as [[ts ls]|er] eqn:EI; cbn [bind]; [|exists (fun _ => true); apply pw_raise; intros; rewrite SL; eexists; reflexivity].
    destruct (@input_pixels C f axis a divisor k' Ea) as (g & EG1 & S1 & P1); rewrite <- ?Ek; try assumption; [lia|].
    rewrite EG1. cbn [bind]. rewrite <- Ek in P1 |- *.
    assert (Lk : length k = length (shape f) - 1) by (rewrite Ek, del_length; lia).
    assert (RG : rank g = S (length k')) by (unfold rank; rewrite S1, ins_length; lia).
    assert (EG : norm_axis (rank g) axis = Ok a) by (eapply axis_again; [exact Ea|]; destruct Hx as [Hx|Hx]; [left; split; [exact Hx|lia]|right; lia]).
    assert (DG : del a (shape g) = k') by (rewrite S1; apply del_ins; lia).
    destruct (@Hac (rank g) (multi_axis contig (rank g) axis align (negb (given ts))) ts) as (aligned & HC). exists aligned.
    pose proof (@reshaped_auto_pixels K V zero complex ac ac1 rs (rank g) (multi_axis contig (rank g) axis align (negb (given ts))) ts aligned HC (@Hnb (multi_axis contig (rank g) axis align (negb (given ts))))
      contig g ts axis period ls b nlevel nm m align a (negb (String.eqb m "diff")) eq_refl (@diff_norm_auto _ _ _ _ _ _ EM EN) Hm eq_refl eq_refl eq_refl EG) as H.
    rewrite DG in H. pose proof (@reindex k k' _ _ _ _ _ _ HL Es H) as H'. clear H.
    match type of H' with pixelwise _ _ _ ?one _ => eapply pw_ext with (one' := fun q => let* y := one q in Ok y) end; [|eapply pw_bind with (k := fun _ y => Ok y); [exact H'|]].
    - intros q Hq. rewrite SL. cbn [bind]. destruct (unravel_valid k' Es Hq) as (V' & _). rewrite (P1 _ V'), !(@unravel_trans k k' _ q Es Hq). rewrite bind_ok, Hm. reflexivity.
    - intros d ((mf & HW) & NB & L & ms & n0 & HF). destruct d as [d1 d2]. cbn [fst snd] in HW, NB, HF.
      destruct (@outputs_pixels K V nanv nank nanc (d1, d2) k k' mf L ms) as (fast & slow & E1 & E3 & HB & HQ); cbn [fst snd]; [apply wf_shaped; assumption|eapply form_shaped; exact HF|exact HL|exact Es|].
      cbn [fst snd] in E1, E3. rewrite E1. cbn [bind]. rewrite E3. cbn [bind]. apply pw_ok; [exact HB|]. exact HQ.
  Qed.
End Auto.

(** * The calls of ccorr and acorr *)
Ltac walk := repeat match goal with
  | H : bind ?r _ = Ok _ |- _ => let E := fresh "E" in destruct r eqn:E in H; cbn [bind] in H; [|discriminate H]
  | H : (let '(_, _) := ?x in _) = Ok _ |- _ => destruct x
  | H : (if ?c then Raise _ else _) = Ok _ |- _ => destruct c; [discriminate H|]
  end.
Section Calls.
  Variable K : Fld.
  Notation C := (Cx K).
  Variable W : nat -> C.
  Variables contigs contigs' : nat -> bool.
  Lemma cross_not_bad V complex fft corr diff contig f1 f2 t1 t2 axis n norm align method f1s f2s (aout : option (ndata K V)) d :
    ccorr_nd_gen W complex fft corr diff contig f1 f2 t1 t2 axis n norm align method f1s f2s aout = Ok d -> d <> NBad _ _.
  Proof. intros H. unfold ccorr_nd_gen in H. cbv zeta in H. walk. apply ok_same in H. subst d. destruct (String.eqb _ _); discriminate. Qed.
  Lemma auto_not_bad V fft corr diff contig f t fs axis n norm align method (aout : option (ndata K V)) d :
    acorr_nd_gen W fft corr diff contig f t fs axis n norm align method aout = Ok d -> d <> NBad _ _.
  Proof. intros H. unfold acorr_nd_gen in H. cbv zeta in H. walk. apply ok_same in H. subst d. destruct (String.eqb _ _); discriminate. Qed.
  Definition choices (R : nat) (na : Z) (T : option (list Z)) (j : nat) : bool := chosen (contigs j) (contigs' j) R na false (if j =? 0 then T else None).
End Calls.

(** * Masks *)
Section Mask.
  Variable mask : nd bool.
  Notation P := (length (positions mask)).
  Lemma nodup_app X (a b : list X) : NoDup a -> NoDup b -> (forall x, In x a -> In x b -> False) -> NoDup (a ++ b).
  Proof. intros A B D. induction A as [|x a Hx A IH]; [exact B|]. cbn [app]. constructor; [|apply IH; intros y Hy; apply D; right; exact Hy]. rewrite in_app_iff. intros [H|H]; [contradiction|]. exact (D x (or_introl eq_refl) H). Qed.
  Lemma indices_nodup s : NoDup (indices s).
  Proof.
    induction s as [|d s IH]; cbn [indices]; [constructor; [intros []|constructor]|].
    assert (X : forall l, NoDup l -> NoDup (flat_map (fun i => map (cons i) (indices s)) l)).
    { induction l as [|i l IHl]; intros HN; cbn [flat_map]; [constructor|]. inversion HN as [|? ? Hi Hl]; subst.
      assert (A : NoDup (map (cons i) (indices s))) by (apply FinFun.Injective_map_NoDup; [intros x y E; congruence|exact IH]).
      apply nodup_app; [exact A|apply IHl; exact Hl|]. intros x Hx Hy. apply in_map_iff in Hx. destruct Hx as (x' & <- & _). apply in_flat_map in Hy. destruct Hy as (j & Hj & Hy). apply in_map_iff in Hy. destruct Hy as (y' & E & _). injection E as E _. subst j. contradiction. }
    apply X, seq_NoDup.
  Qed.
  Lemma positions_nodup : NoDup (positions mask).
  Proof. apply NoDup_filter, indices_nodup. Qed.
  Lemma place_found l : NoDup l -> forall i, i < length l -> place_in_mask (nth i l []) l = Some i.
  Proof.
    intros HN i Hi. unfold place_in_mask.
    assert (X : filter (fun k => if list_eq_dec Nat.eq_dec (nth k l []) (nth i l []) then true else false) (seq 0 (length l)) = [i]).
    { replace (length l) with (i + S (length l - S i)) by lia. rewrite seq_app, filter_app. cbn [seq filter Nat.add]. destruct (list_eq_dec Nat.eq_dec (nth i l []) (nth i l [])) as [_|N]; [|destruct (N eq_refl)].
      assert (Y : forall a n, (forall k, a <= k < a + n -> k <> i /\ k < length l) -> filter (fun k => if list_eq_dec Nat.eq_dec (nth k l []) (nth i l []) then true else false) (seq a n) = []).
      { intros a n. revert a. induction n as [|n IH]; intros a H; [reflexivity|]. cbn [seq filter]. destruct (list_eq_dec Nat.eq_dec (nth a l []) (nth i l [])) as [E|_]; [|apply IH; intros k Hk; apply H; lia].
        destruct (H a ltac:(lia)) as (N & La). destruct N. exact (proj1 (NoDup_nth l []) HN a i La Hi E). }
      rewrite !Y; [reflexivity|intros; lia|intros; lia]. }
    rewrite X. reflexivity.
  Qed.
  Lemma place_lost q l : ~ In q l -> place_in_mask q l = None.
  Proof.
    intros H. unfold place_in_mask. destruct (filter _ _) as [|k ks] eqn:E; [reflexivity|]. assert (I : In k (k :: ks)) by (left; reflexivity). rewrite <- E in I. apply filter_In in I. destruct I as (Hk & I). apply in_seq in Hk. destruct (list_eq_dec Nat.eq_dec (nth k l []) q) as [Eq|]; [|discriminate I]. destruct H. rewrite <- Eq. apply nth_In. lia.
  Qed.
  Definition masked (q : list nat) : Prop := valid q (shape mask) /\ at_ mask q = true.
  Lemma masked_place q : masked q -> exists i, i < P /\ nth i (positions mask) [] = q.
  Proof.
    intros (H & Hm). assert (I : In q (positions mask)). { unfold positions. apply filter_In. split; [|exact Hm]. clear Hm. revert H. generalize (shape mask). intros s. unfold valid. induction 1 as [|x d p s' Hx H IH]; cbn [indices]; [left; reflexivity|]. apply in_flat_map. exists x. split; [apply in_seq; lia|apply in_map; exact IH]. }
    apply (In_nth _ _ []) in I. exact I.
  Qed.
  Lemma place_masked i : i < P -> masked (nth i (positions mask) []).
  Proof. intros H. split; [apply nth_pos_valid; exact H|]. assert (I := nth_In (positions mask) [] H). unfold positions in I at 2. apply filter_In in I. apply I. Qed.

  (** reshape_input with a mask *)
  Lemma mask_input A (f : nd A) axis n : shape f = n :: shape mask -> norm_axis (rank f) axis = Ok 0 ->
    exists g, reshape_input_nd f axis None (Some mask) = Ok (g, [P]) /\ shape g = [n; P] /\ forall p, valid p [P] -> series g 0 p = series f 0 (nth (hd 0 p) (positions mask) []).
  Proof.
    intros Sf Ea. unfold reshape_input_nd. rewrite Ea. cbn [bind Nat.eqb negb]. unfold mask_frames. rewrite Sf. destruct (list_eq_dec Nat.eq_dec (shape mask) (shape mask)); [|contradiction]. cbn [bind shape nth].
    set (f' := Nd [n; P] _). change (del 0 [n; P]) with [P]. unfold ReshapeModel.thread_frame_shape. cbn [length Nat.eqb negb andb bind]. unfold reshape_to_Z. rewrite <- map_ins, existsb_of_nat, map_nat_Z. change (ins 0 n [P]) with ([n] ++ [P] ++ []).
    destruct (@reshape_mid A f' [n] [P] [P] []) as (y & Ey & Sy & Py); [reflexivity|reflexivity|]. rewrite Ey. cbn [bind]. exists y. split; [reflexivity|]. split; [exact Sy|].
    intros p Hp. unfold series. rewrite Sy, Sf. cbn [app nth]. apply map_ext_in. intros t Ht. apply in_seq in Ht. specialize (Py [t] p [] (Forall2_cons _ _ (proj2 Ht) (Forall2_nil _)) Hp (Forall2_nil _)). rewrite (unravel_id Hp), !app_nil_r in Py. unfold ins. cbn [firstn skipn app] in *. rewrite Py.
    destruct (valid_line Hp) as (i & -> & Hi). reflexivity.
  Qed.
  Lemma broadcasts_same s : broadcasts s s = true.
  Proof using. unfold broadcasts. induction (rev s) as [|d l IH]; [reflexivity|]. cbn [broadcasts_rev]. rewrite Nat.eqb_refl, IH. reflexivity. Qed.
  Lemma broadcast_index_same q s : valid q s -> broadcast_index s q = q.
  Proof using.
    intros H. unfold broadcast_index. rewrite <- (rev_involutive q) at 2. f_equal. assert (R : Forall2 lt (rev q) (rev s)). { clear -H. induction H as [|a b q s Hab H IH]; [constructor|]. cbn [rev]. apply Forall2_app; [exact IH|]. constructor; [exact Hab|constructor]. }
    clear H. induction R as [|a b l l' Hab R IH]; [reflexivity|]. cbn [broadcast_rev]. rewrite IH. destruct (Nat.eqb_spec b 1); [|reflexivity]. f_equal. lia.
  Qed.
  (** reshape_output with a mask of two axes *)
  Definition spread (lead : list nat) (m : nat) (A : Type) (nan : A) (x y : nd A) : Prop :=
    (forall u i, valid u lead -> i < P -> row y (u ++ nth i (positions mask) []) = row x (u ++ [i])) /\
    (forall u q, valid u lead -> valid q (shape mask) -> at_ mask q = false -> row y (u ++ q) = repeat nan m).
  Lemma mask_output K V nanv nank nanc (data : ndata K V) lead m : rank mask = 2 -> all_shaped data (lead ++ [P] ++ [m]) ->
    exists out, reshape_output_nd nanv nank nanc data [P] (Some mask) = Ok out /\ all_shaped out (lead ++ shape mask ++ [m]) /\ data_rel nanv nank nanc (spread lead m) data out.
  Proof.
    intros HR HS. eapply output_rel; [exact HS| |].
    - unfold output_shape_nd. rewrite HR. instantiate (1 := lead ++ [P] ++ [m]). replace (last (lead ++ [P] ++ [m]) 0) with m by (rewrite app_assoc, last_last; reflexivity).
      destruct (lead ++ [P] ++ [m]) as [|z l] eqn:EZ; [destruct lead; discriminate|]. rewrite <- EZ. f_equal. unfold ReshapeModel.slice_neg. cbn [Nat.eqb]. rewrite !app_length. cbn [length]. replace (length lead + (1 + 1) - 2) with (length lead + 0) by lia. rewrite firstn_app_2. cbn [firstn]. rewrite app_nil_r. reflexivity.
    - intros A nan x Ex. unfold reshape_one_nd. destruct (@reshape_mid A x lead [P] [P] [m] Ex eq_refl) as (y & -> & Sy & Py). cbn [bind]. cbv zeta. rewrite Sy, HR.
      assert (EL : ReshapeModel.slice_neg 2 (lead ++ [P] ++ [m]) = lead). { unfold ReshapeModel.slice_neg. cbn [Nat.eqb]. rewrite !app_length. cbn [length]. replace (length lead + (1 + 1) - 2) with (length lead + 0) by lia. rewrite firstn_app_2. cbn [firstn]. apply app_nil_r. }
      assert (EM : last (lead ++ [P] ++ [m]) 0 = m) by (rewrite app_assoc, last_last; reflexivity). rewrite EL, EM. change (lead ++ [length (positions mask); m]) with (lead ++ [P] ++ [m]). rewrite broadcasts_same.
      eexists. split; [reflexivity|]. split; [reflexivity|].
      assert (FI : forall u q t, length u = length lead -> length q = 2 -> firstn 2 (skipn (length lead) ((u ++ q) ++ [t])) = q /\ firstn (length lead) ((u ++ q) ++ [t]) = u /\ last ((u ++ q) ++ [t]) 0 = t).
      { intros u q t Hu Hq. rewrite <- app_assoc, <- Hu. rewrite skipn_app, skipn_all, Nat.sub_diag. cbn [app skipn]. rewrite <- Hq, firstn_app, firstn_all, Nat.sub_diag. cbn [firstn]. rewrite app_nil_r. split; [reflexivity|]. rewrite firstn_app, firstn_all, Nat.sub_diag. cbn [firstn]. rewrite app_nil_r. split; [reflexivity|]. rewrite app_assoc. apply last_last. }
      assert (SY : forall (h : list nat -> A), shape (Nd (lead ++ shape mask ++ [m]) h) = (lead ++ shape mask) ++ [m]) by (intros h; cbn [shape]; apply app_assoc). assert (SX : shape x = (lead ++ [P]) ++ [m]) by (rewrite <- app_assoc; exact Ex).
      split.
      + intros u i Hu Hi. rewrite (row_map _ (SY _)), (row_map _ SX). apply map_ext_in. intros t Ht. apply in_seq in Ht. cbn [at_]. destruct (place_masked Hi) as (Vq & _). destruct (FI u (nth i (positions mask) []) t (valid_length Hu)) as (F1 & F2 & F3); [rewrite (valid_length Vq); exact HR|]. rewrite F1, F2, F3, (place_found positions_nodup Hi).
        assert (Vi : valid [i] [P]) by (constructor; [exact Hi|constructor]). rewrite broadcast_index_same by (apply Forall2_app; [exact Hu|]; constructor; [exact Hi|]; constructor; [lia|constructor]). change (u ++ [i; t]) with (u ++ [i] ++ [t]). rewrite Py; [|exact Hu|exact Vi|constructor; [lia|constructor]]. rewrite (unravel_id Vi), <- app_assoc. reflexivity.
      + intros u q Hu Hq Hm. rewrite (row_map _ (SY _)). rewrite (map_ext_in _ (fun _ => nan)); [rewrite map_const, seq_length; reflexivity|]. intros t Ht. cbn [at_]. destruct (FI u q t (valid_length Hu)) as (F1 & _ & _); [rewrite (valid_length Hq); exact HR|]. rewrite F1, place_lost; [reflexivity|].
        unfold positions. rewrite filter_In. intros (_ & X). congruence.
  Qed.
End Mask.
