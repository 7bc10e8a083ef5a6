(** The multiple-tau algorithm on masked arrays, and the three functions. *)
From Coq Require Import String ZifyBool ZifyNat.
From Verif Require Import Base Kernels KernelProofs CoreModel CoreProofs CoreApi VecModel VecProofs FftModel NormModel CorrModel NormArrayModel NormArrayProofs AxisModel AxisProofs AxisProofs2 AxisProofs3
  MultiModel LevelArrayModel LevelArrayProofs MultiArrayModel MultiArrayProofs MultiArrayProofs2 MultiArrayProofs3 MultiArrayProofs4.
Open Scope string_scope.
Open Scope nat_scope.
Open Scope list_scope.
Local Notation length := List.length.
Set Implicit Arguments.

(** All values of a pixel are the given ones (np.nan); the count is that of all pixels. *)
Definition all_are (A : Type) (nan : A) (x : option (list A)) : Prop := match x with None => True | Some l => Forall (eq nan) l end.
Definition blank (K : Fld) (V : Type) (nanv : V) (nank : K) (nanc : Cx K) (d : cdata K V) : Prop :=
  match d with
  | DCorr r _ sq s1 s2 => Forall (eq nanv) r /\ all_are nank sq /\ all_are nanc s1 /\ all_are nanc s2
  | DDiff r _ s1 s2 => Forall (eq nanv) r /\ all_are nanc s1 /\ all_are nanc s2
  | DBad => False
  end.
Lemma data_rel_mono K V nanv nank nanc (rel rel' : forall A : Type, A -> nd A -> nd A -> Prop) (data out : ndata K V) :
  (forall A (nan : A) x y, rel A nan x y -> rel' A nan x y) -> data_rel nanv nank nanc rel data out -> data_rel nanv nank nanc rel' data out.
Proof.
  intros M. assert (MO : forall A (nan : A) x y, orel rel nan x y -> orel rel' nan x y) by (intros A nan [x|] [y|]; cbn [orel]; auto).
  destruct data, out; cbn [data_rel]; try contradiction; [intros (-> & H0 & H1 & H2 & H3)|intros (-> & H0 & H2 & H3)]; repeat split; auto.
Qed.
Definition rows_nan (Q : list nat -> Prop) (m : nat) (A : Type) (nan : A) (_ y : nd A) : Prop := forall p, Q p -> row y p = repeat nan m.
Lemma all_repeat A (nan : A) m : Forall (eq nan) (repeat nan m).
Proof. induction m; constructor; [reflexivity|assumption]. Qed.
Lemma blank_rows K V nanv nank nanc Q m (data out : ndata K V) p : data_rel nanv nank nanc (rows_nan Q m) data out -> Q p -> blank nanv nank nanc (pix out p).
Proof.
  assert (HO : forall A (nan : A) x y, orel (rows_nan Q m) nan x y -> Q p -> all_are nan (option_map (fun x => row x p) y)).
  { intros A nan [x|] [y|]; cbn [orel option_map all_are]; try contradiction; auto. intros H HP. rewrite (H p HP). apply all_repeat. }
  intros H HP. destruct data, out; cbn [data_rel] in H; try contradiction; cbn [pix blank]; [destruct H as (_ & H0 & H1 & H2 & H3)|destruct H as (_ & H0 & H2 & H3)]; rewrite (H0 p HP); split; try apply all_repeat; repeat split; eapply HO; eassumption.
Qed.
Lemma blank_level_rows K V nanv nank nanc Q m (data out : ndata K V) L s m' l p : all_shaped out (L :: s ++ [m']) -> data_rel nanv nank nanc (rows_nan Q m) data out -> Q (l :: p) -> blank nanv nank nanc (pix (level_data out l) p).
Proof.
  intros HS H HP.
  assert (HR : forall A (nan : A) x y, shape y = L :: s ++ [m'] -> rows_nan Q m nan x y -> Forall (eq nan) (row (item y l) p)).
  { intros A nan x y Ey R. rewrite (@row_item _ _ _ _ _ l p Ey), (R _ HP). apply all_repeat. }
  assert (HO : forall A (nan : A) x y, oshape y (L :: s ++ [m']) -> orel (rows_nan Q m) nan x y -> all_are nan (option_map (fun x => row x p) (option_map (fun x => item x l) y))).
  { intros A nan [x|] [y|] Ey; cbn [orel option_map all_are]; try contradiction; auto. intros R. exact (HR A nan x y Ey R). }
  destruct data, out; cbn [data_rel all_shaped] in *; try contradiction; cbn [pix level_data blank].
  - destruct H as (_ & H0 & H1 & H2 & H3), HS as (B0 & B1 & B2 & B3). split; [exact (HR _ _ _ _ B0 H0)|]. split; [exact (HO _ _ _ _ B1 H1)|]. split; [exact (HO _ _ _ _ B2 H2)|exact (HO _ _ _ _ B3 H3)].
  - destruct H as (_ & H0 & H2 & H3), HS as (B0 & B2 & B3). split; [exact (HR _ _ _ _ B0 H0)|]. split; [exact (HO _ _ _ _ B2 H2)|exact (HO _ _ _ _ B3 H3)].
Qed.
(** The tuples have the pixels of the mask, and nothing but np.nan outside *)
Definition masked_ok (K : Fld) (V : Type) (nanv : V) (nank : K) (nanc : Cx K) (mask : nd bool) (d : ndata K V * ndata K V) : Prop :=
  both_shaped (shape mask) d /\ forall q, valid q (shape mask) -> at_ mask q = false -> blank nanv nank nanc (pix (fst d) q) /\ Forall (blank nanv nank nanc) (levels_at (snd d) q).
Lemma masked_outputs K V nanv nank nanc mask (d : ndata K V * ndata K V) mf L ms : rank mask = 2 -> all_shaped (fst d) ([length (positions mask)] ++ [mf]) -> all_shaped (snd d) (L :: [length (positions mask)] ++ [ms]) ->
  exists fast slow, reshape_output_nd nanv nank nanc (fst d) [length (positions mask)] (Some mask) = Ok fast /\ reshape_output_nd nanv nank nanc (snd d) [length (positions mask)] (Some mask) = Ok slow /\ masked_ok nanv nank nanc mask (fast, slow) /\
    forall p, valid p [length (positions mask)] -> both_at d p = both_at (fast, slow) (nth (hd 0 p) (positions mask) []).
Proof.
  intros HR HF HS. destruct (@mask_output mask K V nanv nank nanc (fst d) [] mf HR HF) as (fast & EF & SF & RF). destruct (@mask_output mask K V nanv nank nanc (snd d) [L] ms HR HS) as (slow & ES & SS & RS).
  exists fast, slow. split; [exact EF|]. split; [exact ES|].
  assert (E1 : hd 0 (first_shape (snd d)) = L) by (destruct (snd d); cbn [all_shaped first_shape] in *; [destruct HS as (-> & _)|destruct HS as (-> & _)|contradiction]; reflexivity).
  assert (E2 : hd 0 (first_shape slow) = L) by (destruct slow; cbn [all_shaped first_shape] in *; [destruct SS as (-> & _)|destruct SS as (-> & _)|contradiction]; reflexivity).
  split; [split|].
  - split; cbn [fst snd]; [exists mf; exact SF|exists L, ms; exact SS].
  - intros q Hq Hm. cbn [fst snd]. split.
    + eapply (@blank_rows K V nanv nank nanc (fun p => p = q) mf); [|reflexivity]. eapply data_rel_mono; [|exact RF]. intros A nan x y (_ & R) p ->. apply (R [] q (Forall2_nil _) Hq Hm).
    + unfold levels_at. rewrite E2. apply Forall_forall. intros z Hz. apply in_map_iff in Hz. destruct Hz as (l & <- & Hl). apply in_seq in Hl.
      eapply (@blank_level_rows K V nanv nank nanc (fun p => p = l :: q) ms); [exact SS| |reflexivity]. eapply data_rel_mono; [|exact RS]. intros A nan x y (_ & R) p ->. apply (R [l] q); [constructor; [lia|constructor]|exact Hq|exact Hm].
  - intros p Hp. destruct (valid_line Hp) as (i & -> & Hi). cbn [hd]. unfold both_at. cbn [fst snd]. f_equal.
    + symmetry. eapply (@pix_rows K V nanv nank nanc (fun p q => p = nth i (positions mask) [] /\ q = [i])); [|split; reflexivity]. eapply data_rel_mono; [|exact RF]. intros A nan x y (R & _) p q (-> & ->). apply (R [] i (Forall2_nil _) Hi).
    + unfold levels_at. rewrite E1, E2. apply map_ext_in. intros l Hl. apply in_seq in Hl. symmetry.
      eapply (@pix_level_rows K V nanv nank nanc (fun p q => p = l :: nth i (positions mask) [] /\ q = [l; i])); [exact HS|exact SS| |split; reflexivity]. eapply data_rel_mono; [|exact RS]. intros A nan x y (R & _) p q (-> & ->). apply (R [l] i); [constructor; [lia|constructor]|exact Hi].
Qed.
Lemma norm_axis_0 r r' axis : norm_axis r axis = Ok 0 -> axis = 0%Z \/ r = r' -> 0 < r' -> norm_axis r' axis = Ok 0.
Proof. intros H [E|E] Hr; [|rewrite <- E; exact H]. eapply axis_again; [exact H|left; split; assumption]. Qed.
Section Cross.
  Variable K : Fld.
  Notation C := (Cx K).
  Variable V : Type.
  Variable zero : V.
  Variable complex : bool.
  Variable cc : nat -> nd C -> nd C -> option (list Z) -> option (list Z) -> Z -> option nat -> option Z -> option string ->
    option (nd K) -> option (nd K) -> option (ndata K V) -> res (ndata K V).
  Variable cc1 : bool -> list C -> list C -> option (list Z) -> option (list Z) -> option nat ->
    option Z -> option string -> option (list K) -> option (list K) -> option (cdata K V) -> res (cdata K V).
  Variable rs : nat -> nat -> bool.
  Variables (nanv : V) (nank : K) (nanc : C).
  Hypothesis Hcc : forall R na (T1 T2 : option (list Z)), exists aligned : nat -> bool, forall j f1 f2 n nm method f1s f2s aout a, let t1 := if j =? 0 then T1 else None in let t2 := if j =? 0 then T2 else None in
    norm_axis (rank f1) na = Ok a -> rank f1 = R -> shape f2 = shape f1 ->
    (forall s, f1s = Some s -> shape s = shape f1) -> (forall s, f2s = Some s -> shape s = shape f1) -> (forall d, aout = Some d -> shaped d (del a (shape f1))) ->
    pixelwise (del a (shape f1)) (@pix K V) (result_ok (@cross_alike K V) (Some nm) aout (Some n) complex (del a (shape f1)))
      (fun p => cc1 (aligned j) (series f1 a p) (series f2 a p) t1 t2 (Some n) (Some nm) (Some method) (option_map (fun s => series s a p) f1s) (option_map (fun s => series s a p) f2s) (option_map (fun d => pix d p) aout))
      (cc j f1 f2 t1 t2 na (Some n) (Some nm) (Some method) f1s f2s aout).
  Hypothesis Hnb : forall na j f1 f2 t1 t2 n nm method f1s f2s aout d, cc j f1 f2 t1 t2 na (Some n) (Some nm) (Some method) f1s f2s aout = Ok d -> d <> NBad _ _.

  Theorem masked_cross_pixels contig (f1 f2 : nd C) t1 t2 period level_size binning nlevel norm method align n mask :
    shape f1 = n :: shape mask -> shape f2 = shape f1 -> rank mask = 2 ->
    exists aligned, pixelwise [length (positions mask)] (fun d p => both_at d (nth (hd 0 p) (positions mask) [])) (masked_ok nanv nank nanc mask)
      (fun p => multi_cross zero complex cc1 aligned rs (series f1 0 (nth (hd 0 p) (positions mask) [])) (series f2 0 (nth (hd 0 p) (positions mask) [])) t1 t2 period level_size binning nlevel norm method)
      (multi_cross_nd zero complex cc rs nanv nank nanc contig f1 f2 t1 t2 0 period level_size binning nlevel norm method align None (Some mask)).
  Proof using Hcc Hnb.
    intros Sf E2 HR. assert (Ea : norm_axis (length (shape f1)) 0 = Ok 0) by (rewrite Sf; reflexivity). unfold multi_cross, multi_cross_nd.
    destruct (_default_method_and_binning method binning) as [[m b]|e] eqn:EM; cbn [bind]; [|exists (fun _ => true); apply pw_raise; intros; eexists; reflexivity].
    destruct (_default_norm norm m true) as [nm|e] eqn:EN; cbn [bind]; [|exists (fun _ => true); apply pw_raise; intros; eexists; reflexivity].
    pose proof (methods_and_binning _ _ EM) as Hm. unfold rank at 1. destruct (Nat.eqb_spec (length (shape f1)) 0) as [X|_]; [rewrite Sf in X; discriminate X|]. rewrite E2. destruct (list_eq_dec Nat.eq_dec (shape f1) (shape f1)); [|contradiction]. cbn [orb].
    unfold shape_at at 1. rewrite Ea. cbn [bind]. rewrite inspect_cross_one.
    assert (SL : forall p, _inspect_cross_arguments (length (series f1 0 p)) (length (series f2 0 p)) t1 t2 (Some level_size) None false = _inspect_cross_arguments (nth 0 (shape f1) 0) (nth 0 (shape f1) 0) t1 t2 (Some level_size) None false) by (intros p; rewrite !series_len, E2; reflexivity).
    destruct (_inspect_cross_arguments (nth 0 (shape f1) 0) (nth 0 (shape f1) 0) t1 t2 (Some level_size) None false) as [[ts ls]|er] eqn:EI; cbn [bind]; [|exists (fun _ => true); apply pw_raise; intros; rewrite SL; eexists; reflexivity].
    destruct (@mask_input mask C f1 0 n Sf Ea) as (g1 & EG1 & S1 & P1). destruct (@mask_input mask C f2 0 n) as (g2 & EG2 & S2 & P2); [rewrite E2; exact Sf|unfold rank; rewrite E2; exact Ea|].
    rewrite EG1. cbn [bind]. rewrite EG2. cbn [bind]. rewrite <- S1 in S2. set (P := length (positions mask)) in *.
    assert (EG : norm_axis (rank g1) 0 = Ok 0) by (unfold rank; rewrite S1; reflexivity). assert (DG : del 0 (shape g1) = [P]) by (rewrite S1; reflexivity).
    destruct (@Hcc (rank g1) (multi_axis contig (rank g1) 0 align (negb (given ts))) (option_map fst ts) (option_map snd ts)) as (aligned & HC). exists aligned.
    pose proof (@reshaped_pixels K V zero complex cc cc1 rs (rank g1) (multi_axis contig (rank g1) 0 align (negb (given ts))) (option_map fst ts) (option_map snd ts) aligned HC (@Hnb (multi_axis contig (rank g1) 0 align (negb (given ts))))
      contig g1 g2 ts 0%Z period ls b nlevel nm m align 0 (negb (String.eqb m "diff")) eq_refl Hm eq_refl eq_refl eq_refl eq_refl EG S2) as H'.
    rewrite DG in H'.
    match type of H' with pixelwise _ _ _ ?one _ => eapply pw_ext with (one' := fun q => let* y := one q in Ok y) end; [|eapply pw_bind with (k := fun _ y => Ok y); [exact H'|]].
    - intros q Hq. rewrite SL. cbn [bind]. rewrite (P1 _ Hq), (P2 _ Hq), bind_ok, Hm. reflexivity.
    - intros d ((mf & HW) & NB & L & ms & n0 & HF). destruct d as [d1 d2]. cbn [fst snd] in HW, NB, HF.
      destruct (@masked_outputs K V nanv nank nanc mask (d1, d2) mf L ms HR) as (fast & slow & E1 & E3 & HB & HQ); cbn [fst snd]; [apply wf_shaped; assumption|eapply form_shaped; exact HF|].
      cbn [fst snd] in E1, E3. fold P in E1, E3. rewrite E1. cbn [bind]. rewrite E3. cbn [bind]. apply pw_ok; [exact HB|]. exact HQ.
  Qed.
End Cross.

Section Auto.
  Variable K : Fld.
  Notation C := (Cx K).
  Variable V : Type.
  Variable zero : V.
  Variable complex : bool.
  Variable ac : nat -> nd C -> option (list Z) -> option (nd K) -> Z -> option nat -> option Z -> option string -> option (ndata K V) -> res (ndata K V).
  Variable ac1 : bool -> list C -> option (list Z) -> option (list K) -> option nat -> option Z -> option string -> option (cdata K V) -> res (cdata K V).
  Variable rs : nat -> nat -> bool.
  Variables (nanv : V) (nank : K) (nanc : C).
  Hypothesis Hac : forall R na (T : option (list Z)), exists aligned : nat -> bool, forall j f n nm method fs aout a, let t := if j =? 0 then T else None in
    norm_axis (rank f) na = Ok a -> rank f = R -> (forall s, fs = Some s -> shape s = shape f) -> (forall d, aout = Some d -> shaped d (del a (shape f))) ->
    pixelwise (del a (shape f)) (@pix K V) (result_ok (@auto_alike K V) (Some nm) aout (Some n) complex (del a (shape f)))
      (fun p => ac1 (aligned j) (series f a p) t (option_map (fun s => series s a p) fs) (Some n) (Some nm) (Some method) (option_map (fun d => pix d p) aout))
      (ac j f t fs na (Some n) (Some nm) (Some method) aout).
  Hypothesis Hnb : forall na j f t n nm method fs aout d, ac j f t fs na (Some n) (Some nm) (Some method) aout = Ok d -> d <> NBad _ _.

  Theorem masked_auto_pixels contig (f : nd C) t period level_size binning nlevel norm method align n mask :
    shape f = n :: shape mask -> rank mask = 2 ->
    exists aligned, pixelwise [length (positions mask)] (fun d p => both_at d (nth (hd 0 p) (positions mask) [])) (masked_ok nanv nank nanc mask)
      (fun p => multi_auto zero complex ac1 aligned rs (series f 0 (nth (hd 0 p) (positions mask) [])) t period level_size binning nlevel norm method)
      (multi_auto_nd zero complex ac rs nanv nank nanc contig f t 0 period level_size binning nlevel norm method align None (Some mask)).
  Proof using Hac Hnb.
    intros Sf HR. assert (Ea : norm_axis (length (shape f)) 0 = Ok 0) by (rewrite Sf; reflexivity). unfold multi_auto, multi_auto_nd.
    destruct (_default_method_and_binning method binning) as [[m b]|e] eqn:EM; cbn [bind]; [|exists (fun _ => true); apply pw_raise; intros; eexists; reflexivity].
    destruct (_default_norm norm m false) as [nm|e] eqn:EN; cbn [bind]; [|exists (fun _ => true); apply pw_raise; intros; eexists; reflexivity].
    pose proof (methods_and_binning _ _ EM) as Hm. unfold rank at 1. destruct (Nat.eqb_spec (length (shape f)) 0) as [X|_]; [rewrite Sf in X; discriminate X|].
    unfold shape_at at 1. rewrite Ea. cbn [bind]. rewrite inspect_auto_one.
    assert (SL : forall p, _inspect_auto_arguments (length (series f 0 p)) t (Some level_size) None = _inspect_auto_arguments (nth 0 (shape f) 0) t (Some level_size) None) by (intros p; rewrite !series_len; reflexivity).
    destruct (_inspect_auto_arguments (nth 0 (shape f) 0) t (Some level_size) None) as [[ts ls]|er] eqn:EI; cbn [bind]; [|exists (fun _ => true); apply pw_raise; intros; rewrite SL; eexists; reflexivity].
    destruct (@mask_input mask C f 0 n Sf Ea) as (g & EG1 & S1 & P1). rewrite EG1. cbn [bind]. set (P := length (positions mask)) in *.
    assert (EG : norm_axis (rank g) 0 = Ok 0) by (unfold rank; rewrite S1; reflexivity). assert (DG : del 0 (shape g) = [P]) by (rewrite S1; reflexivity).
    destruct (@Hac (rank g) (multi_axis contig (rank g) 0 align (negb (given ts))) ts) as (aligned & HC). exists aligned.
    pose proof (@reshaped_auto_pixels K V zero complex ac ac1 rs (rank g) (multi_axis contig (rank g) 0 align (negb (given ts))) ts aligned HC (@Hnb (multi_axis contig (rank g) 0 align (negb (given ts))))
      contig g ts 0%Z period ls b nlevel nm m align 0 (negb (String.eqb m "diff")) eq_refl (@diff_norm_auto _ _ _ _ _ _ EM EN) Hm eq_refl eq_refl eq_refl EG) as H'.
    rewrite DG in H'.
    match type of H' with pixelwise _ _ _ ?one _ => eapply pw_ext with (one' := fun q => let* y := one q in Ok y) end; [|eapply pw_bind with (k := fun _ y => Ok y); [exact H'|]].
    - intros q Hq. rewrite SL. cbn [bind]. rewrite (P1 _ Hq), bind_ok, Hm. reflexivity.
    - intros d ((mf & HW) & NB & L & ms & n0 & HF). destruct d as [d1 d2]. cbn [fst snd] in HW, NB, HF.
      destruct (@masked_outputs K V nanv nank nanc mask (d1, d2) mf L ms HR) as (fast & slow & E1 & E3 & HB & HQ); cbn [fst snd]; [apply wf_shaped; assumption|eapply form_shaped; exact HF|].
      cbn [fst snd] in E1, E3. fold P in E1, E3. rewrite E1. cbn [bind]. rewrite E3. cbn [bind]. apply pw_ok; [exact HB|]. exact HQ.
  Qed.
End Auto.
