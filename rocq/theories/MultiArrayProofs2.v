(** The multiple-tau algorithm on arrays: the loop over levels and the whole calculation before reshaping. *)
From Coq Require Import String ZifyBool ZifyNat.
From Verif Require Import Base Kernels KernelProofs CoreModel CoreProofs CoreApi VecModel VecProofs FftModel NormModel CorrModel NormArrayModel NormArrayProofs AxisModel AxisProofs AxisProofs2 AxisProofs3
  MultiModel LevelArrayModel LevelArrayProofs MultiArrayModel MultiArrayProofs.
Open Scope string_scope.
Open Scope nat_scope.
Local Notation length := List.length.
Set Implicit Arguments.

(** All levels of one pixel *)
Definition levels_at (K : Fld) (V : Type) (slow : ndata K V) (p : list nat) : list (cdata K V) := map (fun l => pix (level_data slow l) p) (seq 0 (hd 0 (first_shape slow))).
Lemma bind_ok A (r : res A) : (let* x := r in Ok x) = r.
Proof. destruct r; reflexivity. Qed.
Lemma norm_axis_same r r' na : r = r' -> norm_axis r na = norm_axis r' na.
Proof. intros ->. reflexivity. Qed.
Lemma methods_and_binning method binning m b : _default_method_and_binning method binning = Ok (m, b) -> (String.eqb m "corr" || String.eqb m "fft")%bool = negb (String.eqb m "diff").
Proof.
  unfold _default_method_and_binning. cbv zeta. set (x := match method with None => "corr" | Some m => m end). clearbody x. intros H.
  destruct (String.eqb_spec x "corr") as [E|N1]; [|destruct (String.eqb_spec x "fft") as [E|N2]; [|destruct (String.eqb_spec x "diff") as [E|N3]]].
  - subst x. cbn [orb bind] in H. destruct (in_list _ _) in H; [|discriminate H]. apply ok_same in H. assert (E : m = "corr") by congruence. rewrite E. reflexivity.
  - subst x. cbn [orb bind] in H. destruct (in_list _ _) in H; [|discriminate H]. apply ok_same in H. assert (E : m = "fft") by congruence. rewrite E. reflexivity.
  - subst x. cbn [orb bind] in H. destruct (in_list _ _) in H; [|discriminate H]. apply ok_same in H. assert (E : m = "diff") by congruence. rewrite E. reflexivity.
  - cbn [orb bind] in H. discriminate H.
Qed.

Lemma pw_and fr X Y (proj : X -> list nat -> Y) (good good' : X -> Prop) one r : (forall x, r = Ok x -> good' x) -> pixelwise fr proj good one r -> pixelwise fr proj (fun x => good x /\ good' x) one r.
Proof. intros W H. destruct r; [|exact H]. destruct H as (G & H). split; [split; [exact G|apply W; reflexivity]|exact H]. Qed.

Lemma bin_signal (K : Fld) binning r (x : nd (Cx K)) s na a : shape x = s -> norm_axis (length s) na = Ok a ->
  exists g : nd (Cx K), bin_nd (cgrp K) binning r x na na = Ok g /\ shape g = ins a (bin_length binning (nth a s 0)) (del a s) /\
    forall p, length p = length (del a s) -> series g a p = bin_data (cgrp K) binning r (series x a p).
Proof. intros <- Ea. exact (@bin_pixels (cgrp K) binning r x na a Ea). Qed.
Lemma bin_squares (K : Fld) binning r (o : option (nd K)) s na a : (forall x, o = Some x -> shape x = s) -> norm_axis (length s) na = Ok a ->
  exists o' : option (nd K), bin_opt (fgrp K) binning r o na na = Ok o' /\ (forall x, o' = Some x -> shape x = ins a (bin_length binning (nth a s 0)) (del a s)) /\
    forall p, length p = length (del a s) -> option_map (fun x => series x a p) o' = option_map (bin_data (fgrp K) binning r) (option_map (fun x => series x a p) o).
Proof. intros Hs Ea. exact (@bin_opt_pixels (fgrp K) binning r o s na a Hs Ea). Qed.

Section Cross.
  Variable K : Fld.
  Notation C := (Cx K).
  Variable V : Type.
  Variable zero : V.
  Variable complex : bool.
  Variable cc : nat -> nd C -> nd C -> option (list Z) -> option (list Z) -> Z -> option nat -> option Z -> option string ->
    option (nd K) -> option (nd K) -> option (ndata K V) -> res (ndata K V).
  Variable cc1 : bool -> list C -> list C -> option (list Z) -> option (list Z) -> option nat ->
    option Z -> option string -> option (list K) -> option (list K) -> option (cdata K V) -> res (cdata K V).
  Variable rs : nat -> nat -> bool.
  Variables (R : nat) (na : Z) (T1 T2 : option (list Z)) (aligned : nat -> bool).
  Hypothesis Hcc : forall j f1 f2 n nm method f1s f2s aout a, let t1 := if j =? 0 then T1 else None in let t2 := if j =? 0 then T2 else None in
    norm_axis (rank f1) na = Ok a -> rank f1 = R -> shape f2 = shape f1 ->
    (forall s, f1s = Some s -> shape s = shape f1) -> (forall s, f2s = Some s -> shape s = shape f1) -> (forall d, aout = Some d -> shaped d (del a (shape f1))) ->
    pixelwise (del a (shape f1)) (@pix K V) (result_ok (@cross_alike K V) (Some nm) aout (Some n) complex (del a (shape f1)))
      (fun p => cc1 (aligned j) (series f1 a p) (series f2 a p) t1 t2 (Some n) (Some nm) (Some method) (option_map (fun s => series s a p) f1s) (option_map (fun s => series s a p) f2s) (option_map (fun d => pix d p) aout))
      (cc j f1 f2 t1 t2 na (Some n) (Some nm) (Some method) f1s f2s aout).

  Hypothesis Hnb : forall j f1 f2 t1 t2 n nm method f1s f2s aout d, cc j f1 f2 t1 t2 na (Some n) (Some nm) (Some method) f1s f2s aout = Ok d -> d <> NBad _ _.

  Lemma levels_pixels L m n binning nm method cor a fr : cor = negb (String.eqb method "diff") ->
    forall todo i f1 f2 f1s f2s slow, norm_axis R na = Ok a -> rank f1 = R -> shape f2 = shape f1 -> del a (shape f1) = fr ->
    (forall s, f1s = Some s -> shape s = shape f1) -> (forall s, f2s = Some s -> shape s = shape f1) ->
    tuple_form true cor nm (L :: fr ++ [m]) [L; n] slow -> (forall l p, i <= l -> pix (level_data slow l) p = slow_row K zero complex true cor nm n) ->
    pixelwise fr (fun d p => map (fun l => pix (level_data d l) p) (seq i todo))
      (fun d => tuple_form true cor nm (L :: fr ++ [m]) [L; n] d /\ forall l p, l < i -> pix (level_data d l) p = pix (level_data slow l) p)
      (fun p => multi_levels zero complex cc1 aligned rs todo i binning nm method n (series f1 a p) (series f2 a p) (option_map (fun s => series s a p) f1s) (option_map (fun s => series s a p) f2s))
      (levels_nd cc rs todo i na binning nm method n f1 f2 f1s f2s slow).
  Proof.
    intros Hcor. induction todo as [|todo IH]; intros i f1 f2 f1s f2s slow Ea Hr E2 Efr Hs1 Hs2 HF HZ; cbn [multi_levels levels_nd].
    { apply pw_ok; [split; [exact HF|reflexivity]|reflexivity]. }
    assert (Ea1 : norm_axis (rank f1) na = Ok a) by (rewrite Hr; exact Ea). assert (Ea2 : norm_axis (rank f2) na = Ok a) by (unfold rank; rewrite E2; exact Ea1).
    pose proof (axis_lt _ _ Ea) as La. assert (LD : length (del a (shape f1)) = R - 1) by (rewrite del_length; unfold rank in Hr; lia).
    destruct (@bin_signal K binning (rs i 0) f1 (shape f1) na a eq_refl Ea1) as (g1 & EG1 & S1 & P1). destruct (@bin_signal K binning (rs i 1) f2 (shape f1) na a E2 Ea1) as (g2 & EG2 & S2 & P2).
    destruct (@bin_squares K binning (rs i 2) f1s (shape f1) na a Hs1) as (q1 & EQ1 & SQ1 & PQ1); [exact Ea1|]. destruct (@bin_squares K binning (rs i 3) f2s (shape f1) na a Hs2) as (q2 & EQ2 & SQ2 & PQ2); [exact Ea1|].
    rewrite EG1. cbn [bind]. rewrite EG2. cbn [bind]. rewrite EQ1. cbn [bind]. rewrite EQ2. cbn [bind]. rewrite <- S1 in S2, SQ1, SQ2. rewrite Efr in *.
    assert (RG : rank g1 = R) by (unfold rank; rewrite S1, ins_length; lia). assert (DG : del a (shape g1) = fr) by (rewrite S1; apply del_ins; lia).
    assert (HL : tuple_form true cor nm (fr ++ [m]) [n] (level_data slow i)) by (eapply level_form; exact HF).
    set (row1 := fun p => cc1 (aligned (S i)) (series g1 a p) (series g2 a p) None None (Some n) (Some nm) (Some method) (option_map (fun s => series s a p) q1) (option_map (fun s => series s a p) q2) (Some (pix (level_data slow i) p))).
    eapply pw_ext with (one' := fun p => let* row := row1 p in let* rest := multi_levels zero complex cc1 aligned rs todo (S i) binning nm method n (series g1 a p) (series g2 a p) (option_map (fun s => series s a p) q1) (option_map (fun s => series s a p) q2) in Ok (row :: rest)).
    { intros p Hp. apply valid_length in Hp. unfold row1. rewrite (P1 p Hp), (P2 p Hp), (PQ1 p Hp), (PQ2 p Hp), HZ by lia. rewrite <- Hcor. reflexivity. }
    eapply (@pw_bind fr (ndata K V) (cdata K V) _ _ (@pix K V)).
    { pose proof (@Hcc (S i) g1 g2 n nm method q1 q2 (Some (level_data slow i)) a) as H. cbn [Nat.eqb] in H. cbv zeta in H. rewrite DG in H. cbn [option_map] in H. apply H; clear H; try assumption; [rewrite RG; exact Ea|].
      intros d E. injection E as <-. eapply tuple_shaped. exact HL. }
    intros row (_ & HA & _). specialize (HA _ _ eq_refl eq_refl). cbv beta.
    assert (HR : tuple_form true cor nm (fr ++ [m]) [n] row) by (eapply alike_cross_form; [exact HL|exact HA]). destruct (@set_level_pixels _ _ _ _ _ L fr m n slow row i HF HR) as (HF' & PI & PO).
    rewrite <- (bind_ok (levels_nd _ _ _ _ _ _ _ _ _ _ _ _ _ _)).
    eapply (@pw_bind fr (ndata K V) (list (cdata K V)) _ _ _ _ _ _ _ _ (fun p rest => Ok (pix row p :: rest)) (fun d => Ok d)).
    { apply (IH (S i) g1 g2 q1 q2 (set_level slow i row)); try assumption.
      intros l p Hl. rewrite PO by lia. apply HZ. lia. }
    intros d (HD & HD'). cbv beta. apply pw_ok.
    - split; [exact HD|]. intros l p Hl. rewrite HD' by lia. apply PO. lia.
    - intros p Hp. cbn [seq map]. rewrite (HD' i p) by lia. rewrite PI. reflexivity.
  Qed.

  (** From the reshaped arrays to the two data tuples *)
  Lemma reshaped_pixels contig (f1 f2 : nd C) ts axis period level_size binning nlevel nm method align a cor : cor = negb (String.eqb method "diff") -> (String.eqb method "corr" || String.eqb method "fft")%bool = cor ->
    R = rank f1 -> na = multi_axis contig (rank f1) axis align (negb (given ts)) -> T1 = option_map fst ts -> T2 = option_map snd ts ->
    norm_axis (rank f1) axis = Ok a -> shape f2 = shape f1 ->
    pixelwise (del a (shape f1)) (fun d p => (pix (fst d) p, levels_at (snd d) p))
      (fun d => (exists m, wf (fst d) (del a (shape f1)) m) /\ fst d <> NBad _ _ /\ exists L m n, tuple_form true cor nm (L :: del a (shape f1) ++ [m]) [L; n] (snd d))
      (fun p => let* (n_fast, n_slow, nlevel) := _determine_lengths (length (series f1 a p)) level_size period nlevel in
                let keep := (has_flag nm NORM_STRUCTURED && cor)%bool in
                let f1s := if keep then Some (abs2 (series f1 a p)) else None in
                let f2s := if keep then Some (abs2 (series f2 a p)) else None in
                let* data_fast := cc1 (aligned 0) (series f1 a p) (series f2 a p) T1 T2 (Some n_fast) (Some nm) (Some method) f1s f2s None in
                let* data_slow := multi_levels zero complex cc1 aligned rs nlevel 0 binning nm method n_slow (series f1 a p) (series f2 a p) f1s f2s in
                Ok (data_fast, data_slow))
      (reshaped_cross_nd zero complex cc rs contig f1 f2 ts axis period level_size binning nlevel nm method align).
  Proof.
    intros Hcor Hcor' HR Hna HT1 HT2 Ea E2. unfold reshaped_cross_nd. rewrite Hcor', <- Hna, <- HT1, <- HT2. pose proof (axis_lt _ _ Ea) as La.
    assert (Hn : na = (-1)%Z \/ na = (-2)%Z /\ 1 < rank f1). { rewrite Hna. unfold multi_axis. destruct (_ && _)%bool; [left; reflexivity|]. destruct (Nat.ltb_spec 1 (rank f1)); [right; split; [reflexivity|assumption]|left; reflexivity]. }
    assert (R2 : rank f2 = rank f1) by (unfold rank; rewrite E2; reflexivity).
    destruct (@moved _ f1 axis a na Ea Hn) as (g1 & b & -> & EB & RG & DG & NG & PG). destruct (@moved _ f2 axis a na) as (g2 & b2 & -> & EB2 & RG2 & DG2 & NG2 & PG2); [rewrite R2; exact Ea|rewrite R2; exact Hn|]. cbn [bind].
    rewrite RG2, R2, <- RG, EB in EB2. apply ok_same in EB2. subst b2. rewrite E2 in DG2, NG2, PG2. set (fr := del a (shape f1)) in *.
    assert (Lb : b < length (shape g1)) by (apply axis_lt in EB; exact EB).
    assert (SG : shape g2 = shape g1). { rewrite <- (@ins_del _ b (shape g1) 0) by exact Lb. rewrite <- (@ins_del _ b (shape g2) 0) by (unfold rank in RG2, R2, RG; lia). congruence. }
    unfold shape_at. unfold rank in EB. rewrite EB. cbn [bind]. rewrite NG.
    assert (SL : forall p, length (series f1 a p) = nth a (shape f1) 0) by (intros p; unfold series; rewrite map_length, seq_length; reflexivity).
    destruct (_determine_lengths (nth a (shape f1) 0) level_size period nlevel) as [[[n_fast n_slow] nl]|e] eqn:EL; cbn [bind].
    2:{ apply pw_raise. intros p _. rewrite SL, EL. eexists. reflexivity. }
    set (keep := (has_flag nm NORM_STRUCTURED && cor)%bool).
    set (q1 := if keep then Some (map_nd (@cnorm2 K) g1) else None). set (q2 := if keep then Some (map_nd (@cnorm2 K) g2) else None).
    assert (Q1 : forall s, q1 = Some s -> shape s = shape g1) by (unfold q1; destruct keep; intros s E; [injection E as <-; reflexivity|discriminate E]).
    assert (Q2 : forall s, q2 = Some s -> shape s = shape g1) by (unfold q2; destruct keep; intros s E; [injection E as <-; exact SG|discriminate E]).
    set (fast1 := fun p => cc1 (aligned 0) (series g1 b p) (series g2 b p) T1 T2 (Some n_fast) (Some nm) (Some method) (option_map (fun s => series s b p) q1) (option_map (fun s => series s b p) q2) None).
    eapply pw_ext with (one' := fun p => let* x := fast1 p in let* y := multi_levels zero complex cc1 aligned rs nl 0 binning nm method n_slow (series g1 b p) (series g2 b p) (option_map (fun s => series s b p) q1) (option_map (fun s => series s b p) q2) in Ok (x, y)).
    { intros p Hp. apply valid_length in Hp. unfold fast1. rewrite SL, EL. cbn [bind]. rewrite (PG p Hp), (PG2 p Hp).
      assert (X1 : option_map (fun s => series s b p) q1 = if keep then Some (abs2 (series f1 a p)) else None). { unfold q1. destruct keep; [|reflexivity]. cbn [option_map]. rewrite <- (PG p Hp). unfold abs2, series. rewrite map_map. reflexivity. }
      assert (X2 : option_map (fun s => series s b p) q2 = if keep then Some (abs2 (series f2 a p)) else None). { unfold q2. destruct keep; [|reflexivity]. cbn [option_map]. rewrite <- (PG2 p Hp). unfold abs2, series. rewrite map_map. reflexivity. }
      rewrite X1, X2. reflexivity. }
    eapply (@pw_bind fr (ndata K V) (cdata K V) _ _ (@pix K V)).
    { eapply (@pw_and _ _ _ _ _ (fun d => d <> NBad _ _)); [intros x Ex; eapply Hnb; exact Ex|].
      pose proof (@Hcc 0 g1 g2 n_fast nm method q1 q2 None b) as H. cbn [Nat.eqb] in H. cbv zeta in H. rewrite DG in H. apply H; clear H; try assumption; [congruence|discriminate]. }
    intros fast ((HS & _ & N & _ & HW) & NB). cbv beta. specialize (HW (if complex then 2 * N - 1 else N) eq_refl ltac:(discriminate)). set (mf := if complex then 2 * N - 1 else N) in *.
    assert (KS : removelast (first_shape fast) = fr). { destruct fast; cbn [first_shape wf] in *; [| |contradiction]; destruct HW as (-> & _); apply removelast_last. }
    rewrite KS. destruct (@slow_pixels K V zero complex true cor nm na nl n_slow fr) as (slow & -> & SF & SZ).
    { destruct Hn as [Hn|[Hn H1]]; [left; exact Hn|right; split; [exact Hn|]]. intros E. apply (f_equal (@length nat)) in E. unfold fr in E. rewrite del_length in E by exact La. unfold rank in H1. cbn [length] in E. lia. }
    cbn [bind]. set (m := if complex then n_slow * 2 + 1 else n_slow) in *.
    eapply (@pw_bind fr (ndata K V) (list (cdata K V)) _ _ _ _ _ _ _ _ (fun p y => Ok (pix fast p, y)) (fun d => Ok (fast, d))).
    { apply (@levels_pixels nl m n_slow binning nm method cor b fr Hcor nl 0 g1 g2 q1 q2 slow); try assumption; [rewrite <- EB; apply norm_axis_same; unfold rank in *; lia|lia|intros; apply SZ]. }
    intros d (HD & _). cbv beta. apply pw_ok.
    - cbn [fst snd]. split; [exists mf; exact HW|]. split; [exact NB|]. exists nl, m, n_slow. exact HD.
    - intros p Hp. cbn [fst snd]. unfold levels_at. assert (EH : hd 0 (first_shape d) = nl). { clear - HD. destruct d; cbn [tuple_form first_shape] in *; [destruct HD as (_ & -> & _); reflexivity|destruct HD as (_ & -> & _); reflexivity|contradiction]. } rewrite EH. reflexivity.
  Qed.
End Cross.

Section Auto.
  Variable K : Fld.
  Notation C := (Cx K).
  Variable V : Type.
  Variable zero : V.
  Variable complex : bool.
  Variable ac : nat -> nd C -> option (list Z) -> option (nd K) -> Z -> option nat -> option Z -> option string -> option (ndata K V) -> res (ndata K V).
  Variable ac1 : bool -> list C -> option (list Z) -> option (list K) -> option nat -> option Z -> option string -> option (cdata K V) -> res (cdata K V).
  Variable rs : nat -> nat -> bool.
  Variables (R : nat) (na : Z) (T : option (list Z)) (aligned : nat -> bool).
  Hypothesis Hac : forall j f n nm method fs aout a, let t := if j =? 0 then T else None in
    norm_axis (rank f) na = Ok a -> rank f = R -> (forall s, fs = Some s -> shape s = shape f) -> (forall d, aout = Some d -> shaped d (del a (shape f))) ->
    pixelwise (del a (shape f)) (@pix K V) (result_ok (@auto_alike K V) (Some nm) aout (Some n) complex (del a (shape f)))
      (fun p => ac1 (aligned j) (series f a p) t (option_map (fun s => series s a p) fs) (Some n) (Some nm) (Some method) (option_map (fun d => pix d p) aout))
      (ac j f t fs na (Some n) (Some nm) (Some method) aout).
  Hypothesis Hnb : forall j f t n nm method fs aout d, ac j f t fs na (Some n) (Some nm) (Some method) aout = Ok d -> d <> NBad _ _.

  Lemma levels_auto_pixels L m n binning nm method (cor : bool) a fr : cor = negb (String.eqb method "diff") -> (cor = false -> has_flag nm NORM_SUBTRACTED = false) ->
    forall todo i f fs slow, norm_axis R na = Ok a -> rank f = R -> del a (shape f) = fr -> (forall s, fs = Some s -> shape s = shape f) ->
    tuple_form false cor nm (L :: fr ++ [m]) [L; n] slow -> (forall l p, i <= l -> pix (level_data slow l) p = slow_row K zero complex false cor nm n) ->
    pixelwise fr (fun d p => map (fun l => pix (level_data d l) p) (seq i todo))
      (fun d => tuple_form false cor nm (L :: fr ++ [m]) [L; n] d /\ forall l p, l < i -> pix (level_data d l) p = pix (level_data slow l) p)
      (fun p => multi_levels_auto zero complex ac1 aligned rs todo i binning nm method n (series f a p) (option_map (fun s => series s a p) fs))
      (levels_auto_nd ac rs todo i na binning nm method n f fs slow).
  Proof.
    intros Hcor Hsub. induction todo as [|todo IH]; intros i f fs slow Ea Hr Efr Hs HF HZ; cbn [multi_levels_auto levels_auto_nd].
    { apply pw_ok; [split; [exact HF|reflexivity]|reflexivity]. }
    assert (Ea1 : norm_axis (rank f) na = Ok a) by (rewrite Hr; exact Ea).
    pose proof (axis_lt _ _ Ea) as La. assert (LD : length (del a (shape f)) = R - 1) by (rewrite del_length; unfold rank in Hr; lia).
    destruct (@bin_signal K binning (rs i 0) f (shape f) na a eq_refl Ea1) as (g & EG & S1 & P1).
    destruct (@bin_squares K binning (rs i 1) fs (shape f) na a Hs) as (q & EQ & SQ & PQ); [exact Ea1|].
    rewrite EG. cbn [bind]. rewrite EQ. cbn [bind]. rewrite <- S1 in SQ. rewrite Efr in *.
    assert (RG : rank g = R) by (unfold rank; rewrite S1, ins_length; lia). assert (DG : del a (shape g) = fr) by (rewrite S1; apply del_ins; lia).
    assert (HL : tuple_form false cor nm (fr ++ [m]) [n] (level_data slow i)) by (eapply level_form; exact HF).
    set (row1 := fun p => ac1 (aligned (S i)) (series g a p) None (option_map (fun s => series s a p) q) (Some n) (Some nm) (Some method) (Some (pix (level_data slow i) p))).
    eapply pw_ext with (one' := fun p => let* row := row1 p in let* rest := multi_levels_auto zero complex ac1 aligned rs todo (S i) binning nm method n (series g a p) (option_map (fun s => series s a p) q) in Ok (row :: rest)).
    { intros p Hp. apply valid_length in Hp. unfold row1. rewrite (P1 p Hp), (PQ p Hp), HZ by lia. rewrite <- Hcor. reflexivity. }
    eapply (@pw_bind fr (ndata K V) (cdata K V) _ _ (@pix K V)).
    { pose proof (@Hac (S i) g n nm method q (Some (level_data slow i)) a) as H. cbn [Nat.eqb] in H. cbv zeta in H. rewrite DG in H. cbn [option_map] in H. apply H; clear H; try assumption; [rewrite RG; exact Ea|].
      intros d E. injection E as <-. eapply tuple_shaped. exact HL. }
    intros row (_ & HA & _). specialize (HA _ _ eq_refl eq_refl). cbv beta.
    assert (HR : tuple_form false cor nm (fr ++ [m]) [n] row) by (eapply alike_auto_form; [exact Hsub|exact HL|exact HA]). destruct (@set_level_pixels _ _ _ _ _ L fr m n slow row i HF HR) as (HF' & PI & PO).
    rewrite <- (bind_ok (levels_auto_nd _ _ _ _ _ _ _ _ _ _ _ _)).
    eapply (@pw_bind fr (ndata K V) (list (cdata K V)) _ _ _ _ _ _ _ _ (fun p rest => Ok (pix row p :: rest)) (fun d => Ok d)).
    { apply (IH (S i) g q (set_level slow i row)); try assumption.
      intros l p Hl. rewrite PO by lia. apply HZ. lia. }
    intros d (HD & HD'). cbv beta. apply pw_ok.
    - split; [exact HD|]. intros l p Hl. rewrite HD' by lia. apply PO. lia.
    - intros p Hp. cbn [seq map]. rewrite (HD' i p) by lia. rewrite PI. reflexivity.
  Qed.

  (** From the reshaped array to the two data tuples *)
  Lemma reshaped_auto_pixels contig (f : nd C) t axis period level_size binning nlevel nm method align a (cor : bool) : cor = negb (String.eqb method "diff") -> (cor = false -> has_flag nm NORM_SUBTRACTED = false) -> (String.eqb method "corr" || String.eqb method "fft")%bool = cor ->
    R = rank f -> na = multi_axis contig (rank f) axis align (negb (given t)) -> T = t ->
    norm_axis (rank f) axis = Ok a ->
    pixelwise (del a (shape f)) (fun d p => (pix (fst d) p, levels_at (snd d) p))
      (fun d => (exists m, wf (fst d) (del a (shape f)) m) /\ fst d <> NBad _ _ /\ exists L m n, tuple_form false cor nm (L :: del a (shape f) ++ [m]) [L; n] (snd d))
      (fun p => let* (n_fast, n_slow, nlevel) := _determine_lengths (length (series f a p)) level_size period nlevel in
                let fs := if (has_flag nm NORM_STRUCTURED && cor)%bool then Some (abs2 (series f a p)) else None in
                let* data_fast := ac1 (aligned 0) (series f a p) t fs (Some n_fast) (Some nm) (Some method) None in
                let* data_slow := multi_levels_auto zero complex ac1 aligned rs nlevel 0 binning nm method n_slow (series f a p) fs in
                Ok (data_fast, data_slow))
      (reshaped_auto_nd zero complex ac rs contig f t axis period level_size binning nlevel nm method align).
  Proof.
    intros Hcor Hsub Hcor' HR Hna HT Ea. subst t. unfold reshaped_auto_nd. rewrite Hcor', <- Hna. pose proof (axis_lt _ _ Ea) as La.
    assert (Hn : na = (-1)%Z \/ na = (-2)%Z /\ 1 < rank f). { rewrite Hna. unfold multi_axis. destruct (_ && _)%bool; [left; reflexivity|]. destruct (Nat.ltb_spec 1 (rank f)); [right; split; [reflexivity|assumption]|left; reflexivity]. }
    destruct (@moved _ f axis a na Ea Hn) as (g & b & -> & EB & RG & DG & NG & PG). cbn [bind]. set (fr := del a (shape f)) in *.
    assert (Lb : b < length (shape g)) by (apply axis_lt in EB; exact EB).
    unfold shape_at. unfold rank in EB. rewrite EB. cbn [bind]. rewrite NG.
    assert (SL : forall p, length (series f a p) = nth a (shape f) 0) by (intros p; unfold series; rewrite map_length, seq_length; reflexivity).
    destruct (_determine_lengths (nth a (shape f) 0) level_size period nlevel) as [[[n_fast n_slow] nl]|e] eqn:EL; cbn [bind].
    2:{ apply pw_raise. intros p _. rewrite SL, EL. eexists. reflexivity. }
    set (keep := (has_flag nm NORM_STRUCTURED && cor)%bool).
    set (q := if keep then Some (map_nd (@cnorm2 K) g) else None).
    assert (Q1 : forall s, q = Some s -> shape s = shape g) by (unfold q; destruct keep; intros s E; [injection E as <-; reflexivity|discriminate E]).
    set (fast1 := fun p => ac1 (aligned 0) (series g b p) T (option_map (fun s => series s b p) q) (Some n_fast) (Some nm) (Some method) None).
    eapply pw_ext with (one' := fun p => let* x := fast1 p in let* y := multi_levels_auto zero complex ac1 aligned rs nl 0 binning nm method n_slow (series g b p) (option_map (fun s => series s b p) q) in Ok (x, y)).
    { intros p Hp. apply valid_length in Hp. unfold fast1. rewrite SL, EL. cbn [bind]. rewrite (PG p Hp).
      assert (X1 : option_map (fun s => series s b p) q = if keep then Some (abs2 (series f a p)) else None). { unfold q. destruct keep; [|reflexivity]. cbn [option_map]. rewrite <- (PG p Hp). unfold abs2, series. rewrite map_map. reflexivity. }
      rewrite X1. reflexivity. }
    eapply (@pw_bind fr (ndata K V) (cdata K V) _ _ (@pix K V)).
    { eapply (@pw_and _ _ _ _ _ (fun d => d <> NBad _ _)); [intros x Ex; eapply Hnb; exact Ex|].
      pose proof (@Hac 0 g n_fast nm method q None b) as H. cbn [Nat.eqb] in H. cbv zeta in H. rewrite DG in H. apply H; clear H; try assumption; [congruence|discriminate]. }
    intros fast ((HS & _ & N & _ & HW) & NB). cbv beta. specialize (HW (if complex then 2 * N - 1 else N) eq_refl ltac:(discriminate)). set (mf := if complex then 2 * N - 1 else N) in *.
    assert (KS : removelast (first_shape fast) = fr). { destruct fast; cbn [first_shape wf] in *; [| |contradiction]; destruct HW as (-> & _); apply removelast_last. }
    rewrite KS. destruct (@slow_pixels K V zero complex false cor nm na nl n_slow fr) as (slow & -> & SF & SZ).
    { destruct Hn as [Hn|[Hn H1]]; [left; exact Hn|right; split; [exact Hn|]]. intros E. apply (f_equal (@length nat)) in E. unfold fr in E. rewrite del_length in E by exact La. unfold rank in H1. cbn [length] in E. lia. }
    cbn [bind]. set (m := if complex then n_slow * 2 + 1 else n_slow) in *.
    eapply (@pw_bind fr (ndata K V) (list (cdata K V)) _ _ _ _ _ _ _ _ (fun p y => Ok (pix fast p, y)) (fun d => Ok (fast, d))).
    { apply (@levels_auto_pixels nl m n_slow binning nm method cor b fr Hcor Hsub nl 0 g q slow); try assumption; [rewrite <- EB; apply norm_axis_same; unfold rank in *; lia|lia|intros; apply SZ]. }
    intros d (HD & _). cbv beta. apply pw_ok.
    - cbn [fst snd]. split; [exists mf; exact HW|]. split; [exact NB|]. exists nl, m, n_slow. exact HD.
    - intros p Hp. cbn [fst snd]. unfold levels_at. assert (EH : hd 0 (first_shape d) = nl). { clear - HD. destruct d; cbn [tuple_form first_shape] in *; [destruct HD as (_ & -> & _); reflexivity|destruct HD as (_ & -> & _); reflexivity|contradiction]. } rewrite EH. reflexivity.
  Qed.
End Auto.
