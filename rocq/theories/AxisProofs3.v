(** Arrays of any number of axes: ccorr and acorr of every pixel. *)
From Coq Require Import String.
From Verif Require Import Base Kernels KernelProofs CoreModel CoreProofs CoreApi VecModel VecProofs FftModel NormModel CorrModel NormArrayModel NormArrayProofs AxisModel AxisProofs AxisProofs2.
Open Scope string_scope.
Open Scope nat_scope.
Local Notation length := List.length.
Set Implicit Arguments.

(** ** Programs on arrays that are programs on pixels *)
Section Pixelwise.
  Variable fr : list nat.
  Definition pixelwise (X Y : Type) (proj : X -> list nat -> Y) (good : X -> Prop) (one : list nat -> res Y) (r : res X) : Prop :=
    match r with
    | Ok x => good x /\ forall p, valid p fr -> one p = Ok (proj x p)
    | Raise _ => (exists p, valid p fr) -> (forall p, valid p fr -> exists v, one p = Ok v) -> False
    end.
  Lemma pw_bind X Y X' Y' (proj : X -> list nat -> Y) good one r (proj' : X' -> list nat -> Y') good' (k : list nat -> Y -> res Y') (F : X -> res X') :
    pixelwise proj good one r -> (forall x, good x -> pixelwise proj' good' (fun p => k p (proj x p)) (F x)) ->
    pixelwise proj' good' (fun p => let* y := one p in k p y) (let* x := r in F x).
  Proof.
    intros H1 H2. destruct r as [x|e]; cbn [bind].
    - destruct H1 as (G & H1). specialize (H2 x G). destruct (F x) as [x'|e']; cbn in H2 |- *.
      + destruct H2 as (G' & H2). split; [exact G'|]. intros p Hp. rewrite (H1 p Hp). cbn [bind]. apply H2. exact Hp.
      + intros Ex Al. apply H2; [exact Ex|]. intros p Hp. destruct (Al p Hp) as (v & Ev). rewrite (H1 p Hp) in Ev. exists v. exact Ev.
    - intros Ex Al. apply H1; [exact Ex|]. intros p Hp. destruct (Al p Hp) as (v & Ev). destruct (one p) as [y|]; [|discriminate Ev]. exists y. reflexivity.
  Qed.
  Lemma pw_ok X Y (proj : X -> list nat -> Y) (good : X -> Prop) x (y : list nat -> Y) : good x -> (forall p, valid p fr -> y p = proj x p) -> pixelwise proj good (fun p => Ok (y p)) (Ok x).
  Proof. intros G H. split; [exact G|]. intros p Hp. rewrite (H p Hp). reflexivity. Qed.
  Lemma pw_ext X Y (proj : X -> list nat -> Y) good one one' r : (forall p, valid p fr -> one p = one' p) -> pixelwise proj good one' r -> pixelwise proj good one r.
  Proof.
    intros E H. destruct r as [x|e]; cbn in *.
    - destruct H as (G & H). split; [exact G|]. intros p Hp. rewrite (E p Hp). apply H. exact Hp.
    - intros Ex Al. apply H; [exact Ex|]. intros p Hp. rewrite <- (E p Hp). apply Al. exact Hp.
  Qed.
  Lemma pw_raise X Y (proj : X -> list nat -> Y) good one e : (forall p, valid p fr -> exists e', one p = Raise e') -> pixelwise proj good one (Raise e).
  Proof. intros H (p & Hp) Al. destruct (Al p Hp) as (v & Ev). destruct (H p Hp) as (e' & E). congruence. Qed.
  Lemma pw_weaken X Y (proj : X -> list nat -> Y) (good good' : X -> Prop) one r : (forall x, good x -> good' x) -> pixelwise proj good one r -> pixelwise proj good' one r.
  Proof. intros W H. destruct r; [|exact H]. destruct H as (G & H). split; [apply W; exact G|exact H]. Qed.
End Pixelwise.

(** ** Moved arrays *)
Lemma moved A (f : nd A) axis a na : norm_axis (rank f) axis = Ok a -> (na = (-1)%Z \/ na = (-2)%Z /\ 1 < rank f) ->
  exists g a', _move_axis_and_align f axis na = Ok g /\ norm_axis (rank g) na = Ok a' /\ rank g = rank f /\ del a' (shape g) = del a (shape f) /\
    nth a' (shape g) 0 = nth a (shape f) 0 /\ forall p, length p = length (del a (shape f)) -> series g a' p = series f a p.
Proof.
  intros Ea Hn. pose proof (axis_lt _ _ Ea) as La. pose proof (del_length (shape f) La) as LD. unfold rank in *. destruct Hn as [E|[E Hr]]; subst na.
  - destruct (@move_any _ f axis a false Ea) as (g & Eg & Sg & Pg). exists g, (length (del a (shape f))). rewrite Sg, app_length. cbn [length]. split; [exact Eg|]. split; [rewrite axis_last by lia; f_equal; lia|]. split; [lia|]. split; [apply del_end; reflexivity|]. split; [apply nth_end; reflexivity|].
    intros p Hp. unfold series. rewrite Sg, nth_end by reflexivity. apply map_ext. intros t. rewrite ins_end by exact Hp. apply Pg. exact Hp.
  - destruct (@split_last _ (del a (shape f)) (length (shape f) - 2)) as (d & w & D & Ld); [lia|]. destruct (@move_mid _ f axis a d w false Ea D) as (g & Eg & Sg & Pg). exists g, (length d). rewrite Sg, D, !app_length. cbn [length]. split; [exact Eg|]. split; [rewrite axis_mid by lia; f_equal; lia|]. split; [lia|]. split; [apply del_mid; reflexivity|]. split; [apply nth_mid; reflexivity|].
    intros p Hp. destruct (@split_last _ p (length d)) as (q & j & -> & Lq); [lia|]. unfold series. rewrite Sg, nth_mid by reflexivity. apply map_ext. intros t. rewrite ins_mid by exact Lq. apply Pg. exact Lq.
Qed.
(** A call for the moved arrays *)
Definition len_ok (B : Type) (fr : list nat) (o : option (nd B)) : Prop := forall x, o = Some x -> exists m, shape x = (fr ++ [m])%list.
Definition rows (B : Type) (x : nd B) (p : list nat) := row x p.
Definition orow (B : Type) (o : option (nd B)) (p : list nat) : option (list B) := option_map (fun x => row x p) o.
Lemma call_pixels A B (g1 g2 : nd A) na aout one r a fr n complex (h1 h2 : list nat -> list A) :
  every_pixel g1 g2 na aout one r -> sized g1 g2 na aout (Some n) complex r -> norm_axis (rank g1) na = Ok a -> shape g2 = shape g1 -> del a (shape g1) = fr -> len_ok fr aout ->
  (forall p, length p = length fr -> series g1 a p = h1 p) -> (forall p, length p = length fr -> series g2 a p = h2 p) ->
  pixelwise fr (@rows B) (fun x => shape x = (fr ++ [outlen aout n complex])%list) (fun p => one (h1 p) (h2 p) (orow aout p)) r.
Proof.
  intros HE HS Ea E2 ED Ho P1 P2. assert (Ho' : forall o, aout = Some o -> exists m, shape o = (del a (shape g1) ++ [m])%list) by (rewrite ED; exact Ho). destruct (HE a Ea E2 Ho') as (Q1 & Q2). cbv zeta in Q1, Q2. rewrite ED in Q1, Q2. destruct r as [x|e]; cbn.
  - destruct (Q1 x eq_refl) as (_ & Q). split; [rewrite <- ED; apply (HS a n x Ea E2 Ho' eq_refl eq_refl)|]. intros p Hp. pose proof (valid_length Hp) as Hl. rewrite <- (P1 p Hl), <- (P2 p Hl). apply Q. exact Hp.
  - intros Ex Al. destruct Q2 as (out & Eo); [exact Ex| |discriminate Eo]. intros p Hp. pose proof (valid_length Hp) as Hl. rewrite (P1 p Hl), (P2 p Hl). apply Al. exact Hp.
Qed.

(** ** Results *)
Definition shaped (K : Fld) (V : Type) (data : ndata K V) (fr : list nat) : Prop :=
  match data with
  | NCorr d count sq s1 s2 => (exists m, shape d = (fr ++ [m])%list) /\ (exists m, shape count = [m]) /\ len_ok fr sq /\ len_ok fr s1 /\ len_ok fr s2
  | NDiff d count s1 s2 => (exists m, shape d = (fr ++ [m])%list) /\ (exists m, shape count = [m]) /\ len_ok fr s1 /\ len_ok fr s2
  | NBad _ _ => True
  end.
Lemma unpack_pixels (K : Fld) (V : Type) diff (aout : option (ndata K V)) fr : (forall d, aout = Some d -> shaped d fr) ->
  match unpack_aout_nd diff aout with
  | Ok (cor, count, sq, s1, s2) => len_ok fr cor /\ len_ok fr sq /\ len_ok fr s1 /\ len_ok fr s2 /\
      (forall m, (forall d, aout = Some d -> wf d fr m) -> oshape cor (fr ++ [m]) /\ (forall c, count = Some c -> shape c = [m]) /\ oshape sq (fr ++ [m]) /\ oshape s1 (fr ++ [m]) /\ oshape s2 (fr ++ [m])) /\
      (forall d, aout = Some d -> given cor = true) /\ (aout = None -> cor = None) /\
      forall p, unpack_aout diff (option_map (fun d => pix d p) aout) = Ok (orow cor p, option_map count_list count, orow sq p, orow s1 p, orow s2 p)
  | Raise e => forall p, unpack_aout diff (option_map (fun d => pix d p) aout) = Raise e
  end.
Proof.
  intros H. assert (N : forall B, @len_ok B fr None) by (intros B x E; discriminate E). destruct aout as [d|].
  2:{ cbn. repeat split; auto; discriminate. }
  specialize (H d eq_refl). destruct d as [d c sq s1 s2|d c s1 s2|], diff; cbn in *; try (intros p; reflexivity).
  - destruct H as (H1 & _ & H3 & H4 & H5). split; [intros x E; injection E as <-; exact H1|]. split; [exact H3|]. split; [exact H4|]. split; [exact H5|]. split.
    + intros m Hw. destruct (Hw _ eq_refl) as (W1 & W2 & W3 & W4 & W5). repeat split; auto. intros x E; injection E as <-. exact W2.
    + repeat split; auto; discriminate.
  - destruct H as (H1 & _ & H3 & H4). split; [intros x E; injection E as <-; exact H1|]. split; [apply N|]. split; [exact H3|]. split; [exact H4|]. split.
    + intros m Hw. destruct (Hw _ eq_refl) as (W1 & W2 & W3 & W4). repeat split; auto. intros x E; injection E as <-. exact W2.
    + repeat split; auto; discriminate.
Qed.
Lemma rowc_count l : rowc (count_nd l) = l.
Proof. unfold rowc, count_nd. cbn [shape at_ last hd]. apply nth_all. Qed.
(** Lengths of counts *)
Lemma count_len_cross t1 t2 n complex c r : cross_count (TArray t1) (Some (TArray t2)) (Some n) complex c = Ok r -> length r = match c with Some l => length l | None => if complex then 2 * n - 1 else n end.
Proof.
  unfold cross_count. cbn [targ_times]. destruct (_default_count _ _ _ _ _) as [o|] eqn:E; [|discriminate]. cbn [bind]. intros H. injection H as <-.
  transitivity (length o).
  - destruct complex; [unfold _add_count_cross_complex|unfold _add_count_cross]; apply for_range_length; intros; apply for_range_length; intros; [unfold scatter_signed_half; destruct (_ <? _)%Z; [apply (add_at_length natmon)|reflexivity]|apply (scatter_abs_length natmon)].
  - unfold _default_count in E. destruct c; [injection E as <-; reflexivity|]. cbn [bind] in E. destruct complex; [destruct (_ =? _); [discriminate|]|]; injection E as <-; apply repeat_length.
Qed.
Lemma count_len_auto t n c r : auto_count (TArray t) (Some n) c = Ok r -> length r = match c with Some l => length l | None => n end.
Proof.
  unfold auto_count. cbn [targ_times]. destruct (_default_count _ _ _ _ _) as [o|] eqn:E; [|discriminate]. cbn [bind]. intros H. injection H as <-.
  transitivity (length o).
  - unfold _add_count_auto; apply for_range_length; intros; apply for_range_length; intros; apply (scatter_abs_length natmon).
  - unfold _default_count in E. destruct c; injection E as <-; [reflexivity|]. apply repeat_length.
Qed.
Lemma outlen_fit B fr (o : option (nd B)) n (complex : bool) m : m = (if complex then 2 * n - 1 else n) -> @oshape B o (fr ++ [m]) -> outlen o n complex = m.
Proof. intros -> H. unfold outlen. destruct o as [o|]; [|reflexivity]. cbn in H. rewrite H. apply last_last. Qed.
Lemma alen_pixels V (cor : option (nd V)) fr : len_ok fr cor ->
  match cor with None => Ok None | Some o => let* l := shape_at (shape o) (-1) in Ok (Some l) end = (Ok (option_map (fun o => last (shape o) 0) cor) : res (option nat)) /\
  forall p, option_map (@length V) (orow cor p) = option_map (fun o => last (shape o) 0) cor.
Proof.
  intros H. destruct cor as [o|]; [|split; reflexivity]. destruct (H o eq_refl) as (m & E). unfold shape_at. rewrite E, app_length. cbn [length]. rewrite axis_last by lia. cbn [bind option_map]. rewrite nth_end by lia. rewrite E, last_last. split; [reflexivity|]. intros p. cbn [orow option_map]. rewrite (row_length p E). reflexivity.
Qed.

Lemma method_cases method n m : _default_method method n = Ok m -> m = "corr" \/ m = "fft" \/ m = "diff".
Proof.
  unfold _default_method. destruct method as [x|]; [|destruct n; intros E; injection E as <-; auto].
  destruct (String.eqb_spec x "corr"); [intros E; injection E as <-; auto|]. destruct (String.eqb_spec x "fft"); [intros E; injection E as <-; auto|]. destruct (String.eqb_spec x "diff"); [intros E; injection E as <-; auto|]. discriminate.
Qed.
(** What becomes of the arrays of an output tuple: they keep their shapes, and those that the normalization does
    not need are returned as they are *)
Definition kept (B : Type) (flag : bool) (o x : option (nd B)) : Prop :=
  (forall y, o = Some y -> exists z, x = Some z /\ shape z = shape y) /\ (flag = false -> x = o).
Definition cross_alike (K : Fld) (V : Type) (norm : Z) (d r : ndata K V) : Prop :=
  match d, r with
  | NCorr x c sq s1 s2, NCorr x' c' sq' s1' s2' => shape x' = shape x /\ shape c' = shape c /\ kept (has_flag norm NORM_STRUCTURED) sq sq' /\ kept (has_flag norm NORM_SUBTRACTED) s1 s1' /\ kept (has_flag norm NORM_SUBTRACTED) s2 s2'
  | NDiff x c s1 s2, NDiff x' c' s1' s2' => shape x' = shape x /\ shape c' = shape c /\ kept (has_flag norm NORM_SUBTRACTED) s1 s1' /\ kept (has_flag norm NORM_SUBTRACTED) s2 s2'
  | _, _ => False
  end.
Definition auto_alike (K : Fld) (V : Type) (norm : Z) (d r : ndata K V) : Prop :=
  match d, r with
  | NCorr x c sq s1 s2, NCorr x' c' sq' s1' s2' => shape x' = shape x /\ shape c' = shape c /\ kept (has_flag norm NORM_STRUCTURED) sq sq' /\ kept (has_flag norm NORM_SUBTRACTED) s1 s1' /\ s2' = None
  | NDiff x c s1 s2, NDiff x' c' s1' s2' => shape x' = shape x /\ shape c' = shape c /\ s1' = None /\ s2' = None
  | _, _ => False
  end.
Lemma norm_given nm m cross z : _default_norm (Some nm) m cross = Ok z -> z = nm.
Proof. unfold _default_norm. cbv zeta. match goal with |- (if ?b then _ else _) = _ -> _ => destruct b end; [|discriminate]. intros E. injection E as <-. reflexivity. Qed.
(** An array made from a given one or from zeros *)
Definition made (B : Type) (fr : list nat) (n : nat) (complex flag : bool) (o x : option (nd B)) : Prop :=
  len_ok fr x /\ (forall m, m = (if complex then 2 * n - 1 else n) -> oshape o (fr ++ [m]) -> oshape x (fr ++ [m])) /\ kept flag o x.
Lemma made_self B fr n complex flag (o : option (nd B)) : len_ok fr o -> made fr n complex flag o o.
Proof. intros H. split; [exact H|]. split; [intros m _ Hm; exact Hm|]. split; [intros y ->; eexists; split; reflexivity|reflexivity]. Qed.
Lemma made_some B fr n complex (o : option (nd B)) x : len_ok fr o -> shape x = (fr ++ [outlen o n complex])%list -> made fr n complex true o (Some x).
Proof.
  intros Ho H. split; [intros y E; injection E as <-; eexists; exact H|]. split; [intros m Hm Hs; cbn; rewrite H, (outlen_fit _ _ _ _ Hm Hs); reflexivity|]. split; [|discriminate].
  intros y ->. destruct (Ho y eq_refl) as (m & E). exists x. split; [reflexivity|]. rewrite H, E. cbn [outlen]. rewrite E, last_last. reflexivity.
Qed.

Section Corr.
  Variable K : Fld.
  Notation C := (Cx K).
  Variable W : nat -> C.

  (** Squares *)
  Lemma squares_pixels (given : option (nd K)) (f g : nd C) axis a na a' fr : norm_axis (rank f) axis = Ok a -> (na = (-1)%Z \/ na = (-2)%Z /\ 1 < rank f) -> fr = del a (shape f) ->
    norm_axis (rank g) na = Ok a' -> del a' (shape g) = fr -> (forall p, length p = length fr -> series g a' p = series f a p) ->
    (forall s, given = Some s -> shape s = shape f) ->
    exists q b, squares given g axis na = Ok q /\ norm_axis (rank q) na = Ok b /\ del b (shape q) = fr /\
      forall p, length p = length fr -> series q b p = match option_map (fun s => series s a p) given with Some s => s | None => abs2 (series f a p) end.
  Proof.
    intros Ea Hn Efr Eg Dg Pg Hs. destruct given as [s|]; cbn [squares option_map].
    - specialize (Hs s eq_refl). assert (Er : rank s = rank f) by (unfold rank; rewrite Hs; reflexivity). destruct (@moved _ s axis a na) as (q & b & Eq & Eb & _ & Dq & _ & Pq); [rewrite Er; exact Ea|rewrite Er; exact Hn|]. rewrite Hs, <- Efr in Dq, Pq. exists q, b. split; [exact Eq|]. split; [exact Eb|]. split; [exact Dq|exact Pq].
    - exists (map_nd (@cnorm2 K) g), a'. split; [reflexivity|]. split; [exact Eg|]. split; [exact Dg|]. intros p Hp. unfold abs2. rewrite <- (Pg p Hp). unfold series. rewrite map_map. reflexivity.
  Qed.
  Lemma sum_sq_pixels (use : bool) (q : nd K) t1 t2 na n complex inv aout :
    every_pixel q q na aout (fun x _ o => (if use then cross_sum_fft_real W else cross_sum (fgrp K)) x t1 t2 (Some n) complex inv o)
      ((if use then cross_sum_fft_nd (fgrp K) W (@cofre K) (@cre K) else cross_sum_nd (fgrp K)) q t1 t2 na (Some n) complex inv aout) /\
    sized q q na aout (Some n) complex ((if use then cross_sum_fft_nd (fgrp K) W (@cofre K) (@cre K) else cross_sum_nd (fgrp K)) q t1 t2 na (Some n) complex inv aout).
  Proof. destruct use; [apply (cross_sum_fft_pixels (fgrp K))|apply (cross_sum_pixels (fgrp K))]. Qed.
  Lemma sum_f_pixels (use : bool) (q : nd C) t1 t2 na n complex inv aout :
    every_pixel q q na aout (fun x _ o => (if use then cross_sum_fft_complex W else cross_sum (cgrp K)) x t1 t2 (Some n) complex inv o)
      ((if use then cross_sum_fft_nd (cgrp K) W (fun z => z) (@conj K) else cross_sum_nd (cgrp K)) q t1 t2 na (Some n) complex inv aout) /\
    sized q q na aout (Some n) complex ((if use then cross_sum_fft_nd (cgrp K) W (fun z => z) (@conj K) else cross_sum_nd (cgrp K)) q t1 t2 na (Some n) complex inv aout).
  Proof. destruct use; [apply (cross_sum_fft_pixels (cgrp K))|apply (cross_sum_pixels (cgrp K))]. Qed.
  Lemma asum_sq_pixels (use : bool) (q : nd K) t na n aout :
    every_pixel q q na aout (fun x _ o => (if use then auto_sum_fft_real W else auto_sum (fgrp K)) x t (Some n) o)
      ((if use then auto_sum_fft_nd (fgrp K) W (@cofre K) (@cre K) else auto_sum_nd (fgrp K)) q t na (Some n) aout) /\
    sized q q na aout (Some n) false ((if use then auto_sum_fft_nd (fgrp K) W (@cofre K) (@cre K) else auto_sum_nd (fgrp K)) q t na (Some n) aout).
  Proof. destruct use; [apply (auto_sum_fft_pixels (fgrp K))|apply (auto_sum_pixels (fgrp K))]. Qed.
  Lemma asum_f_pixels (use : bool) (q : nd C) t na n aout :
    every_pixel q q na aout (fun x _ o => (if use then auto_sum_fft_complex W else auto_sum (cgrp K)) x t (Some n) o)
      ((if use then auto_sum_fft_nd (cgrp K) W (fun z => z) (@conj K) else auto_sum_nd (cgrp K)) q t na (Some n) aout) /\
    sized q q na aout (Some n) false ((if use then auto_sum_fft_nd (cgrp K) W (fun z => z) (@conj K) else auto_sum_nd (cgrp K)) q t na (Some n) aout).
  Proof. destruct use; [apply (auto_sum_fft_pixels (cgrp K))|apply (auto_sum_pixels (cgrp K))]. Qed.

  (** The number of delays of a result *)
  Definition delays (V : Type) (aout : option (ndata K V)) (n : option nat) (complex : bool) (N : nat) : Prop :=
    (forall k, n = Some k -> N = k) /\
    (forall d fr m, n = None -> aout = Some d -> wf d fr m -> d <> NBad _ _ -> N = if complex then (m + 1) / 2 else m).
  (** What a result looks like: every pixel has all its delays on the last axis *)
  Definition result_ok (V : Type) (alike : Z -> ndata K V -> ndata K V -> Prop) (norm : option Z) (aout : option (ndata K V)) (n : option nat) (complex : bool) (fr : list nat) (r : ndata K V) : Prop :=
    shaped r fr /\ (forall d nm, aout = Some d -> norm = Some nm -> alike nm d r) /\ exists N, delays aout n complex N /\
      forall m, m = (if complex then 2 * N - 1 else N) -> (forall d, aout = Some d -> wf d fr m) -> wf r fr m.

  Section Cross.
    Variable V : Type.
    Variable complex : bool.
    Variables fft corr diff : nd C -> nd C -> option (list Z) -> option (list Z) -> Z -> option nat -> option (nd V) -> res (nd V).
    Variables fft1 corr1 diff1 : list C -> list C -> option (list Z) -> option (list Z) -> option nat -> option (list V) -> res (list V).
    Variables (r : nat) (na : Z).
    Definition same_calls (f : nd C -> nd C -> option (list Z) -> option (list Z) -> Z -> option nat -> option (nd V) -> res (nd V))
        (g : list C -> list C -> option (list Z) -> option (list Z) -> option nat -> option (list V) -> res (list V)) : Prop :=
      forall g1 g2 t1 t2 n aout, rank g1 = r ->
        every_pixel g1 g2 na aout (fun x y o => g x y t1 t2 (Some n) o) (f g1 g2 t1 t2 na (Some n) aout) /\ sized g1 g2 na aout (Some n) complex (f g1 g2 t1 t2 na (Some n) aout).
    Hypothesis Hfft : same_calls fft fft1.
    Hypothesis Hcorr : same_calls corr corr1.
    Hypothesis Hdiff : complex = false -> same_calls diff diff1.

    Theorem ccorr_gen_pixels contig f1 f2 t1 t2 axis n norm align method f1s f2s aout a fr :
      rank f1 = r -> norm_axis r axis = Ok a -> shape f2 = shape f1 -> fr = del a (shape f1) ->
      na = (if ((r <=? 1) || no_times (_is_aligned contig r axis align) t1)%bool then (-1)%Z else (-2)%Z) ->
      (forall s, f1s = Some s -> shape s = shape f1) -> (forall s, f2s = Some s -> shape s = shape f1) -> (forall d, aout = Some d -> shaped d fr) ->
      pixelwise fr (@pix K V) (result_ok (@cross_alike K V) norm aout n complex fr)
        (fun p => ccorr_gen W complex fft1 corr1 diff1 (series f1 a p) (series f2 a p) t1 t2 n norm method (option_map (fun s => series s a p) f1s) (option_map (fun s => series s a p) f2s) (option_map (fun d => pix d p) aout))
        (ccorr_nd_gen W complex fft corr diff contig f1 f2 t1 t2 axis n norm align method f1s f2s aout).
    Proof.
      intros Hr Ea E2 Efr Ena Hs1 Hs2 Ho. pose proof (axis_lt _ _ Ea) as La. unfold ccorr_nd_gen, ccorr_gen.
      destruct (_default_method method n) as [meth|e] eqn:EM; cbn [bind]; [|apply pw_raise; intros; eexists; reflexivity].
      destruct (_default_norm norm meth true) as [nrm|e] eqn:EN; cbn [bind]; [|apply pw_raise; intros; eexists; reflexivity].
      destruct (String.eqb meth "diff" && complex)%bool eqn:EDC; [apply pw_raise; intros; eexists; reflexivity|].
      pose proof (@unpack_pixels K V (String.eqb meth "diff") aout fr Ho) as HU. destruct (unpack_aout_nd (String.eqb meth "diff") aout) as [[[[[cor count] sq] s1] s2]|e] eqn:EU; cbn [bind].
      2:{ apply pw_raise. intros p _. rewrite (HU p). eexists. reflexivity. }
      destruct HU as (Lc & Lq & L1 & L2 & HW & HG & HG' & HU).
      rewrite Hr. destruct (Nat.eqb_spec r 0) as [Z|_]; [lia|]. destruct (list_eq_dec Nat.eq_dec (shape f1) (shape f2)) as [_|N]; [|congruence]. cbn [orb].
      destruct (@alen_pixels V cor fr Lc) as (EAL & PAL). rewrite EAL. cbn [bind]. set (L := nth a (shape f1) 0).
      assert (ESA : shape_at (shape f1) axis = Ok L) by (unfold shape_at; unfold rank in Hr; rewrite Hr, Ea; reflexivity). rewrite ESA.
      assert (SL1 : forall p, length (series f1 a p) = L) by (intros p; unfold series; rewrite map_length, seq_length; reflexivity).
      assert (SL2 : forall p, length (series f2 a p) = L) by (intros p; unfold series; rewrite map_length, seq_length, E2; reflexivity).
      destruct (inspect_cross t1 t2 n complex (Ok L) (option_map (fun o => last (shape o) 0) cor)) as [[ts N]|e] eqn:EI; cbn [bind].
      2:{ apply pw_raise. intros p _. rewrite (HU p). cbn [bind]. rewrite SL1, SL2, PAL, <- inspect_cross_one, EI. eexists. reflexivity. }
      assert (Tn : no_times (_is_aligned contig r axis align) ts = no_times (_is_aligned contig r axis align) t1).
      { unfold inspect_cross in EI. destruct t1 as [u1|], t2 as [u2|]; cbn [bind] in EI; try discriminate EI.
        - destruct (match n with Some _ => _ | None => _ end); [|discriminate EI]. cbn [bind] in EI. destruct (_shift_cross u1 u2); [|discriminate EI]. cbn [bind] in EI. injection EI as <- _. reflexivity.
        - destruct (match n with Some _ => _ | None => _ end); [|discriminate EI]. cbn [bind] in EI. injection EI as <- _. reflexivity. }
      rewrite Tn, <- Ena. assert (Hna : na = (-1)%Z \/ na = (-2)%Z /\ 1 < rank f1).
      { rewrite Ena, Hr. destruct (Nat.leb_spec r 1); [left; reflexivity|]. cbn [orb]. destruct (no_times _ _); [left; reflexivity|right; split; [reflexivity|lia]]. }
      assert (Ea1 : norm_axis (rank f1) axis = Ok a) by (rewrite Hr; exact Ea). assert (R2 : rank f2 = rank f1) by (unfold rank; rewrite E2; reflexivity). assert (Ea2 : norm_axis (rank f2) axis = Ok a) by (rewrite R2; exact Ea1).
      destruct (@moved _ f1 axis a na Ea1 Hna) as (g1 & a1 & -> & EA1 & Rg1 & D1 & N1 & P1). destruct (@moved _ f2 axis a na Ea2) as (g2 & a2 & -> & EA2 & Rg2 & D2 & N2 & P2); [rewrite R2; exact Hna|]. cbn [bind].
      rewrite E2 in D2, P2, N2. rewrite <- Efr in D1, D2, P1, P2. rewrite R2, <- Rg1 in Rg2. rewrite Rg2, EA1 in EA2. injection EA2 as <-.
      assert (SG : shape g2 = shape g1).
      { assert (X : forall s : list nat, a1 < length s -> s = ins a1 (nth a1 s 0) (del a1 s)).
        { intros s Hs. unfold ins, del. rewrite firstn_app, skipn_app, firstn_firstn, Nat.min_id, firstn_length, Nat.min_l by lia. rewrite Nat.sub_diag. cbn [firstn]. rewrite app_nil_r. rewrite (skipn_all2 (firstn a1 s)) by (rewrite firstn_length; lia). cbn [skipn app]. rewrite <- (firstn_skipn a1 s) at 1. f_equal. clear -Hs. revert a1 Hs. induction s as [|x s IH]; intros [|k] Hs; cbn in *; try lia; [reflexivity|]. apply IH. lia. }
        pose proof (axis_lt _ _ EA1) as LA. rewrite (X (shape g1) LA), (X (shape g2)) by (unfold rank in Rg2, LA; lia). rewrite D1, D2, N1, N2. reflexivity. }
      (* the program of one pixel *)
      set (T1 := option_map fst ts). set (T2 := option_map snd ts).
      eapply pw_ext. { intros p _. rewrite (HU p). cbn [bind]. rewrite SL1, SL2, PAL, <- inspect_cross_one, EI. cbn [bind]. fold T1. fold T2. reflexivity. }
      cbv beta.
      (* correlation *)
      eapply (@pw_bind fr (nd V) (list V) _ _ (@rows V) (fun x => shape x = (fr ++ [outlen cor N complex])%list)).
      { assert (Q : every_pixel g1 g2 na cor (fun x y o => (if String.eqb meth "fft" then fft1 else if String.eqb meth "corr" then corr1 else diff1) x y T1 T2 (Some N) o) ((if String.eqb meth "fft" then fft else if String.eqb meth "corr" then corr else diff) g1 g2 T1 T2 na (Some N) cor) /\ sized g1 g2 na cor (Some N) complex ((if String.eqb meth "fft" then fft else if String.eqb meth "corr" then corr else diff) g1 g2 T1 T2 na (Some N) cor)).
        { assert (Rg : rank g1 = r) by congruence. destruct (method_cases _ _ EM) as [E|[E|E]]; rewrite E in *; cbn [String.eqb Ascii.eqb Bool.eqb andb] in *; [apply Hcorr; exact Rg|apply Hfft; exact Rg|apply (Hdiff EDC); exact Rg]. }
        destruct Q as (Q1 & Q2). apply (@call_pixels _ _ g1 g2 na cor _ _ a1 fr N complex _ _ Q1 Q2 EA1 SG D1 Lc P1 P2). }
      intros c Sc. cbv beta.
      (* count *)
      eapply (@pw_bind fr (list nat) (list nat) _ _ (fun x _ => x) (fun x => length x = match count with Some l => length (count_list l) | None => if complex then 2 * N - 1 else N end)).
      { assert (EC : match ts with None => let* l := shape_at (shape g1) na in cross_count (TArray (arange l)) (Some (TArray (arange l))) (Some N) complex (option_map count_list count) | Some (u1, u2) => cross_count (TArray u1) (Some (TArray u2)) (Some N) complex (option_map count_list count) end
                   = match ts with None => cross_count (TArray (arange L)) (Some (TArray (arange L))) (Some N) complex (option_map count_list count) | Some (u1, u2) => cross_count (TArray u1) (Some (TArray u2)) (Some N) complex (option_map count_list count) end).
        { destruct ts as [[u1 u2]|]; [reflexivity|]. unfold shape_at. unfold rank in EA1. rewrite EA1. cbn [bind]. rewrite N1. reflexivity. }
        cbv zeta. rewrite EC. match type of EC with _ = ?x => destruct x as [l|e] eqn:EL end; [|apply pw_raise; intros; eexists; reflexivity].
        split; [|intros; reflexivity]. destruct ts as [[u1 u2]|]; apply count_len_cross in EL; rewrite EL; destruct count; reflexivity. }
      intros cnt Scnt. cbv beta. set (use := (String.eqb meth "fft" && given ts)%bool).
      (* squares *)
      eapply (@pw_bind fr (option (nd K)) (option (list K)) _ _ (@orow K) (made fr N complex (has_flag nrm NORM_STRUCTURED && negb (String.eqb meth "diff")) sq)).
      { destruct (has_flag nrm NORM_STRUCTURED && negb (String.eqb meth "diff"))%bool; [|apply pw_ok; [apply made_self; exact Lq|intros; reflexivity]].
        destruct (@squares_pixels f1s f1 g1 axis a na a1 fr Ea1 Hna Efr EA1 D1 P1 Hs1) as (q1 & b1 & -> & EB1 & DB1 & PB1).
        destruct (@squares_pixels f2s f2 g2 axis a na a1 fr Ea2) as (q2 & b2 & -> & EB2 & DB2 & PB2); [rewrite R2; exact Hna|rewrite E2; exact Efr|rewrite Rg2; exact EA1|exact D2|exact P2|rewrite E2; exact Hs2|]. cbn [bind]. cbv zeta.
        eapply (@pw_bind fr (nd K) (list K) _ _ (@rows K) (fun x => shape x = (fr ++ [outlen sq N complex])%list)).
        { destruct (@sum_sq_pixels use q1 T1 T2 na N complex false sq) as (Q1 & Q2). eapply (@call_pixels _ _ q1 q1 na sq _ _ b1 fr N complex _ _ Q1 Q2 EB1 eq_refl DB1 Lq PB1 PB1). }
        intros y Sy. cbv beta.
        eapply (@pw_bind fr (nd K) (list K) _ _ (@rows K) (fun x => shape x = (fr ++ [outlen (Some y) N complex])%list)).
        { destruct (@sum_sq_pixels use q2 T2 T1 na N complex true (Some y)) as (Q1 & Q2). eapply (@call_pixels _ _ q2 q2 na (Some y) _ _ b2 fr N complex _ _ Q1 Q2 EB2 eq_refl DB2); [|exact PB2|exact PB2]. intros x E; injection E as <-. eexists; exact Sy. }
        intros z Sz. apply pw_ok; [|intros; reflexivity]. apply made_some; [exact Lq|]. etransitivity; [exact Sz|]. f_equal. f_equal. unfold outlen at 1. transitivity (last (fr ++ [outlen sq N complex]) 0); [f_equal; exact Sy|apply last_last]. }
      intros sq' Msq. cbv beta.
      (* sums *)
      eapply (@pw_bind fr (option (nd C) * option (nd C)) (option (list C) * option (list C)) _ _ (fun x p => (orow (fst x) p, orow (snd x) p)) (fun x => made fr N complex (has_flag nrm NORM_SUBTRACTED) s1 (fst x) /\ made fr N complex (has_flag nrm NORM_SUBTRACTED) s2 (snd x))).
      { destruct (has_flag nrm NORM_SUBTRACTED); [|apply pw_ok; [split; apply made_self; assumption|intros; reflexivity]].
        eapply (@pw_bind fr (nd C) (list C) _ _ (@rows C) (fun x => shape x = (fr ++ [outlen s1 N complex])%list)).
        { destruct (@sum_f_pixels use g1 T1 T2 na N complex false s1) as (Q1 & Q2). eapply (@call_pixels _ _ g1 g1 na s1 _ _ a1 fr N complex _ _ Q1 Q2 EA1 eq_refl D1 L1 P1 P1). }
        intros y Sy. cbv beta.
        eapply (@pw_bind fr (nd C) (list C) _ _ (@rows C) (fun x => shape x = (fr ++ [outlen s2 N complex])%list)).
        { destruct (@sum_f_pixels use g2 T2 T1 na N complex true s2) as (Q1 & Q2). eapply (@call_pixels _ _ g2 g2 na s2 _ _ a1 fr N complex _ _ Q1 Q2); [rewrite Rg2; exact EA1|reflexivity|exact D2|exact L2|exact P2|exact P2]. }
        intros z Sz. apply pw_ok; [|intros; reflexivity]. split; apply made_some; assumption. }
      intros [d1 d2] (M1 & M2). cbn [fst snd] in *. cbv beta iota.
      apply pw_ok.
      2:{ intros p _. destruct (String.eqb meth "diff"); cbn [pix]; rewrite rowc_count; reflexivity. }
      assert (DL : delays aout n complex N).
      { split; [intros k En; apply (@inspect_cross_n _ _ _ _ _ _ _ _ _ EI En)|]. intros d fr' m En Ed Hd Hb. subst n.
        assert (EC : option_map (fun o : nd V => last (shape o) 0) cor = Some m). { rewrite Ed in EU. destruct d as [x c' x1 x2 x3|x c' x1 x2|]; [| |contradiction]; destruct (String.eqb meth "diff"); try discriminate EU; injection EU as <- _ _ _ _; cbn; destruct Hd as (E & _); rewrite E, last_last; reflexivity. }
        rewrite EC in EI. unfold inspect_cross in EI. destruct t1, t2; cbn [bind] in EI; try discriminate EI; [destruct (_shift_cross _ _); [|discriminate EI]; cbn [bind] in EI|]; injection EI as _ <-; reflexivity. }
      assert (SC : forall m, m = (if complex then 2 * N - 1 else N) -> (forall d, aout = Some d -> wf d fr m) -> shape c = (fr ++ [m])%list /\ length cnt = m /\ oshape sq' (fr ++ [m]) /\ oshape d1 (fr ++ [m]) /\ oshape d2 (fr ++ [m])).
      { intros m Em Hm. destruct (HW m Hm) as (W1 & W2 & W3 & W4 & W5). split; [rewrite Sc, (outlen_fit _ _ _ _ Em W1); reflexivity|]. split; [|split; [apply Msq; assumption|split; [apply M1|apply M2]; assumption]].
        rewrite Scnt. destruct count as [l|]; [|symmetry; exact Em]. unfold count_list, row. rewrite map_length, seq_length, (W2 l eq_refl). reflexivity. }
      assert (CS : forall d c', aout = Some d -> match d with NCorr _ k _ _ _ => Some k | NDiff _ k _ _ => Some k | NBad _ _ => None end = Some c' -> count = Some c' -> shape (count_nd cnt) = shape c').
      { intros d c' Ed Ec Ek. rewrite Ek in Scnt. cbn [count_nd shape]. rewrite Scnt. unfold count_list, row. rewrite map_length, seq_length. specialize (Ho d Ed). destruct d as [x k y1 y2 y3|x k y1 y2|]; [| |discriminate Ec]; injection Ec as <-; destruct Ho as (_ & (m & Em) & _); rewrite Em; reflexivity. }
      assert (XS : forall x, cor = Some x -> shape c = shape x). { intros x Ex. rewrite Sc, Ex. cbn [outlen]. destruct (Lc x Ex) as (m & Em). rewrite Em, last_last. reflexivity. }
      split; [|split; [|exists N; split; [exact DL|]]].
      - destruct (String.eqb meth "diff"); cbn [shaped]; (split; [eexists; exact Sc|]); (split; [exists (length cnt); reflexivity|]); repeat split; try apply Msq; try apply M1; try apply M2.
      - intros d nm Ed En. subst norm. apply norm_given in EN. subst nrm. rewrite Ed in EU. destruct (String.eqb meth "diff"), d as [x k y1 y2 y3|x k y1 y2|]; try discriminate EU; injection EU as <- <- <- <- <-; cbn [cross_alike]; (split; [apply XS; reflexivity|]); (split; [apply (CS _ k Ed); reflexivity|]).
        + split; [apply M1|apply M2].
        + rewrite andb_true_r in Msq. split; [apply Msq|]. split; [apply M1|apply M2].
      - intros m Em Hm. destruct (SC m Em Hm) as (W1 & W2 & W3 & W4 & W5). destruct (String.eqb meth "diff"); cbn [wf]; (split; [exact W1|]); (split; [cbn; rewrite W2; reflexivity|]); repeat split; assumption.
    Qed.
  End Cross.

  Section Auto.
    Variable V : Type.
    Variables fft corr diff : nd C -> option (list Z) -> Z -> option nat -> option (nd V) -> res (nd V).
    Variables fft1 corr1 diff1 : list C -> option (list Z) -> option nat -> option (list V) -> res (list V).
    Variables (r : nat) (na : Z).
    Definition same_auto_calls (f : nd C -> option (list Z) -> Z -> option nat -> option (nd V) -> res (nd V)) (g : list C -> option (list Z) -> option nat -> option (list V) -> res (list V)) : Prop :=
      forall g1 t n aout, rank g1 = r ->
        every_pixel g1 g1 na aout (fun x _ o => g x t (Some n) o) (f g1 t na (Some n) aout) /\ sized g1 g1 na aout (Some n) false (f g1 t na (Some n) aout).
    Hypothesis Hfft : same_auto_calls fft fft1.
    Hypothesis Hcorr : same_auto_calls corr corr1.
    Hypothesis Hdiff : same_auto_calls diff diff1.

    Theorem acorr_gen_pixels contig f t fs axis n norm align method aout a fr :
      rank f = r -> norm_axis r axis = Ok a -> fr = del a (shape f) ->
      na = (if ((r <=? 1) || no_times (_is_aligned contig r axis align) t)%bool then (-1)%Z else (-2)%Z) ->
      (forall s, fs = Some s -> shape s = shape f) -> (forall d, aout = Some d -> shaped d fr) ->
      pixelwise fr (@pix K V) (result_ok (@auto_alike K V) norm aout n false fr)
        (fun p => acorr_gen W fft1 corr1 diff1 (series f a p) t (option_map (fun s => series s a p) fs) n norm method (option_map (fun d => pix d p) aout))
        (acorr_nd_gen W fft corr diff contig f t fs axis n norm align method aout).
    Proof.
      intros Hr Ea Efr Ena Hs1 Ho. pose proof (axis_lt _ _ Ea) as La. unfold acorr_nd_gen, acorr_gen.
      destruct (_default_method method n) as [meth|e] eqn:EM; cbn [bind]; [|apply pw_raise; intros; eexists; reflexivity].
      destruct (_default_norm norm meth false) as [nrm|e] eqn:EN; cbn [bind]; [|apply pw_raise; intros; eexists; reflexivity].
      pose proof (@unpack_pixels K V (String.eqb meth "diff") aout fr Ho) as HU. destruct (unpack_aout_nd (String.eqb meth "diff") aout) as [[[[[cor count] sq] s1] s2]|e] eqn:EU; cbn [bind].
      2:{ apply pw_raise. intros p _. rewrite (HU p). eexists. reflexivity. }
      destruct HU as (Lc & Lq & L1 & L2 & HW & HG & HG' & HU).
      rewrite Hr. destruct (Nat.eqb_spec r 0) as [Z|_]; [lia|].
      destruct (@alen_pixels V cor fr Lc) as (EAL & PAL). rewrite EAL. cbn [bind]. set (L := nth a (shape f) 0).
      assert (ESA : shape_at (shape f) axis = Ok L) by (unfold shape_at; unfold rank in Hr; rewrite Hr, Ea; reflexivity). rewrite ESA.
      assert (SL1 : forall p, length (series f a p) = L) by (intros p; unfold series; rewrite map_length, seq_length; reflexivity).
      destruct (inspect_auto t n (Ok L) (option_map (fun o => last (shape o) 0) cor)) as [[ts N]|e] eqn:EI; cbn [bind].
      2:{ apply pw_raise. intros p _. rewrite (HU p). cbn [bind]. rewrite SL1, PAL, <- inspect_auto_one, EI. eexists. reflexivity. }
      assert (Tn : no_times (_is_aligned contig r axis align) ts = no_times (_is_aligned contig r axis align) t).
      { unfold inspect_auto in EI. destruct t as [u1|].
        - destruct (match n with Some _ => _ | None => _ end); [|discriminate EI]. cbn [bind] in EI. destruct (zmin_list u1); [|discriminate EI]. cbn [bind] in EI. injection EI as <- _. reflexivity.
        - destruct (match n with Some _ => _ | None => _ end); [|discriminate EI]. cbn [bind] in EI. injection EI as <- _. reflexivity. }
      rewrite Tn, <- Ena. assert (Hna : na = (-1)%Z \/ na = (-2)%Z /\ 1 < rank f).
      { rewrite Ena, Hr. destruct (Nat.leb_spec r 1); [left; reflexivity|]. cbn [orb]. destruct (no_times _ _); [left; reflexivity|right; split; [reflexivity|lia]]. }
      assert (Ea1 : norm_axis (rank f) axis = Ok a) by (rewrite Hr; exact Ea).
      destruct (@moved _ f axis a na Ea1 Hna) as (g1 & a1 & -> & EA1 & Rg1 & D1 & N1 & P1). cbn [bind]. rewrite <- Efr in D1, P1.
      eapply pw_ext. { intros p _. rewrite (HU p). cbn [bind]. rewrite SL1, PAL, <- inspect_auto_one, EI. cbn [bind]. reflexivity. }
      cbv beta.
      (* correlation *)
      eapply (@pw_bind fr (nd V) (list V) _ _ (@rows V) (fun x => shape x = (fr ++ [outlen cor N false])%list)).
      { assert (Q : every_pixel g1 g1 na cor (fun x y o => (if String.eqb meth "fft" then fft1 else if String.eqb meth "corr" then corr1 else diff1) x ts (Some N) o) ((if String.eqb meth "fft" then fft else if String.eqb meth "corr" then corr else diff) g1 ts na (Some N) cor) /\ sized g1 g1 na cor (Some N) false ((if String.eqb meth "fft" then fft else if String.eqb meth "corr" then corr else diff) g1 ts na (Some N) cor)).
        { assert (Rg : rank g1 = r) by congruence. destruct (String.eqb meth "fft"); [apply Hfft; exact Rg|]. destruct (String.eqb meth "corr"); [apply Hcorr|apply Hdiff]; exact Rg. }
        destruct Q as (Q1 & Q2). apply (@call_pixels _ _ g1 g1 na cor _ _ a1 fr N false _ _ Q1 Q2 EA1 eq_refl D1 Lc P1 P1). }
      intros c Sc. cbv beta.
      (* count *)
      eapply (@pw_bind fr (list nat) (list nat) _ _ (fun x _ => x) (fun x => length x = match count with Some l => length (count_list l) | None => N end)).
      { assert (EC : match ts with None => let* l := shape_at (shape g1) na in auto_count (TArray (arange l)) (Some N) (option_map count_list count) | Some u => auto_count (TArray u) (Some N) (option_map count_list count) end
                   = auto_count (TArray match ts with None => arange L | Some u => u end) (Some N) (option_map count_list count)).
        { destruct ts as [u|]; [reflexivity|]. unfold shape_at. unfold rank in EA1. rewrite EA1. cbn [bind]. rewrite N1. reflexivity. }
        rewrite EC. match type of EC with _ = ?x => destruct x as [l|e] eqn:EL end; [|apply pw_raise; intros; eexists; reflexivity].
        split; [|intros; reflexivity]. apply count_len_auto in EL; rewrite EL; destruct count; reflexivity. }
      intros cnt Scnt. cbv beta. set (use := (String.eqb meth "fft" && given ts)%bool).
      (* squares *)
      eapply (@pw_bind fr (option (nd K)) (option (list K)) _ _ (@orow K) (made fr N false (has_flag nrm NORM_STRUCTURED && negb (String.eqb meth "diff")) sq)).
      { destruct (has_flag nrm NORM_STRUCTURED && negb (String.eqb meth "diff"))%bool; [|apply pw_ok; [apply made_self; exact Lq|intros; reflexivity]].
        destruct (@squares_pixels fs f g1 axis a na a1 fr Ea1 Hna Efr EA1 D1 P1 Hs1) as (q1 & b1 & -> & EB1 & DB1 & PB1). cbn [bind]. cbv zeta.
        eapply (@pw_bind fr (nd K) (list K) _ _ (@rows K) (fun x => shape x = (fr ++ [outlen sq N false])%list)).
        { set (q := map_nd (fmul K (fadd K (f1 K) (f1 K))) q1). destruct (@asum_sq_pixels use q ts na N sq) as (Q1 & Q2).
          assert (PB : forall p, length p = length fr -> series q b1 p = map (fmul K (fadd K (f1 K) (f1 K))) (match option_map (fun s => series s a p) fs with Some s => s | None => abs2 (series f a p) end)) by (intros p Hp; rewrite <- (PB1 p Hp); unfold series; rewrite map_map; reflexivity).
          eapply (@call_pixels _ _ q q na sq _ _ b1 fr N false _ _ Q1 Q2 EB1 eq_refl DB1 Lq PB PB). }
        intros y Sy. apply pw_ok; [|intros; reflexivity]. apply made_some; assumption. }
      intros sq' Msq. cbv beta.
      (* sums *)
      eapply (@pw_bind fr (option (nd C)) (option (list C)) _ _ (@orow C) (made fr N false (has_flag nrm NORM_SUBTRACTED && negb (String.eqb meth "diff")) s1)).
      { destruct (has_flag nrm NORM_SUBTRACTED && negb (String.eqb meth "diff"))%bool; [|apply pw_ok; [apply made_self; exact L1|intros; reflexivity]].
        eapply (@pw_bind fr (nd C) (list C) _ _ (@rows C) (fun x => shape x = (fr ++ [outlen s1 N false])%list)).
        { destruct (@asum_f_pixels use g1 ts na N s1) as (Q1 & Q2). eapply (@call_pixels _ _ g1 g1 na s1 _ _ a1 fr N false _ _ Q1 Q2 EA1 eq_refl D1 L1 P1 P1). }
        intros y Sy. apply pw_ok; [|intros; reflexivity]. apply made_some; assumption. }
      intros d1 M1. cbv beta.
      apply pw_ok.
      2:{ intros p _. destruct (String.eqb meth "diff"); cbn [pix]; rewrite rowc_count; reflexivity. }
      assert (DL : delays aout n false N).
      { split; [intros k En; apply (@inspect_auto_n _ _ _ _ _ _ _ EI En)|]. intros d fr' m En Ed Hd Hb. subst n.
        assert (EC : option_map (fun o : nd V => last (shape o) 0) cor = Some m). { rewrite Ed in EU. destruct d as [x c' x1 x2 x3|x c' x1 x2|]; [| |contradiction]; destruct (String.eqb meth "diff"); try discriminate EU; injection EU as <- _ _ _ _; cbn; destruct Hd as (E & _); rewrite E, last_last; reflexivity. }
        rewrite EC in EI. unfold inspect_auto in EI. destruct t; cbn [bind] in EI; [destruct (zmin_list _); [|discriminate EI]; cbn [bind] in EI|]; injection EI as _ <-; reflexivity. }
      assert (SC : forall m, m = N -> (forall d, aout = Some d -> wf d fr m) -> shape c = (fr ++ [m])%list /\ length cnt = m /\ oshape sq' (fr ++ [m]) /\ oshape d1 (fr ++ [m])).
      { intros m Em Hm. destruct (HW m Hm) as (W1 & W2 & W3 & W4 & W5). split; [rewrite Sc, (@outlen_fit _ fr cor N false m Em W1); reflexivity|]. split; [|split; [apply Msq|apply M1]; assumption].
        rewrite Scnt. destruct count as [l|]; [|symmetry; exact Em]. unfold count_list, row. rewrite map_length, seq_length, (W2 l eq_refl). reflexivity. }
      assert (NN : forall B, @len_ok B fr None) by (intros B x E; discriminate E).
      assert (CS : forall d c', aout = Some d -> match d with NCorr _ k _ _ _ => Some k | NDiff _ k _ _ => Some k | NBad _ _ => None end = Some c' -> count = Some c' -> shape (count_nd cnt) = shape c').
      { intros d c' Ed Ec Ek. rewrite Ek in Scnt. cbn [count_nd shape]. rewrite Scnt. unfold count_list, row. rewrite map_length, seq_length. specialize (Ho d Ed). destruct d as [x k y1 y2 y3|x k y1 y2|]; [| |discriminate Ec]; injection Ec as <-; destruct Ho as (_ & (m & Em) & _); rewrite Em; reflexivity. }
      assert (XS : forall x, cor = Some x -> shape c = shape x). { intros x Ex. rewrite Sc, Ex. cbn [outlen]. destruct (Lc x Ex) as (m & Em). rewrite Em, last_last. reflexivity. }
      split; [|split; [|exists N; split; [exact DL|]]].
      - destruct (String.eqb meth "diff"); cbn [shaped]; (split; [eexists; exact Sc|]); (split; [exists (length cnt); reflexivity|]); repeat split; try apply NN; try apply Msq; try apply M1.
      - intros d nm Ed En. subst norm. apply norm_given in EN. subst nrm. rewrite Ed in EU. destruct (String.eqb meth "diff"), d as [x k y1 y2 y3|x k y1 y2|]; try discriminate EU; injection EU as <- <- <- <- <-; cbn [auto_alike]; (split; [apply XS; reflexivity|]); (split; [apply (CS _ k Ed); reflexivity|]).
        + split; reflexivity.
        + rewrite andb_true_r in Msq, M1. split; [apply Msq|]. split; [apply M1|reflexivity].
      - intros m Em Hm. destruct (SC m Em Hm) as (W1 & W2 & W3 & W4). destruct (String.eqb meth "diff"); cbn [wf]; (split; [exact W1|]); (split; [cbn; rewrite W2; reflexivity|]); repeat split; assumption.
    Qed.
  End Auto.

  (** ** The functions themselves *)
  Notation is_aligned := _is_aligned.
  Lemma cross_correlate_pixels contig (g1 g2 : nd C) t1 t2 axis n align aout :
    every_pixel g1 g2 axis aout (fun x y o => cross_correlate x y t1 t2 n (is_aligned contig (rank g1) axis align) o) (cross_correlate_nd contig g1 g2 t1 t2 axis n align aout) /\
    sized g1 g2 axis aout n false (cross_correlate_nd contig g1 g2 t1 t2 axis n align aout).
  Proof.
    apply (@run_cross_pixels _ _ (c0 K)); [apply keeps_cross_corr|apply len_cross_corr|]. intros w j m1 m2 u1 u2 mo Hj R1 R2 Ro. destruct (@_cross_corr_vec_pixel K w j Hj m1 m2 u1 u2 mo (length mo) R1 R2 (Logic.conj Ro eq_refl)) as ((_ & E1) & E2). split; [exact E1|exact E2].
  Qed.
  Lemma cross_correlate_complex_pixels contig (g1 g2 : nd C) t1 t2 axis n align aout :
    every_pixel g1 g2 axis aout (fun x y o => cross_correlate_complex x y t1 t2 n (is_aligned contig (rank g1) axis align) o) (cross_correlate_complex_nd contig g1 g2 t1 t2 axis n align aout) /\
    sized g1 g2 axis aout n true (cross_correlate_complex_nd contig g1 g2 t1 t2 axis n align aout).
  Proof.
    apply (@run_cross_pixels _ _ (c0 K)); [apply keeps_cross_corr_complex|apply len_cross_corr_complex|]. intros w j m1 m2 u1 u2 mo Hj R1 R2 Ro. destruct (@_cross_corr_complex_vec_pixel K w j Hj m1 m2 u1 u2 mo (length mo) R1 R2 (Logic.conj Ro eq_refl)) as ((_ & E1) & E2). split; [exact E1|exact E2].
  Qed.
  Lemma cross_difference_pixels contig (g1 g2 : nd C) t1 t2 axis n align aout :
    every_pixel g1 g2 axis aout (fun x y o => cross_difference x y t1 t2 n (is_aligned contig (rank g1) axis align) o) (cross_difference_nd contig g1 g2 t1 t2 axis n align aout) /\
    sized g1 g2 axis aout n false (cross_difference_nd contig g1 g2 t1 t2 axis n align aout).
  Proof.
    apply (@run_cross_pixels _ _ (c0 K)); [apply keeps_cross_diff|apply len_cross_diff|]. intros w j m1 m2 u1 u2 mo Hj R1 R2 Ro. destruct (@_cross_diff_vec_pixel K w j Hj m1 m2 u1 u2 mo (length mo) R1 R2 (Logic.conj Ro eq_refl)) as ((_ & E1) & E2). split; [exact E1|exact E2].
  Qed.
  Lemma auto_correlate_pixels contig (g : nd C) t axis n align aout :
    every_pixel g g axis aout (fun x _ o => auto_correlate x t n (is_aligned contig (rank g) axis align) o) (auto_correlate_nd contig g t axis n align aout) /\
    sized g g axis aout n false (auto_correlate_nd contig g t axis n align aout).
  Proof.
    apply (@run_auto_pixels _ _ (c0 K)); [apply keeps_auto_corr|apply len_auto_corr|]. intros w j m u mo Hj R1 Ro. destruct (@_auto_corr_vec_pixel K w j Hj m u mo (length mo) R1 (Logic.conj Ro eq_refl)) as ((_ & E1) & E2). split; [exact E1|exact E2].
  Qed.
  Lemma auto_correlate_complex_pixels contig (g : nd C) t axis n align aout :
    every_pixel g g axis aout (fun x _ o => auto_correlate_complex x t n (is_aligned contig (rank g) axis align) o) (auto_correlate_complex_nd contig g t axis n align aout) /\
    sized g g axis aout n false (auto_correlate_complex_nd contig g t axis n align aout).
  Proof.
    apply (@run_auto_pixels _ _ (c0 K)); [apply keeps_auto_corr_complex|apply len_auto_corr_complex|]. intros w j m u mo Hj R1 Ro. destruct (@_auto_corr_complex_vec_pixel K w j Hj m u mo (length mo) R1 (Logic.conj Ro eq_refl)) as ((_ & E1) & E2). split; [exact E1|exact E2].
  Qed.
  Lemma auto_difference_pixels contig (g : nd C) t axis n align aout :
    every_pixel g g axis aout (fun x _ o => auto_difference x t n (is_aligned contig (rank g) axis align) o) (auto_difference_nd contig g t axis n align aout) /\
    sized g g axis aout n false (auto_difference_nd contig g t axis n align aout).
  Proof.
    apply (@run_auto_pixels _ _ (c0 K)); [apply keeps_auto_diff|apply len_auto_diff|]. intros w j m u mo Hj R1 Ro. destruct (@_auto_diff_vec_pixel K w j Hj m u mo (length mo) R1 (Logic.conj Ro eq_refl)) as ((_ & E1) & E2). split; [exact E1|exact E2].
  Qed.
  Lemma cross_correlate_fft_pixels (g1 g2 : nd C) t1 t2 axis n aout :
    every_pixel g1 g2 axis aout (fun x y o => cross_correlate_fft W x y t1 t2 n o) (cross_correlate_fft_nd W g1 g2 t1 t2 axis n aout) /\ sized g1 g2 axis aout n false (cross_correlate_fft_nd W g1 g2 t1 t2 axis n aout).
  Proof.
    apply run_cross_fft_pixels.
    - intros x y o o'. unfold _cross_corr_fft_regular. destruct (correlate_spectra _ _ _); [|discriminate]. cbn [bind]. apply len_folded.
    - intros x y u1 u2 L o o'. unfold _cross_corr_fft. destruct (cross_irregular _ _ _ _ _ _); [|discriminate]. cbn [bind]. apply len_folded.
  Qed.
  Lemma cross_correlate_fft_complex_pixels (g1 g2 : nd C) t1 t2 axis n aout :
    every_pixel g1 g2 axis aout (fun x y o => cross_correlate_fft_complex W x y t1 t2 n o) (cross_correlate_fft_complex_nd W g1 g2 t1 t2 axis n aout) /\ sized g1 g2 axis aout n true (cross_correlate_fft_complex_nd W g1 g2 t1 t2 axis n aout).
  Proof.
    apply run_cross_fft_pixels.
    - intros x y o o'. unfold _cross_corr_fft_regular_complex. destruct (correlate_spectra _ _ _); [|discriminate]. cbn [bind]. apply len_signed.
    - intros x y u1 u2 L o o'. unfold _cross_corr_fft_complex. destruct (cross_irregular _ _ _ _ _ _); [|discriminate]. cbn [bind]. apply len_signed.
  Qed.
  Lemma auto_correlate_fft_pixels (g : nd C) t axis n aout :
    every_pixel g g axis aout (fun x _ o => auto_correlate_fft W x t n o) (auto_correlate_fft_nd W g t axis n aout) /\ sized g g axis aout n false (auto_correlate_fft_nd W g t axis n aout).
  Proof.
    apply run_auto_fft_pixels.
    - intros x o o'. unfold _auto_corr_fft_regular. destruct (power_spectrum _ _); [|discriminate]. cbn [bind]. apply len_plain.
    - intros x u L o o'. unfold _auto_corr_fft. destruct (auto_irregular _ _ _ _); [|discriminate]. cbn [bind]. apply len_plain.
  Qed.
  Lemma auto_correlate_fft_complex_pixels (g : nd C) t axis n aout :
    every_pixel g g axis aout (fun x _ o => auto_correlate_fft_complex W x t n o) (auto_correlate_fft_complex_nd W g t axis n aout) /\ sized g g axis aout n false (auto_correlate_fft_complex_nd W g t axis n aout).
  Proof.
    apply run_auto_fft_pixels.
    - intros x o o'. unfold _auto_corr_fft_regular_complex. destruct (power_spectrum _ _); [|discriminate]. cbn [bind]. apply len_plain.
    - intros x u L o o'. unfold _auto_corr_fft_complex. destruct (auto_irregular _ _ _ _); [|discriminate]. cbn [bind]. apply len_plain.
  Qed.
  (** The kernels that ccorr and acorr choose *)
  Definition chosen (contig contig' : bool) (r : nat) (axis : Z) (align : bool) (t : option (list Z)) : bool :=
    is_aligned contig' r (if ((r <=? 1) || no_times (is_aligned contig r axis align) t)%bool then (-1)%Z else (-2)%Z) false.
  Theorem ccorr_pixels contig contig' f1 f2 t1 t2 axis n norm align method f1s f2s aout a :
    norm_axis (rank f1) axis = Ok a -> shape f2 = shape f1 ->
    (forall s, f1s = Some s -> shape s = shape f1) -> (forall s, f2s = Some s -> shape s = shape f1) -> (forall d, aout = Some d -> shaped d (del a (shape f1))) ->
    pixelwise (del a (shape f1)) (@pix K K) (result_ok (@cross_alike K K) norm aout n false (del a (shape f1)))
      (fun p => ccorr W (chosen contig contig' (rank f1) axis align t1) (series f1 a p) (series f2 a p) t1 t2 n norm method (option_map (fun s => series s a p) f1s) (option_map (fun s => series s a p) f2s) (option_map (fun d => pix d p) aout))
      (ccorr_nd W contig' contig f1 f2 t1 t2 axis n norm align method f1s f2s aout).
  Proof.
    intros Ea E2 H1 H2 H3. unfold ccorr, ccorr_nd. eapply ccorr_gen_pixels; try eassumption; try reflexivity.
    - intros g1 g2 u1 u2 m o _. apply cross_correlate_fft_pixels.
    - intros g1 g2 u1 u2 m o Hr. unfold chosen. rewrite <- Hr. apply cross_correlate_pixels.
    - intros _ g1 g2 u1 u2 m o Hr. unfold chosen. rewrite <- Hr. apply cross_difference_pixels.
  Qed.
  Theorem ccorr_complex_pixels contig contig' f1 f2 t1 t2 axis n norm align method f1s f2s aout a :
    norm_axis (rank f1) axis = Ok a -> shape f2 = shape f1 ->
    (forall s, f1s = Some s -> shape s = shape f1) -> (forall s, f2s = Some s -> shape s = shape f1) -> (forall d, aout = Some d -> shaped d (del a (shape f1))) ->
    pixelwise (del a (shape f1)) (@pix K C) (result_ok (@cross_alike K C) norm aout n true (del a (shape f1)))
      (fun p => ccorr_complex W (chosen contig contig' (rank f1) axis align t1) (series f1 a p) (series f2 a p) t1 t2 n norm method (option_map (fun s => series s a p) f1s) (option_map (fun s => series s a p) f2s) (option_map (fun d => pix d p) aout))
      (ccorr_complex_nd W contig' contig f1 f2 t1 t2 axis n norm align method f1s f2s aout).
  Proof.
    intros Ea E2 H1 H2 H3. unfold ccorr_complex, ccorr_complex_nd. eapply ccorr_gen_pixels; try eassumption; try reflexivity.
    - intros g1 g2 u1 u2 m o _. apply cross_correlate_fft_complex_pixels.
    - intros g1 g2 u1 u2 m o Hr. unfold chosen. rewrite <- Hr. apply cross_correlate_complex_pixels.
    - discriminate.
  Qed.
  Theorem acorr_pixels contig contig' f t fs axis n norm align method aout a :
    norm_axis (rank f) axis = Ok a -> (forall s, fs = Some s -> shape s = shape f) -> (forall d, aout = Some d -> shaped d (del a (shape f))) ->
    pixelwise (del a (shape f)) (@pix K K) (result_ok (@auto_alike K K) norm aout n false (del a (shape f)))
      (fun p => acorr W (chosen contig contig' (rank f) axis align t) (series f a p) t (option_map (fun s => series s a p) fs) n norm method (option_map (fun d => pix d p) aout))
      (acorr_nd W contig' contig f t fs axis n norm align method aout).
  Proof.
    intros Ea H1 H3. unfold acorr, acorr_nd. eapply acorr_gen_pixels; try eassumption; try reflexivity.
    - intros g1 u m o _. apply auto_correlate_fft_pixels.
    - intros g1 u m o Hr. unfold chosen. rewrite <- Hr. apply auto_correlate_pixels.
    - intros g1 u m o Hr. unfold chosen. rewrite <- Hr. apply auto_difference_pixels.
  Qed.
End Corr.
