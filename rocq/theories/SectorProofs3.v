(** Index maps, coordinates and k_select. *)
From Coq Require Import ZifyBool ZifyNat.
From Verif Require Import Base KernelProofs Ordered MapModel MapProofs SectorModel SectorProofs SectorProofs2.
Set Implicit Arguments.
Ltac Zify.zify_post_hook ::= Z.div_mod_to_equations.

(** The cells of an array in row order, an entry at a cell *)
Definition cells (h w : nat) : list (nat * nat) := list_prod (seq 0 h) (seq 0 w).
Definition at2 {A} (x : mat A) (p : nat * nat) : A := mat_at x (fst p) (snd p).

Lemma in_cells h w p : In p (cells h w) <-> fst p < h /\ snd p < w.
Proof. destruct p as [i j]. unfold cells. rewrite in_prod_iff, !in_seq. cbn [fst snd]. lia. Qed.
Lemma entries_cells A (x : mat A) : all_entries x = map (at2 x) (cells (mh x) (mw x)).
Proof.
  unfold all_entries, cells. generalize (seq 0 (mh x)) as l. induction l as [|i l IH]; [reflexivity|].
  cbn [flat_map list_prod]. rewrite map_app, map_map, IH. reflexivity.
Qed.
Lemma select_map A B (f : B -> A) (g : B -> bool) l : select (map f l) (map g l) = map f (filter g l).
Proof. unfold select. induction l as [|b l IH]; [reflexivity|]. cbn [map combine filter snd]. destruct (g b); cbn [map fst]; rewrite IH; reflexivity. Qed.
Lemma mat_select_ok A (x : mat A) mask : mh x = mh mask -> mw x = mw mask -> mat_select x mask = Ok (map (at2 x) (filter (at2 mask) (cells (mh mask) (mw mask)))).
Proof. intros E1 E2. unfold mat_select. rewrite E1, E2, !Nat.eqb_refl. cbn [andb]. rewrite !entries_cells, E1, E2, select_map. reflexivity. Qed.
Lemma mat_select_bad A (x : mat A) mask : mh x <> mh mask \/ mw x <> mw mask -> mat_select x mask = Raise IndexError.
Proof. intros H. unfold mat_select. replace ((mh x =? mh mask) && (mw x =? mw mask)) with false by lia. reflexivity. Qed.
Lemma list_select_map A B (f : B -> A) (g : B -> bool) l : list_select (map f l) (map g l) = Ok (map f (filter g l)).
Proof. unfold list_select. rewrite !map_length, Nat.eqb_refl, select_map. reflexivity. Qed.
Lemma spread_same n i : i < n -> spread n i = i.
Proof. unfold spread. destruct (n =? 1) eqn:E; lia. Qed.
Lemma mat_and_ok a b : mh a = mh b -> mw a = mw b -> exists c, mat_and a b = Ok c /\ mh c = mh a /\ mw c = mw a /\
  forall p, In p (cells (mh a) (mw a)) -> at2 c p = at2 a p && at2 b p.
Proof.
  intros E1 E2. unfold mat_and. rewrite E1, E2, !Nat.eqb_refl. cbn [orb andb]. eexists. split; [reflexivity|]. cbn [mh mw].
  split; [destruct (mh b =? 1); reflexivity|]. split; [destruct (mw b =? 1); reflexivity|].
  intros p Hp. apply in_cells in Hp. unfold at2. cbn [mat_at]. rewrite !spread_same by lia. reflexivity.
Qed.
Lemma mat_and_bad a b : mw a <> mw b -> mw a <> 1 -> mw b <> 1 -> mat_and a b = Raise ValueError.
Proof. intros H1 H2 H3. unfold mat_and. replace (mw a =? mw b) with false by lia. replace (mw a =? 1) with false by lia. replace (mw b =? 1) with false by lia. rewrite andb_false_r. reflexivity. Qed.

Section S.
  Variable K : OFld.
  Add Field Ksector3 : (flaw K).
  Local Notation "0" := (f0 K).
  Local Notation "1" := (f1 K).
  Local Infix "+" := (fadd K).
  Local Infix "*" := (fmul K).
  Local Infix "-" := (fsub K).
  Local Infix "/" := (fdiv K).
  Local Notation "- x" := (fopp K x).
  Implicit Types x y m : K.
  Local Notation fZ := (fZ K).

  Lemma fold_max l v : let m := fold_left (fun m v => if flt K m v then v else m) l v in fle v m /\ forall w, In w l -> fle w m.
  Proof.
    revert v. induction l as [|u l IH]; intros v; cbn [fold_left].
    - split; [apply fle_refl|intros w []].
    - destruct (flt K v u) eqn:E; destruct (IH (if flt K v u then u else v)) as [H1 H2]; rewrite E in H1, H2.
      + split; [eapply fle_trans; [apply flt_le; exact E|exact H1]|]. intros w [<-|Hw]; [exact H1|apply H2; exact Hw].
      + split; [exact H1|]. intros w [<-|Hw]; [eapply fle_trans; [exact E|exact H1]|apply H2; exact Hw].
  Qed.
  Lemma max_entry_ok (x : mat K) : (1 <= mh x)%nat -> (1 <= mw x)%nat -> exists m, max_entry K x = Ok m /\ forall i j, (i < mh x)%nat -> (j < mw x)%nat -> fle (mat_at x i j) m.
  Proof.
    intros H1 H2. unfold max_entry. rewrite entries_cells.
    assert (Q : forall i j, (i < mh x)%nat -> (j < mw x)%nat -> In (mat_at x i j) (map (at2 x) (cells (mh x) (mw x)))).
    { intros i j Hi Hj. change (mat_at x i j) with (at2 x (i, j)). apply in_map, in_cells. auto. }
    destruct (map (at2 x) (cells (mh x) (mw x))) as [|v l] eqn:E; [exfalso; exact (Q 0%nat 0%nat H1 H2)|].
    eexists. split; [reflexivity|]. intros i j Hi Hj. destruct (fold_max l v) as [F1 F2]. destruct (Q i j Hi Hj) as [<-|P]; [exact F1|apply F2; exact P].
  Qed.

  Variable pi : K.
  Variable floor : K -> Z.
  Hypothesis HF : floors K floor.

  Lemma np_arange_ok stop step : flt K 0 step = true -> np_arange K floor stop step = Ok (map (fun i => fnat K i * step) (seq 0 (Z.to_nat (ceil K floor (stop / step))))).
  Proof using. intros H. unfold np_arange. rewrite H. rewrite andb_false_r. reflexivity. Qed.
  Lemma ring_index_fold kstep ks kv inside : ring_index K kstep ks kv inside = snd (fold_left (step_ring K kstep kv inside) ks (0%Z, (-1)%Z)).
  Proof using. reflexivity. Qed.

  (** The entry of a map at a wave vector of length [kv] that is inside the sector or not *)
  Definition ring_of (kstep kv : K) (inside : bool) (z : Z) : Prop :=
    if inside then exists r, z = Z.of_nat r /\ on_ring K kstep kv r else z = (-1)%Z.
  Lemma ring_index_ok kstep kmax kv inside : flt K 0 kstep = true -> fle 0 kv -> fle kv kmax ->
    ring_of kstep kv inside (ring_index K kstep (map (fun i => fnat K i * kstep) (seq 0 (Z.to_nat (ceil K floor ((kmax + kstep) / kstep))))) kv inside).
  Proof using HF.
    intros Hk H0 H1. rewrite ring_index_fold. destruct (@ring_exists K floor HF kstep kmax kv Hk H0 H1) as (r & R1 & R2).
    destruct (rings_fold K kstep kv inside (Z.to_nat (ceil K floor ((kmax + kstep) / kstep))) 0%nat (-1)%Z Hk) as [(i & _ & Hi & -> & E)|[[-> |N] E]].
    - exists i. split; [exact E|exact Hi].
    - exact E.
    - exfalso. apply (N r); [lia|exact R2].
  Qed.

  Lemma indexmap_ok (kmap anglemap : mat K) angle sector kstep : (1 <= mh kmap)%nat -> (1 <= mw kmap)%nat -> mh anglemap = mh kmap -> mw anglemap = mw kmap ->
    fle (- fZ 180) angle -> fle angle (fZ 180) -> flt K 0 sector = true -> fle sector (fZ 180) -> flt K 0 kstep = true ->
    (forall i j, (i < mh kmap)%nat -> (j < mw kmap)%nat -> fle 0 (mat_at kmap i j)) ->
    exists z, fft2_sector_indexmap K pi floor kmap anglemap angle sector kstep = Ok z /\ mh z = mh kmap /\ mw z = mw kmap /\ mat_at z 0 0 = 0%Z /\
      forall i j, (i < mh kmap)%nat -> (j < mw kmap)%nat -> (i, j) <> (0, 0)%nat -> ring_of kstep (mat_at kmap i j) (in_sector K pi floor pi angle sector (mat_at anglemap i j)) (mat_at z i j).
  Proof using HF.
    intros Hh Hw E1 E2 A1 A2 S1 S2 Hk Hp. unfold fft2_sector_indexmap. rewrite A1, A2. cbn [orb]. unfold fleb. rewrite S1, S2. cbn [orb negb].
    destruct (max_entry_ok kmap Hh Hw) as (kmax & -> & Hmax). cbn [bind]. rewrite np_arange_ok by exact Hk. cbn [bind].
    rewrite E1, E2, !Nat.eqb_refl. cbn [andb negb]. eexists. split; [reflexivity|]. cbn [mh mw mat_at]. split; [reflexivity|]. split; [reflexivity|]. split; [reflexivity|].
    intros i j Hi Hj N. replace ((i =? 0) && (j =? 0))%nat with false by (destruct i, j; try reflexivity; congruence).
    apply ring_index_ok; [exact Hk|apply Hp; assumption|apply Hmax; assumption].
  Qed.
  Lemma half_indexmap_ok (kmap anglemap : mat K) angle sector kstep : (1 <= mh kmap)%nat -> (1 <= mw kmap)%nat -> mh anglemap = mh kmap -> mw anglemap = mw kmap ->
    fle (- fZ 90) angle -> fle angle (fZ 90) -> flt K 0 sector = true -> fle sector (fZ 180) -> flt K 0 kstep = true ->
    (forall i j, (i < mh kmap)%nat -> (j < mw kmap)%nat -> fle 0 (mat_at kmap i j)) ->
    exists z, sector_indexmap K pi floor kmap anglemap angle sector kstep = Ok z /\ mh z = mh kmap /\ mw z = mw kmap /\ mat_at z 0 0 = 0%Z /\
      (forall i, (mh kmap / 2 < i < mh kmap)%nat -> mat_at z i 0 = (-1)%Z) /\
      forall i j, (i < mh kmap)%nat -> (j < mw kmap)%nat -> (i, j) <> (0, 0)%nat -> (i <= mh kmap / 2 \/ 1 <= j)%nat ->
        ring_of kstep (mat_at kmap i j) (in_sector K pi floor (pi / fZ 2) angle sector (mat_at anglemap i j)) (mat_at z i j).
  Proof using HF.
    intros Hh Hw E1 E2 A1 A2 S1 S2 Hk Hp. unfold sector_indexmap. rewrite A1, A2. cbn [orb]. unfold fleb. rewrite S1, S2. cbn [orb negb].
    destruct (max_entry_ok kmap Hh Hw) as (kmax & -> & Hmax). cbn [bind]. rewrite np_arange_ok by exact Hk. cbn [bind].
    rewrite E1, E2, !Nat.eqb_refl. cbn [andb negb]. eexists. split; [reflexivity|]. cbn [mh mw mat_at]. split; [reflexivity|]. split; [reflexivity|]. split; [reflexivity|]. split.
    - intros i Hi. replace ((i =? 0) && (0 =? 0))%nat with false by lia. replace ((mh kmap / 2 + 1 <=? i) && (0 =? 0))%nat with true by lia. reflexivity.
    - intros i j Hi Hj N C. replace ((i =? 0) && (j =? 0))%nat with false by (destruct i, j; try reflexivity; congruence).
      replace ((mh kmap / 2 + 1 <=? i) && (j =? 0))%nat with false by lia.
      apply ring_index_ok; [exact Hk|apply Hp; assumption|apply Hmax; assumption].
  Qed.
  Lemma indexmap_bad (kmap anglemap : mat K) angle sector kstep :
    flt K angle (- fZ 180) = true \/ flt K (fZ 180) angle = true \/ fle sector 0 \/ flt K (fZ 180) sector = true ->
    fft2_sector_indexmap K pi floor kmap anglemap angle sector kstep = Raise ValueError.
  Proof using.
    intros H. unfold fft2_sector_indexmap. destruct (flt K angle (- fZ 180) || flt K (fZ 180) angle) eqn:E; [reflexivity|].
    apply orb_false_iff in E. destruct E as [E1 E2]. destruct H as [H|[H|[H|H]]]; try congruence.
    - replace (fleb K sector 0) with true by (symmetry; apply fleb_true; exact H). reflexivity.
    - rewrite H, orb_true_r. reflexivity.
  Qed.

  (** * Coordinates *)
  Definition good_shape (shape : option (Z * Z)) : Prop := match shape with None => True | Some (h, w) => (1 <= h)%Z /\ (1 <= w)%Z end.
  (** Sizes of the frame; without them all directions count the same. *)
  Definition frame_size (shape : option (Z * Z)) : Z * Z := match shape with None => (1, 1)%Z | Some s => s end.
  Lemma steps_ok h w shape : good_shape shape -> exists si sj, _get_steps_size_half K (Some h) (Some w) shape = Ok ((h, si), (w, sj)) /\
    let (fh, fw) := frame_size shape in si * fZ fh = fZ (Z.max fh fw) /\ sj * fZ fw = fZ (Z.max fh fw).
  Proof using.
    intros G. unfold _get_steps_size_half. change (match shape with None => (1, 1)%Z | Some s => s end) with (frame_size shape).
    assert (P : let (fh, fw) := frame_size shape in (1 <= fh)%Z /\ (1 <= fw)%Z).
    { destruct shape as [[a b]|]; cbn [frame_size good_shape] in *; lia. }
    destruct (frame_size shape) as [fh fw]. cbn [bind]. destruct (fh >? fw)%Z eqn:E.
    - replace (fw =? 0)%Z with false by lia. eexists _, _. split; [reflexivity|]. rewrite Z.max_l by lia. split; [ring|]. field. apply fZ_neq0. lia.
    - replace (fh =? 0)%Z with false by lia. eexists _, _. split; [reflexivity|]. rewrite Z.max_r by lia. split; [|ring]. field. apply fZ_neq0. lia.
  Qed.
  Lemma fftfreq_freq n k : (- (Z.of_nat n / 2) <= k <= (Z.of_nat n - 1) / 2)%Z -> (1 <= n)%nat -> fftfreq n (freq n k) = k.
  Proof using. intros H H1. unfold fftfreq. destruct (Z_lt_dec k 0) as [L|L]; [rewrite freq_neg by lia|rewrite freq_pos by lia]; destruct (_ <=? _)%nat eqn:E; lia. Qed.
  Lemma fft2_grid_ok h w shape : (1 <= h)%nat -> (1 <= w)%nat -> good_shape shape -> exists gi gj si sj,
    fft2_grid K (Some (Z.of_nat h)) (Some (Z.of_nat w)) shape = Ok (gi, gj) /\ mh gi = h /\ mw gi = w /\ mh gj = h /\ mw gj = w /\
    (let (fh, fw) := frame_size shape in si * fZ fh = fZ (Z.max fh fw) /\ sj * fZ fw = fZ (Z.max fh fw)) /\
    forall ki kj, (- (Z.of_nat h / 2) <= ki <= (Z.of_nat h - 1) / 2)%Z -> (- (Z.of_nat w / 2) <= kj <= (Z.of_nat w - 1) / 2)%Z ->
      at_freq gi ki kj = fZ ki * si /\ at_freq gj ki kj = fZ kj * sj.
  Proof using.
    intros Hh Hw G. destruct (steps_ok (Z.of_nat h) (Z.of_nat w) shape G) as (si & sj & E & S). unfold fft2_grid, _get_steps_size_full. cbn [bind]. rewrite E. cbn [bind].
    unfold freq_axis. replace (Z.of_nat h =? 0)%Z with false by lia. replace (Z.of_nat h <? 0)%Z with false by lia. replace (Z.of_nat w =? 0)%Z with false by lia. replace (Z.of_nat w <? 0)%Z with false by lia. cbn [bind].
    rewrite !Nat2Z.id. unfold meshgrid. cbn [fst snd]. do 2 eexists. exists si, sj. split; [reflexivity|]. cbn [mh mw]. do 4 (split; [reflexivity|]). split; [exact S|].
    intros ki kj Hi Hj. unfold at_freq. cbn [mh mw mat_at]. rewrite !fftfreq_freq by assumption. auto.
  Qed.
  Lemma rfft2_grid_ok h w shape : (1 <= h)%nat -> good_shape shape -> exists gi gj si sj,
    rfft2_grid K (Some (Z.of_nat h)) (Some (Z.of_nat w)) shape = Ok (gi, gj) /\ mh gi = h /\ mw gi = w /\ mh gj = h /\ mw gj = w /\
    (let (fh, fw) := frame_size shape in si * fZ fh = fZ (Z.max fh fw) /\ sj * fZ fw = fZ (Z.max fh fw)) /\
    forall ki j, (- (Z.of_nat h / 2) <= ki <= (Z.of_nat h - 1) / 2)%Z -> (j < w)%nat ->
      mat_at gi (freq h ki) j = fZ ki * si /\ mat_at gj (freq h ki) j = fZ (Z.of_nat j) * sj.
  Proof using.
    intros Hh G. destruct (steps_ok (Z.of_nat h) (Z.of_nat w) shape G) as (si & sj & E & S). unfold rfft2_grid. rewrite E. cbn [bind].
    unfold freq_axis, half_axis. replace (Z.of_nat h =? 0)%Z with false by lia. replace (Z.of_nat h <? 0)%Z with false by lia. cbn [bind].
    rewrite !Nat2Z.id. unfold meshgrid. cbn [fst snd]. do 2 eexists. exists si, sj. split; [reflexivity|]. cbn [mh mw]. do 4 (split; [reflexivity|]). split; [exact S|].
    intros ki j Hi Hj. cbn [mat_at]. rewrite !fftfreq_freq by assumption. rewrite fZ_nat. auto.
  Qed.
End S.
