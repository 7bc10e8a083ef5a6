(** C61, C62: sectors and rings of wave vectors, k_select. *)
From Coq Require Import ZifyBool ZifyNat.
From Verif Require Import Base KernelProofs Ordered Archimedean SectorFloor MapModel MapProofs SectorModel SectorProofs SectorProofs2 SectorProofs3 SectorProofs4 Prop_Map Examples.
Set Implicit Arguments.
Ltac Zify.zify_post_hook ::= Z.div_mod_to_equations.

Section C61.
  Variable K : OFld.
  Add Field Kprop61 : (flaw K).
  Local Notation "0" := (f0 K).
  Local Notation "1" := (f1 K).
  Local Infix "+" := (fadd K).
  Local Infix "*" := (fmul K).
  Local Infix "-" := (fsub K).
  Local Infix "/" := (fdiv K).
  Local Notation "- x" := (fopp K x).
  Local Notation fZ := (fZ K).
  (** [pi] is any positive number: degrees are turned into radians and compared, nothing else. *)
  Variable pi : K.

  (** Angle [a] (modulo a full turn of twice [M] degrees) lies between [angle - sector/2] and [angle + sector/2]
      degrees.  The upper end belongs to the sector if it reaches beyond half a turn, otherwise the lower one. *)
  Definition within (M angle sector a : K) : Prop :=
    let m := deg K pi M in let lo := deg K pi (angle - sector / fZ 2) in let hi := deg K pi (angle + sector / fZ 2) in
    exists turns, let b := a + fZ turns * (m + m) in
      if flt K m hi || flt K lo (- m) then flt K lo b = true /\ fle b hi else fle lo b /\ flt K b hi = true.
  (** Length [kv] is in ring [r]: more than (r - 1/2) kstep and at most (r + 1/2) kstep. *)
  Definition in_ring (kstep kv : K) (r : nat) : Prop :=
    flt K (fnat K r * kstep - kstep / fZ 2) kv = true /\ fle kv (fnat K r * kstep + kstep / fZ 2).
  (** Angles and lengths as computed by arctan2 and sqrt *)
  Definition angles_ok (M : K) (x : mat K) : Prop := forall i j, (i < mh x)%nat -> (j < mw x)%nat -> fle (- deg K pi M) (mat_at x i j) /\ flt K (mat_at x i j) (deg K pi M) = true.
  Definition lengths_ok (x : mat K) : Prop := forall i j, (i < mh x)%nat -> (j < mw x)%nat -> fle 0 (mat_at x i j).

  Lemma deg_180 : deg K pi (fZ 180) = pi.
  Proof. unfold deg. field. apply fZ_neq0. lia. Qed.
  Lemma deg_90 : deg K pi (fZ 90) = pi / fZ 2.
  Proof. unfold deg. replace (fZ 180) with (fZ 90 * fZ 2). - field. split; apply fZ_neq0; lia. - rewrite fZ_2. change 180%Z with (90 + 90)%Z. rewrite fZ_add. ring. Qed.

  Variable floor : K -> Z.
  Lemma ring_of_spec M angle sector kstep kv a z : floors K floor -> flt K 0 pi = true -> (M = fZ 180 \/ M = fZ 90) -> fle (- M) angle -> fle angle M -> flt K 0 sector = true -> fle sector (fZ 180) -> flt K 0 kstep = true ->
    fle (- deg K pi M) a -> flt K a (deg K pi M) = true -> ring_of K kstep kv (in_sector K pi floor (deg K pi M) angle sector a) z ->
    (within M angle sector a -> exists r, z = Z.of_nat r /\ in_ring kstep kv r /\ forall r', in_ring kstep kv r' -> r' = r) /\
    (~ within M angle sector a -> z = (-1)%Z).
  Proof.
    intros HF Hpi HM A1 A2 S1 S2 Hk B1 B2 R. pose proof (@in_sector_spec K pi floor HF Hpi M angle sector a HM A1 A2 S1 S2 B1 B2) as P.
    split; intros H.
    - apply (proj2 P) in H. rewrite H in R. destruct R as (r & E & O). exists r. split; [exact E|]. split; [exact O|]. intros r' O'. eapply on_ring_unique; eassumption.
    - destruct (in_sector K pi floor (deg K pi M) angle sector a) eqn:E; [exfalso; apply H, P; reflexivity|exact R].
  Qed.

  (** Every wave vector but zero: its ring, the only one, if its angle is in the sector; otherwise -1. *)
  Theorem C61_indexmap (kmap anglemap : mat K) angle sector kstep : floors K floor -> flt K 0 pi = true ->
    (1 <= mh kmap)%nat -> (1 <= mw kmap)%nat -> mh anglemap = mh kmap -> mw anglemap = mw kmap ->
    fle (- fZ 180) angle -> fle angle (fZ 180) -> flt K 0 sector = true -> fle sector (fZ 180) -> flt K 0 kstep = true -> lengths_ok kmap -> angles_ok (fZ 180) anglemap ->
    exists z, fft2_sector_indexmap K pi floor kmap anglemap angle sector kstep = Ok z /\ mh z = mh kmap /\ mw z = mw kmap /\ mat_at z 0 0 = 0%Z /\
      forall i j, (i < mh kmap)%nat -> (j < mw kmap)%nat -> (i, j) <> (0, 0)%nat ->
        (within (fZ 180) angle sector (mat_at anglemap i j) -> exists r, mat_at z i j = Z.of_nat r /\ in_ring kstep (mat_at kmap i j) r /\ forall r', in_ring kstep (mat_at kmap i j) r' -> r' = r) /\
        (~ within (fZ 180) angle sector (mat_at anglemap i j) -> mat_at z i j = (-1)%Z).
  Proof.
    intros HF Hpi H1 H2 E1 E2 A1 A2 S1 S2 Hk L A. destruct (@indexmap_ok K pi floor HF kmap anglemap angle sector kstep H1 H2 E1 E2 A1 A2 S1 S2 Hk L) as (z & E & Z1 & Z2 & Z0 & Z).
    exists z. do 4 (split; [assumption|]). intros i j Hi Hj N. specialize (Z i j Hi Hj N).
    assert (Q : (i < mh anglemap)%nat /\ (j < mw anglemap)%nat) by lia. destruct (A i j (proj1 Q) (proj2 Q)) as [B1 B2].
    apply ring_of_spec; try assumption; [left; reflexivity|]. rewrite deg_180. exact Z.
  Qed.

  (** The deprecated map of half-plane data: angles count modulo half a turn, and the rows of the first column that repeat others are left out. *)
  Theorem C61_half_indexmap (kmap anglemap : mat K) angle sector kstep : floors K floor -> flt K 0 pi = true ->
    (1 <= mh kmap)%nat -> (1 <= mw kmap)%nat -> mh anglemap = mh kmap -> mw anglemap = mw kmap ->
    fle (- fZ 90) angle -> fle angle (fZ 90) -> flt K 0 sector = true -> fle sector (fZ 180) -> flt K 0 kstep = true -> lengths_ok kmap ->
    exists z, sector_indexmap K pi floor kmap anglemap angle sector kstep = Ok z /\ mh z = mh kmap /\ mw z = mw kmap /\ mat_at z 0 0 = 0%Z /\
      (forall i, (mh kmap / 2 < i < mh kmap)%nat -> mat_at z i 0 = (-1)%Z) /\
      forall i j, (i < mh kmap)%nat -> (j < mw kmap)%nat -> (i, j) <> (0, 0)%nat -> (i <= mh kmap / 2 \/ 1 <= j)%nat ->
        fle (- (pi / fZ 2)) (mat_at anglemap i j) -> flt K (mat_at anglemap i j) (pi / fZ 2) = true ->
        (within (fZ 90) angle sector (mat_at anglemap i j) -> exists r, mat_at z i j = Z.of_nat r /\ in_ring kstep (mat_at kmap i j) r /\ forall r', in_ring kstep (mat_at kmap i j) r' -> r' = r) /\
        (~ within (fZ 90) angle sector (mat_at anglemap i j) -> mat_at z i j = (-1)%Z).
  Proof.
    intros HF Hpi H1 H2 E1 E2 A1 A2 S1 S2 Hk L. destruct (@half_indexmap_ok K pi floor HF kmap anglemap angle sector kstep H1 H2 E1 E2 A1 A2 S1 S2 Hk L) as (z & E & Z1 & Z2 & Z0 & ZH & Z).
    exists z. do 5 (split; [assumption|]). intros i j Hi Hj N C B1 B2. specialize (Z i j Hi Hj N C). rewrite <- deg_90 in B1, B2, Z.
    apply ring_of_spec; try assumption. right; reflexivity.
  Qed.

  (** Parameters out of range *)
  Theorem C61_refused (kmap anglemap : mat K) angle sector kstep :
    flt K angle (- fZ 180) = true \/ flt K (fZ 180) angle = true \/ fle sector 0 \/ flt K (fZ 180) sector = true ->
    fft2_sector_indexmap K pi floor kmap anglemap angle sector kstep = Raise ValueError.
  Proof. apply indexmap_bad. Qed.

  (** The two half planes (angle 0 and 180, each 180 degrees wide) share the direction of -90 degrees, and neither has that of +90 degrees. *)
  Theorem C61_halves_refuted : floors K floor -> flt K 0 pi = true ->
    in_sector K pi floor pi 0 (fZ 180) (deg K pi (fZ 90)) = false /\ in_sector K pi floor pi (fZ 180) (fZ 180) (deg K pi (fZ 90)) = false /\
    in_sector K pi floor pi 0 (fZ 180) (deg K pi (- fZ 90)) = true /\ in_sector K pi floor pi (fZ 180) (fZ 180) (deg K pi (- fZ 90)) = true.
  Proof.
    intros HF Hpi. unfold in_sector. fold (deg K pi (0 + fZ 180 / fZ 2)) (deg K pi (0 - fZ 180 / fZ 2)) (deg K pi (fZ 180 + fZ 180 / fZ 2)) (deg K pi (fZ 180 - fZ 180 / fZ 2)).
    assert (N2 : fZ 2 <> 0) by (apply fZ_neq0; lia).
    assert (H9 : fZ 180 / fZ 2 = fZ 90). { change 180%Z with (90 + 90)%Z. rewrite fZ_add. rewrite fZ_2 in *. field. exact N2. }
    rewrite H9. replace (0 + fZ 90) with (fZ 90) by ring. replace (0 - fZ 90) with (- fZ 90) by ring.
    replace (fZ 180 + fZ 90) with (fZ 270) by (change 270%Z with (180 + 90)%Z; apply fZ_add). replace (fZ 180 - fZ 90) with (fZ 90) by (change 90%Z with (180 - 90)%Z; apply fZ_sub).
    assert (P : pi = deg K pi (fZ 180)) by (symmetry; apply deg_180).
    assert (L1 : flt K pi (deg K pi (fZ 90)) = false). { rewrite P at 1. change (fle (deg K pi (fZ 90)) (deg K pi (fZ 180))). apply deg_mono; [exact Hpi|]. apply fZ_le. lia. }
    assert (L2 : flt K (deg K pi (- fZ 90)) (- pi) = false). { rewrite P at 2. rewrite deg_opp. change (fle (deg K pi (- fZ 180)) (deg K pi (- fZ 90))). apply deg_mono; [exact Hpi|]. rewrite <- !fZ_opp. apply fZ_le. lia. }
    assert (L3 : flt K pi (deg K pi (fZ 270)) = true). { rewrite P at 1. apply deg_lt; [exact Hpi|]. apply fZ_lt. lia. }
    assert (L4 : fle (deg K pi (fZ 270)) (pi + pi)). { rewrite P at 2 3. rewrite deg_add. apply deg_mono; [exact Hpi|]. rewrite <- fZ_add. apply fZ_le. lia. }
    assert (L5 : flt K (deg K pi (- fZ 90)) (deg K pi (fZ 90)) = true). { apply deg_lt; [exact Hpi|]. rewrite <- fZ_opp. apply fZ_lt. lia. }
    assert (L6 : deg K pi (fZ 270) - (pi + pi) = deg K pi (- fZ 90)). { rewrite P at 2 3. rewrite deg_add, deg_sub. f_equal. rewrite <- fZ_add, <- fZ_sub, <- fZ_opp. reflexivity. }
    rewrite L1, L2, L3. rewrite (mod_high HF _ Hpi L3 L4), L6. cbv beta iota zeta.
    assert (R : forall x, fleb K x x = true) by (intros x; apply fleb_true, fle_refl).
    rewrite !R, !flt_irrefl, L5. cbn [andb negb]. rewrite andb_false_r. auto.
  Qed.

  (** Coordinates: at signed frequencies (ki, kj) those of the wave vector (ki/height, kj/width) times the larger size. *)
  Theorem C61_grid h w height width : (1 <= h)%nat -> (1 <= w)%nat -> (1 <= height)%Z -> (1 <= width)%Z ->
    let long := fZ (Z.max height width) in
    (exists gi gj, fft2_grid K (Some (Z.of_nat h)) (Some (Z.of_nat w)) (Some (height, width)) = Ok (gi, gj) /\ mh gi = h /\ mw gi = w /\ mh gj = h /\ mw gj = w /\
      forall ki kj, (- (Z.of_nat h / 2) <= ki <= (Z.of_nat h - 1) / 2)%Z -> (- (Z.of_nat w / 2) <= kj <= (Z.of_nat w - 1) / 2)%Z ->
        at_freq gi ki kj = long * (fZ ki / fZ height) /\ at_freq gj ki kj = long * (fZ kj / fZ width)) /\
    (exists gi gj, rfft2_grid K (Some (Z.of_nat h)) (Some (Z.of_nat w)) (Some (height, width)) = Ok (gi, gj) /\ mh gi = h /\ mw gi = w /\ mh gj = h /\ mw gj = w /\
      forall ki kj, (- (Z.of_nat h / 2) <= ki <= (Z.of_nat h - 1) / 2)%Z -> (kj < w)%nat ->
        mat_at gi (freq h ki) kj = long * (fZ ki / fZ height) /\ mat_at gj (freq h ki) kj = long * (fZ (Z.of_nat kj) / fZ width)).
  Proof.
    clear pi floor. intros Hh Hw S1 S2 long. assert (N1 : fZ height <> 0) by (apply fZ_neq0; lia). assert (N2 : fZ width <> 0) by (apply fZ_neq0; lia).
    assert (Step : forall s u v, s * u = long -> u <> 0 -> v * s = long * (v / u)). { intros s u v E N. rewrite <- E. field. exact N. }
    split.
    - destruct (@fft2_grid_ok K h w (Some (height, width)) Hh Hw (Logic.conj S1 S2)) as (gi & gj & si & sj & E & G1 & G2 & G3 & G4 & [T1 T2] & V). exists gi, gj. do 5 (split; [assumption|]).
      intros ki kj Hi Hj. destruct (V ki kj Hi Hj) as [-> ->]. split; apply Step; assumption.
    - destruct (@rfft2_grid_ok K h w (Some (height, width)) Hh (Logic.conj S1 S2)) as (gi & gj & si & sj & E & G1 & G2 & G3 & G4 & [T1 T2] & V). exists gi, gj. do 5 (split; [assumption|]).
      intros ki kj Hi Hj. destruct (V ki kj Hi Hj) as [-> ->]. split; apply Step; assumption.
  Qed.

  (** The map for data of a frame of the given size: the entry at signed frequencies (ki, kj) is the ring of the wave vector
      (kj/width, ki/height) times the larger size if its angle (arctan2(-ki, kj)) is in the sector, otherwise -1. *)
  Theorem C61_wavevector hyp arg h w height width angle sector kstep : floors K floor -> flt K 0 pi = true ->
    (forall a b, fle 0 (hyp a b)) -> (forall a b, fle (- pi) (arg a b) /\ flt K (arg a b) pi = true) ->
    (1 <= h)%nat -> (1 <= w)%nat -> (1 <= height)%Z -> (1 <= width)%Z ->
    fle (- fZ 180) angle -> fle angle (fZ 180) -> flt K 0 sector = true -> fle sector (fZ 180) -> flt K 0 kstep = true ->
    exists z, fft2_k_indexmap K pi floor hyp arg (Z.of_nat h) (Z.of_nat w) angle sector kstep (Some (height, width)) Fft2 = Ok z /\ mh z = h /\ mw z = w /\ mat_at z 0 0 = 0%Z /\
      forall ki kj, (- (Z.of_nat h / 2) <= ki <= (Z.of_nat h - 1) / 2)%Z -> (- (Z.of_nat w / 2) <= kj <= (Z.of_nat w - 1) / 2)%Z -> (ki, kj) <> (0, 0)%Z ->
        let y := fZ (Z.max height width) * (fZ ki / fZ height) in let x := fZ (Z.max height width) * (fZ kj / fZ width) in
        (within (fZ 180) angle sector (arg (- y) x) -> exists r, at_freq z ki kj = Z.of_nat r /\ in_ring kstep (hyp x y) r /\ forall r', in_ring kstep (hyp x y) r' -> r' = r) /\
        (~ within (fZ 180) angle sector (arg (- y) x) -> at_freq z ki kj = (-1)%Z).
  Proof.
    intros HF Hpi Hy Ha Hh Hw S1 S2 A1 A2 T1 T2 Hk. destruct (C61_grid Hh Hw S1 S2) as [(gi & gj & E & G1 & G2 & G3 & G4 & V) _].
    unfold fft2_k_indexmap. cbn [bind]. unfold fft2_kangle. rewrite E. cbn [bind]. unfold _kangle.
    match goal with |- context [fft2_sector_indexmap K pi floor ?a ?b _ _ _] => destruct (@C61_indexmap a b angle sector kstep) as (z & Ez & Z1 & Z2 & Z0 & Z) end; cbn [mh mw]; try assumption; try reflexivity; try lia.
    { intros i j _ _. cbn [mat_at]. apply Hy. }
    { intros i j _ _. cbn [mat_at]. rewrite deg_180. apply Ha. }
    cbn [mh mw mat_at] in *. exists z. split; [exact Ez|]. split; [congruence|]. split; [congruence|]. split; [exact Z0|].
    intros ki kj Hi Hj N. destruct (V ki kj Hi Hj) as [V1 V2]. cbv zeta. unfold at_freq in V1, V2 |- *. rewrite G1, G2 in V1. rewrite G3, G4 in V2. rewrite Z1, Z2, G1, G2. rewrite <- V1, <- V2. apply Z.
    - rewrite G1. apply freq_lt. exact Hh.
    - rewrite G2. apply freq_lt. exact Hw.
    - intros Q. injection Q as Q1 Q2. apply N. clear - Q1 Q2 Hi Hj Hh Hw. f_equal.
      + destruct (Z_lt_dec ki 0); [rewrite freq_neg in Q1 by lia|rewrite freq_pos in Q1 by lia]; lia.
      + destruct (Z_lt_dec kj 0); [rewrite freq_neg in Q2 by lia|rewrite freq_pos in Q2 by lia]; lia.
  Qed.
End C61.
Print Assumptions C61_indexmap.
Print Assumptions C61_half_indexmap.
Print Assumptions C61_refused.
Print Assumptions C61_halves_refuted.
Print Assumptions C61_grid.
Print Assumptions C61_wavevector.
(** Angles in multiples of 45 degrees (pi = 22/7 stands for pi); sector 180 degrees about 180: -90, 135 and -180 are in, 90 and 45 are not. *)
Definition pi7 : QcO := fdiv QcF (q 22) (q 7).
Definition eighth (n : Z) : QcO := fmul QcF (q n) (fdiv QcF pi7 (q 4)).
Definition lengths23 : mat QcO := table (q 0) [[q 0; q 1; q 2]; [q 1; fdiv QcF (q 3) (q 2); fdiv QcF (q 8) (q 5)]].
Definition angles23 : mat QcO := table (q 0) [[q 0; eighth 1; eighth 2]; [eighth (-2); eighth (-4); eighth 3]].
Example C61_example : floors QcO qfloor /\ flt QcO (f0 QcF) pi7 = true /\ flt QcO (eighth (-4)) (fopp QcF pi7) = false /\ flt QcO (eighth 3) pi7 = true /\
  shown (fft2_sector_indexmap QcO pi7 qfloor lengths23 angles23 (q 180) (q 180) (q 1)) = Ok [[0; -1; -1]; [1; 1; 2]]%Z /\
  shown (fft2_sector_indexmap QcO pi7 qfloor lengths23 angles23 (q 0) (q 180) (q 1)) = Ok [[0; 1; -1]; [1; -1; -1]]%Z /\
  shown (fft2_sector_indexmap QcO pi7 qfloor lengths23 angles23 (q 0) (q 181) (q 1)) = Raise ValueError.
Proof. split; [exact qfloor_ok|]. repeat split; vm_compute; reflexivity. Qed.

(* ------------------------------------------------------------------ *)
(** * C62: k_select *)
Section C62.
  Variable K : OFld.
  Local Notation "0" := (f0 K).
  Local Notation fZ := (fZ K).
  Variable pi : K.
  Variable floor : K -> Z.
  Variable hyp arg : K -> K -> K.
  Variable A : Type.
  Variable cj : A -> A.
  Variable mean : list A -> A.
  Variable kmean : list K -> K.
  Local Notation k_select := (k_select K pi floor hyp arg cj mean kmean).

  (** What has to be returned for index [k]: the mean over the cells where the map [z] equals [k] and the mask, if any, is set *)
  Definition selected (z : mat Z) (c : option (mat bool)) (k : Z) : list (nat * nat) :=
    filter (fun p => (mat_at z (fst p) (snd p) =? k)%Z && match c with None => true | Some c => mat_at c (fst p) (snd p) end) (list_prod (seq 0 (mh z)) (seq 0 (mw z))).
  Definition averaged (x : mat A) (kmap : mat K) (sel : list (nat * nat)) : list (K * A) :=
    match sel with [] => [] | _ => [(kmean (map (fun p => mat_at kmap (fst p) (snd p)) sel), mean (map (fun p => mat_at x (fst p) (snd p)) sel))] end.
  Definition right_parameters (angle sector kstep : K) (shape : option (Z * Z)) : Prop :=
    fle (fopp K (fZ 180)) angle /\ fle angle (fZ 180) /\ flt K 0 sector = true /\ fle sector (fZ 180) /\ flt K 0 kstep = true /\
    match shape with None => True | Some (h, w) => (1 <= h)%Z /\ (1 <= w)%Z end.

  Lemma selected_where z c k : selected z c k = filter (inside_mask c) (where_index z k).
  Proof. unfold selected, where_index. rewrite filter_and. reflexivity. Qed.
  Lemma averaged_average x kmap sel : averaged x kmap sel = match average K mean kmean x kmap sel with Some d => [d] | None => [] end.
  Proof. destruct sel; reflexivity. Qed.
  Lemma maps_ok h w angle sector kstep shape : floors K floor -> (forall a b, fle 0 (hyp a b)) -> (1 <= h)%nat -> (1 <= w)%nat -> right_parameters angle sector kstep shape ->
    exists kmap anglemap z, fft2_kangle K hyp arg (Some (Z.of_nat h)) (Some (Z.of_nat w)) shape = Ok (kmap, anglemap) /\ fft2_sector_indexmap K pi floor kmap anglemap angle sector kstep = Ok z /\
      mh kmap = h /\ mw kmap = w /\ mh z = h /\ mw z = w /\ mat_at z 0 0 = 0%Z.
  Proof.
    intros HF Hy Hh Hw (A1 & A2 & S1 & S2 & Hk & G). destruct (@fft2_grid_ok K h w shape Hh Hw G) as (gi & gj & si & sj & E & G1 & G2 & G3 & G4 & _).
    unfold fft2_kangle. rewrite E. cbn [bind]. unfold _kangle. do 2 eexists.
    match goal with |- exists z, Ok (?a, ?b) = _ /\ _ => destruct (@indexmap_ok K pi floor HF a b angle sector kstep) as (z & Ez & Z1 & Z2 & Z0 & _) end; cbn [mh mw mat_at]; try assumption; try reflexivity; try lia.
    { intros. apply Hy. }
    exists z. split; [reflexivity|]. split; [exact Ez|]. cbn [mh mw] in *. rewrite Z1, Z2. auto.
  Qed.

  (** Full-plane data (mode "fft2"): one entry for each listed index that occurs, in the order of the list, none for the others. *)
  Theorem C62_fft2 (x : mat A) angle sector kstep shape l : floors K floor -> (forall a b, fle 0 (hyp a b)) -> (1 <= mh x)%nat -> (1 <= mw x)%nat -> right_parameters angle sector kstep shape ->
    exists kmap anglemap z, fft2_kangle K hyp arg (Some (Z.of_nat (mh x))) (Some (Z.of_nat (mw x))) shape = Ok (kmap, anglemap) /\
      fft2_k_indexmap K pi floor hyp arg (Z.of_nat (mh x)) (Z.of_nat (mw x)) angle sector kstep shape Fft2 = Ok z /\
      k_select (Full x) angle sector kstep (KList l) shape None false = Ok (Many K (flat_map (fun k => averaged x kmap (selected z None k)) l)).
  Proof.
    intros HF Hy Hh Hw P. destruct (maps_ok HF Hy Hh Hw P) as (kmap & anglemap & z & E1 & E2 & K1 & K2 & Z1 & Z2 & Z0). exists kmap, anglemap, z. split; [exact E1|]. split.
    - unfold fft2_k_indexmap. cbn [bind]. rewrite E1. exact E2.
    - destruct P as (_ & _ & S1 & _). unfold SectorModel.k_select. rewrite S1. cbn [negb bind]. rewrite E1. cbn [bind]. rewrite E2. cbn [bind].
      rewrite (@collect_ok K A _ (fun k => average K mean kmean x kmap (filter (inside_mask None) (where_index z k)))).
      + cbn [bind]. do 2 f_equal. apply flat_map_ext. intros k. rewrite averaged_average, selected_where. reflexivity.
      + intros k _. apply complex_full; [split; congruence|split; congruence|exact Logic.I].
  Qed.
  (** The same with a mask, whether the data has all pixels or only those of the mask. *)
  Theorem C62_mask (x : mat A) (c : mat bool) angle sector kstep shape l : floors K floor -> (forall a b, fle 0 (hyp a b)) -> (1 <= mh x)%nat -> (1 <= mw x)%nat -> mh c = mh x -> mw c = mw x -> right_parameters angle sector kstep shape ->
    exists kmap anglemap z, fft2_kangle K hyp arg (Some (Z.of_nat (mh x))) (Some (Z.of_nat (mw x))) shape = Ok (kmap, anglemap) /\
      fft2_k_indexmap K pi floor hyp arg (Z.of_nat (mh x)) (Z.of_nat (mw x)) angle sector kstep shape Fft2 = Ok z /\
      k_select (Full x) angle sector kstep (KList l) shape (Some c) false = Ok (Many K (flat_map (fun k => averaged x kmap (selected z (Some c) k)) l)) /\
      k_select (Masked (select (all_entries x) (all_entries c))) angle sector kstep (KList l) shape (Some c) false = k_select (Full x) angle sector kstep (KList l) shape (Some c) false.
  Proof.
    intros HF Hy Hh Hw C1 C2 P. destruct (maps_ok HF Hy Hh Hw P) as (kmap & anglemap & z & E1 & E2 & K1 & K2 & Z1 & Z2 & Z0). exists kmap, anglemap, z. split; [exact E1|]. split; [|split].
    - unfold fft2_k_indexmap. cbn [bind]. rewrite E1. exact E2.
    - destruct P as (_ & _ & S1 & _). unfold SectorModel.k_select. rewrite S1. cbn [negb bind]. rewrite C1, C2, !Nat.eqb_refl. cbn [andb negb]. rewrite E1. cbn [bind]. rewrite E2. cbn [bind].
      rewrite (@collect_ok K A _ (fun k => average K mean kmean x kmap (filter (inside_mask (Some c)) (where_index z k)))).
      + cbn [bind]. do 2 f_equal. apply flat_map_ext. intros k. rewrite averaged_average, selected_where. reflexivity.
      + intros k _. apply complex_full; split; congruence.
    - destruct P as (_ & _ & S1 & _). unfold SectorModel.k_select. rewrite S1. cbn [negb bind]. rewrite C1, C2, !Nat.eqb_refl. cbn [andb negb]. rewrite E1. cbn [bind]. rewrite E2. cbn [bind].
      f_equal. rewrite !(@collect_ok K A _ (fun k => average K mean kmean x kmap (filter (at2 c) (where_index z k)))); [reflexivity| |].
      + intros k _. apply (@complex_full K A mean kmean x k z kmap (Some c)); split; congruence.
      + intros k _. rewrite !entries_cells, <- C1, <- C2, select_map. apply complex_masked; split; congruence.
  Qed.
  (** Without k all rings: every index of the map that is not -1 is among those tried. *)
  Theorem C62_all (x : mat A) angle sector kstep shape : floors K floor -> (forall a b, fle 0 (hyp a b)) -> (1 <= mh x)%nat -> (1 <= mw x)%nat -> right_parameters angle sector kstep shape ->
    exists z n, fft2_k_indexmap K pi floor hyp arg (Z.of_nat (mh x)) (Z.of_nat (mw x)) angle sector kstep shape Fft2 = Ok z /\
      k_select (Full x) angle sector kstep KNone shape None false = k_select (Full x) angle sector kstep (KList (arange n)) shape None false /\
      forall i j, (i < mh x)%nat -> (j < mw x)%nat -> (0 <= mat_at z i j)%Z -> In (mat_at z i j) (arange n).
  Proof.
    intros HF Hy Hh Hw P. destruct (maps_ok HF Hy Hh Hw P) as (kmap & anglemap & z & E1 & E2 & K1 & K2 & Z1 & Z2 & Z0). exists z, (Z.to_nat (fold_left Z.max (all_entries z) (-1)%Z + 1)). split; [|split].
    - unfold fft2_k_indexmap. cbn [bind]. rewrite E1. exact E2.
    - destruct P as (_ & _ & S1 & _). unfold SectorModel.k_select. rewrite S1. cbn [negb bind]. rewrite E1. cbn [bind]. rewrite E2. cbn [bind]. reflexivity.
    - intros i j Hi Hj H. unfold arange. apply in_map_iff. exists (Z.to_nat (mat_at z i j)). split; [lia|]. apply in_seq.
      destruct (fold_zmax (all_entries z) (-1)%Z) as [_ F]. specialize (F (mat_at z i j)). rewrite entries_cells in *.
      assert (Q : In (mat_at z i j) (map (at2 z) (cells (mh z) (mw z)))). { change (mat_at z i j) with (at2 z (i, j)). apply in_map, in_cells. cbn [fst snd]. lia. }
      specialize (F Q). lia.
  Qed.
  (** A single k: no result, whatever the data, mode and parameters; a TypeError whenever an empty list of k would do. *)
  Theorem C62_scalar_refuted data angle sector kstep k shape mask rfft2_mode : (forall r, k_select data angle sector kstep (KScalar k) shape mask rfft2_mode <> Ok r) /\
    (k_select data angle sector kstep (KList []) shape mask rfft2_mode = Ok (Many K []) -> k_select data angle sector kstep (KScalar k) shape mask rfft2_mode = Raise TypeError).
  Proof.
    unfold SectorModel.k_select. destruct (negb (flt K 0 sector)); [split; congruence|].
    destruct (match mask, data with Some m, Full x => _ | Some m, Masked _ => _ | None, Full x => _ | None, Masked _ => _ end) as [[[h w] b]|e]; cbn [bind]; [|split; congruence].
    destruct (if rfft2_mode then _ else _) as [[h' w']|e]; cbn [bind]; [|split; congruence].
    destruct (fft2_kangle K hyp arg _ _ shape) as [[kmap anglemap]|e]; cbn [bind]; [|split; congruence].
    destruct (fft2_sector_indexmap K pi floor kmap anglemap angle sector kstep) as [z|e]; cbn [bind]; split; congruence.
  Qed.
  (** Half-plane data (the default mode "rfft2") with three or more columns: an IndexError as soon as one of the listed k occurs. *)
  Theorem C62_rfft2_refuted (x : mat A) angle sector kstep shape h w l : floors K floor -> (forall a b, fle 0 (hyp a b)) -> (1 <= mh x)%nat -> (3 <= mw x)%nat -> right_parameters angle sector kstep shape ->
    as_fft2_shape (Some (Z.of_nat (mh x))) (Some (Z.of_nat (mw x))) shape = Ok (h, w) ->
    exists z, fft2_k_indexmap K pi floor hyp arg (Z.of_nat (mh x)) (Z.of_nat (mw x)) angle sector kstep shape Rfft2 = Ok z /\
      ((exists k i j, In k l /\ (i < mh z)%nat /\ (j < mw z)%nat /\ mat_at z i j = k) -> k_select (Full x) angle sector kstep (KList l) shape None true = Raise IndexError) /\
      k_select (Full x) angle sector kstep KNone shape None true = Raise IndexError.
  Proof.
    intros HF Hy Hh Hw P Sh.
    assert (HW : h = Z.of_nat (mh x) /\ (w = 2 * Z.of_nat (mw x) - 1 \/ w = 2 * Z.of_nat (mw x) - 2)%Z).
    { unfold as_fft2_shape in Sh. destruct shape as [[a b]|].
      - destruct (Z.of_nat (mw x) * 2 - 1 =? b + 1)%Z eqn:E1; [|destruct (Z.of_nat (mw x) * 2 - 1 >? b)%Z eqn:E2; [discriminate|]]; cbn [bind] in Sh; destruct (Z.of_nat (mh x) >? a)%Z; try discriminate; cbn [bind] in Sh; injection Sh as <- <-; lia.
      - cbn [bind] in Sh. injection Sh as <- <-. lia. }
    destruct HW as [-> HW]. destruct (maps_ok (h := mh x) (w := Z.to_nat w) HF Hy Hh ltac:(lia) P) as (kmap & anglemap & z & E1 & E2 & K1 & K2 & Z1 & Z2 & Z0). rewrite Z2Nat.id in E1 by lia.
    assert (Each : forall k, _k_select_real K cj mean kmean (Full x) k z kmap None false = match where_index z k with [] => Ok None | _ => Raise IndexError end).
    { intros k. apply real_full; [lia|lia|lia|lia|split; congruence]. }
    assert (Fails : forall l, (exists k i j, In k l /\ (i < mh z)%nat /\ (j < mw z)%nat /\ mat_at z i j = k) -> collect K (fun kk => _k_select_real K cj mean kmean (Full x) kk z kmap None false) l = Raise IndexError).
    { intros l' (k & i & j & Hk & Hi & Hj & E). apply collect_fail.
      - intros k' _. rewrite Each. destruct (where_index z k'); auto.
      - exists k. split; [exact Hk|]. rewrite Each. assert (N : where_index z k <> []) by (apply where_in; exists i, j; auto). destruct (where_index z k); [congruence|reflexivity]. }
    exists z. split; [|split].
    - unfold fft2_k_indexmap. rewrite Sh. cbn [bind]. rewrite E1. exact E2.
    - intros H. destruct P as (_ & _ & S1 & _). unfold SectorModel.k_select. rewrite S1. cbn [negb bind]. rewrite Sh. cbn [bind]. rewrite E1. cbn [bind]. rewrite E2. cbn [bind]. rewrite Fails by exact H. reflexivity.
    - destruct P as (_ & _ & S1 & _). unfold SectorModel.k_select. rewrite S1. cbn [negb bind]. rewrite Sh. cbn [bind]. rewrite E1. cbn [bind]. rewrite E2. cbn [bind]. rewrite Fails; [reflexivity|].
      exists 0%Z, 0%nat, 0%nat. split; [|split; [lia|split; [lia|exact Z0]]].
      destruct (fold_zmax (all_entries z) (-1)%Z) as [_ F]. specialize (F 0%Z). unfold arange. apply in_map_iff. exists 0%nat. split; [reflexivity|]. apply in_seq.
      assert (Q : In 0%Z (all_entries z)). { rewrite entries_cells, <- Z0. change (mat_at z 0 0) with (at2 z (0, 0)%nat). apply in_map, in_cells. cbn [fst snd]. lia. }
      specialize (F Q). lia.
  Qed.
  (** With the mask given as well: a ValueError for every list of k that is not empty. *)
  Theorem C62_rfft2_mask_refuted data (c : mat bool) angle sector kstep shape h w k l : floors K floor -> (forall a b, fle 0 (hyp a b)) -> (1 <= mh c)%nat -> (3 <= mw c)%nat -> right_parameters angle sector kstep shape ->
    as_fft2_shape (Some (Z.of_nat (mh c))) (Some (Z.of_nat (mw c))) shape = Ok (h, w) ->
    k_select data angle sector kstep (KList (k :: l)) shape (Some c) true = Raise ValueError.
  Proof.
    intros HF Hy Hh Hw P Sh.
    assert (HW : h = Z.of_nat (mh c) /\ (w = 2 * Z.of_nat (mw c) - 1 \/ w = 2 * Z.of_nat (mw c) - 2)%Z).
    { unfold as_fft2_shape in Sh. destruct shape as [[a b]|].
      - destruct (Z.of_nat (mw c) * 2 - 1 =? b + 1)%Z eqn:E1; [|destruct (Z.of_nat (mw c) * 2 - 1 >? b)%Z eqn:E2; [discriminate|]]; cbn [bind] in Sh; destruct (Z.of_nat (mh c) >? a)%Z; try discriminate; cbn [bind] in Sh; injection Sh as <- <-; lia.
      - cbn [bind] in Sh. injection Sh as <- <-. lia. }
    destruct HW as [-> HW]. destruct (maps_ok (h := mh c) (w := Z.to_nat w) HF Hy Hh ltac:(lia) P) as (kmap & anglemap & z & E1 & E2 & K1 & K2 & Z1 & Z2 & Z0). rewrite Z2Nat.id in E1 by lia.
    destruct P as (_ & _ & S1 & _). unfold SectorModel.k_select. rewrite S1. cbn [negb].
    assert (Q : exists b, match data with Full x => Ok (mh c, mw c, negb ((mh x =? mh c) && (mw x =? mw c))%nat) | Masked _ => Ok (mh c, mw c, true) end = Ok (mh c, mw c, b)) by (destruct data; eexists; reflexivity).
    destruct Q as [b ->]. cbn [bind]. rewrite Sh. cbn [bind]. rewrite E1. cbn [bind]. rewrite E2. cbn [bind collect]. rewrite real_masked by (try split; lia). reflexivity.
  Qed.
End C62.
Print Assumptions C62_fft2.
Print Assumptions C62_mask.
Print Assumptions C62_all.
Print Assumptions C62_scalar_refuted.
Print Assumptions C62_rfft2_refuted.
Print Assumptions C62_rfft2_mask_refuted.
(** A 3x3 full plane (values 1 to 9, mean = sum) and its half with three columns of a 3x5 plane. *)
Definition maxnorm (a b : QcO) : QcO := let abs (x : QcO) := if flt QcO x (q 0) then fopp QcF x else x in if flt QcO (abs a) (abs b) then abs b else abs a.
(** Angles of the eight directions in place of arctan2 *)
Definition octant (y x : QcO) : QcO :=
  if flt QcO (q 0) x then (if flt QcO (q 0) y then eighth 1 else if flt QcO y (q 0) then eighth (-1) else q 0)
  else if flt QcO x (q 0) then (if flt QcO (q 0) y then eighth 3 else if flt QcO y (q 0) then eighth (-3) else eighth (-4))
  else if flt QcO (q 0) y then eighth 2 else if flt QcO y (q 0) then eighth (-2) else q 0.
Definition zsum_list (l : list Z) : Z := fold_left Z.add l 0%Z.
Definition kselect_shown (r : res (kout QcO Z)) : res (list (Z * Z * Z)) :=
  match r with Ok (Many _ l) => Ok (map (fun p : QcO * Z => (show (fst p), snd p)) l) | Ok (Single _ _) => Raise TypeError | Raise e => Raise e end.
Definition sumq (l : list QcO) : QcO := fold_left (fadd QcF) l (q 0).
Definition plane33 : mat Z := table 0%Z [[1; 2; 3]; [4; 5; 6]; [7; 8; 9]]%Z.
Definition select33 (data : kdata Z) k mask mode := kselect_shown (k_select QcO pi7 qfloor maxnorm octant (fun z => Z.opp z) zsum_list sumq data (q 0) (q 100) (q 1) k None mask mode).
Definition mask33 : mat bool := table false [[true; true; false]; [false; true; true]; [true; false; true]].
Example C62_example : (forall a b, flt QcO (maxnorm a b) (q 0) = false) /\
  select33 (Full plane33) KNone None false = Ok [(0, 1, 1); (3, 1, 15)]%Z /\
  select33 (Full plane33) (KList [1; 5; 0; 1]%Z) None false = Ok [(3, 1, 15); (0, 1, 1); (3, 1, 15)]%Z /\
  select33 (Full plane33) (KList [1]%Z) (Some mask33) false = Ok [(2, 1, 7)]%Z /\
  select33 (Masked [1; 2; 5; 6; 7; 9]%Z) (KList [1]%Z) (Some mask33) false = Ok [(2, 1, 7)]%Z /\
  select33 (Full plane33) (KScalar 1) None false = Raise TypeError /\
  select33 (Full plane33) KNone None true = Raise IndexError /\
  select33 (Full plane33) (KList [7]%Z) None true = Ok [] /\
  select33 (Full plane33) (KList [1]%Z) (Some mask33) true = Raise ValueError.
Proof.
  split.
  - intros a b. unfold maxnorm. assert (P : forall x : QcO, @fle QcO (q 0) (if flt QcO x (q 0) then fopp QcF x else x)).
    { intros x. destruct (flt QcO x (q 0)) eqn:E; [|exact E]. apply flt_le. change (q 0) with (f0 QcO). replace (f0 QcO) with (fopp QcO (f0 QcO)) by reflexivity. apply (proj1 (flt_opp QcO x (f0 QcO))). exact E. }
    cbv zeta. match goal with |- flt QcO (if ?c then _ else _) _ = false => destruct c end; apply P.
  - repeat split; vm_compute; reflexivity.
Qed.
