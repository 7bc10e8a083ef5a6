(** Proofs about drawing. *)
From Coq Require Import ZifyBool ZifyNat.
From Verif Require Import Base KernelProofs SimModel SimProofs.
Set Implicit Arguments.
Local Open Scope Z_scope.

Definition get (im : image) (a b : nat) : Z := nth b (nth a im []) 0.
(** A frame of H rows with W pixels *)
Definition rect (H W : nat) (im : image) : Prop := length im = H /\ forall a, (a < H)%nat -> length (nth a im []) = W.
Definition zsum (A : Type) (l : list A) (f : A -> Z) : Z := fold_right (fun x s => f x + s) 0 l.
Lemma zsum_cons A (x : A) l f : zsum (x :: l) f = f x + zsum l f.
Proof. reflexivity. Qed.
Lemma zsum_app A (l m : list A) f : zsum (l ++ m) f = zsum l f + zsum m f.
Proof. induction l as [|x l IH]; [reflexivity|]. cbn [app zsum fold_right]. fold (zsum (l ++ m) f) (zsum l f). lia. Qed.
Lemma zsum_zero A (l : list A) f : (forall x, In x l -> f x = 0) -> zsum l f = 0.
Proof. induction l as [|x l IH]; intros H; [reflexivity|]. cbn [zsum fold_right]. fold (zsum l f). rewrite IH by (intros; apply H; right; assumption). rewrite H by (left; reflexivity). reflexivity. Qed.
Lemma zsum_ext A (l : list A) f g : (forall x, In x l -> f x = g x) -> zsum l f = zsum l g.
Proof. induction l as [|x l IH]; intros H; [reflexivity|]. cbn [zsum fold_right]. fold (zsum l f) (zsum l g). rewrite IH by (intros; apply H; right; assumption). rewrite H by (left; reflexivity). reflexivity. Qed.

Section Draw.
  Variables (H W : nat) (top : Z).
  Hypothesis HH : (0 < H)%nat.
  Hypothesis HW : (0 < W)%nat.
  Hypothesis HT : 0 < top.
  Definition valid (im : image) : Prop := forall a b, (a < H)%nat -> (b < W)%nat -> 0 <= get im a b < top.
  Lemma add_pixel_ok im i j p a b : rect H W im -> py_index H i = Some a -> py_index W j = Some b ->
    exists im', add_pixel top im i j p = Ok im' /\ rect H W im' /\ (forall a' b', get im' a' b' = if ((a' =? a) && (b' =? b))%nat%bool then (get im a' b' + p) mod top else get im a' b').
  Proof using.
    clear HH HW HT. intros [R1 R2] Ea Eb. assert (La : (a < H)%nat) by (unfold py_index in Ea; cbv zeta in Ea; destruct (i <? 0); match type of Ea with (if ?c then _ else _) = _ => destruct c eqn:C end; try discriminate; injection Ea as <-; lia).
    assert (Lb : (b < W)%nat) by (unfold py_index in Eb; cbv zeta in Eb; destruct (j <? 0); match type of Eb with (if ?c then _ else _) = _ => destruct c eqn:C end; try discriminate; injection Eb as <-; lia).
    unfold add_pixel, pixel. rewrite R1, Ea, R2, Eb by exact La. cbn [bind]. eexists. split; [reflexivity|]. split.
    - split; [rewrite upd_length; exact R1|]. intros a' Ha'. rewrite nth_upd, R1. destruct (Nat.eqb_spec a' a) as [->|N]; [|apply R2; exact Ha']. replace (a <? H)%nat with true by lia. cbn [andb]. rewrite upd_length. apply R2. exact La.
    - intros a' b'. unfold get. rewrite nth_upd, R1. destruct (Nat.eqb_spec a' a) as [->|N]; [|reflexivity]. replace (a <? H)%nat with true by lia. cbn [andb]. rewrite nth_upd, R2 by exact La. replace (b <? W)%nat with true by lia. rewrite Bool.andb_true_r.
      destruct (Nat.eqb_spec b' b) as [->|Nb]; reflexivity.
  Qed.
  Lemma add_pixel_out im i j p : rect H W im -> py_index H i = None \/ py_index W j = None -> add_pixel top im i j p = Raise OutOfBounds.
  Proof using.
    clear HH HW HT. intros [R1 R2] E. unfold add_pixel, pixel. rewrite R1. destruct (py_index H i) as [a|] eqn:Ea; [|reflexivity]. assert (La : (a < H)%nat) by (unfold py_index in Ea; cbv zeta in Ea; destruct (i <? 0); match type of Ea with (if ?c then _ else _) = _ => destruct c eqn:C end; try discriminate; injection Ea as <-; lia).
    rewrite R2 by exact La. destruct E as [E|E]; [discriminate|]. rewrite E. reflexivity.
  Qed.
  Lemma wrap_ok n i0 : 0 < n -> - (2 * n) <= i0 < 2 * n -> py_index (Z.to_nat n) (wrap_index i0 n) = Some (Z.to_nat (i0 mod n)).
  Proof using.
    clear. intros Hn Hi. unfold py_index, wrap_index. rewrite Z2Nat.id by lia. cbv zeta.
    assert (M : forall k, 0 <= i0 + k * n < n -> i0 mod n = i0 + k * n) by (intros k Hk; rewrite <- (Z.mod_small (i0 + k * n) n Hk), Z.mod_add by lia; reflexivity).
    destruct (Z.geb_spec i0 n).
    - replace (i0 - n <? 0) with false by lia. replace ((0 <=? i0 - n) && (i0 - n <? n))%bool with true by lia. f_equal. f_equal. specialize (M (-1)). lia.
    - destruct (Z.ltb_spec i0 0) as [C|C].
      + destruct (Z.ltb_spec (n + i0) 0).
        * replace ((0 <=? n + i0 + n) && (n + i0 + n <? n))%bool with true by lia. f_equal. f_equal. specialize (M 2). lia.
        * replace ((0 <=? n + i0) && (n + i0 <? n))%bool with true by lia. f_equal. f_equal. specialize (M 1). lia.
      + replace (i0 <? 0) with false by lia. replace ((0 <=? i0) && (i0 <? n))%bool with true by lia. f_equal. f_equal. specialize (M 0). lia.
  Qed.
  Lemma wrap_out n i0 : 0 < n -> 2 * n <= i0 -> py_index (Z.to_nat n) (wrap_index i0 n) = None.
  Proof using.
    clear. intros Hn Hi. unfold py_index, wrap_index. rewrite Z2Nat.id by lia. cbv zeta. destruct (Z.geb_spec i0 n); [|lia]. replace (i0 - n <? 0) with false by lia. replace ((0 <=? i0 - n) && (i0 - n <? n))%bool with false by lia. reflexivity.
  Qed.
  Lemma in_zrange a b x : In x (zrange a b) <-> a <= x < b.
  Proof using. clear. unfold zrange. rewrite in_map_iff. split; [intros (k & <- & Hk); apply in_seq in Hk; lia|]. intros Hx. exists (Z.to_nat (x - a)). split; [lia|]. apply in_seq. lia. Qed.
  Local Notation hz := (Z.of_nat H).
  Local Notation wz := (Z.of_nat W).
  (** One pixel addition of draw_psf *)
  Definition put (psf : Z -> Z -> Z) (i0 j0 : Z) (im : image) : res image := add_pixel top im (wrap_index i0 hz) (wrap_index j0 wz) (psf i0 j0).
  Lemma put_ok psf i0 j0 im : rect H W im -> - (2 * hz) <= i0 < 2 * hz -> - (2 * wz) <= j0 < 2 * wz ->
    exists im', put psf i0 j0 im = Ok im' /\ rect H W im' /\ (valid im -> valid im') /\
      forall a b, (a < H)%nat -> (b < W)%nat -> get im' a b mod top = (get im a b + (if (i0 mod hz =? Z.of_nat a) && (j0 mod wz =? Z.of_nat b) then psf i0 j0 else 0)) mod top.
  Proof.
    intros R Hi Hj. unfold put. pose proof (@wrap_ok hz i0 ltac:(lia) Hi) as Ei. pose proof (@wrap_ok wz j0 ltac:(lia) Hj) as Ej. rewrite Nat2Z.id in Ei, Ej.
    destruct (@add_pixel_ok im _ _ (psf i0 j0) _ _ R Ei Ej) as (im' & E & R' & G). exists im'. split; [exact E|]. split; [exact R'|].
    pose proof (Z.mod_pos_bound i0 hz ltac:(lia)). pose proof (Z.mod_pos_bound j0 wz ltac:(lia)). split.
    - intros V a b Ha Hb. rewrite G. destruct (_ && _)%bool; [apply Z.mod_pos_bound; exact HT|apply V; assumption].
    - intros a b Ha Hb. rewrite G. replace ((a =? Z.to_nat (i0 mod hz)) && (b =? Z.to_nat (j0 mod wz)))%nat%bool with ((i0 mod hz =? Z.of_nat a) && (j0 mod wz =? Z.of_nat b))%bool by lia.
      destruct (_ && _)%bool; [apply Z.mod_mod; lia|rewrite Z.add_0_r; reflexivity].
  Qed.
  (** A row, then all rows *)
  Lemma row_ok psf i0 js : - (2 * hz) <= i0 < 2 * hz -> (forall j0, In j0 js -> - (2 * wz) <= j0 < 2 * wz) -> forall im, rect H W im ->
    exists im', fold_left (fun r j0 => let* im := r in put psf i0 j0 im) js (Ok im) = Ok im' /\ rect H W im' /\ (valid im -> valid im') /\
      forall a b, (a < H)%nat -> (b < W)%nat -> get im' a b mod top = (get im a b + zsum js (fun j0 => if (i0 mod hz =? Z.of_nat a) && (j0 mod wz =? Z.of_nat b) then psf i0 j0 else 0)) mod top.
  Proof.
    intros Hi. induction js as [|j0 js IH]; intros Hj im R.
    - exists im. split; [reflexivity|]. split; [exact R|]. split; [tauto|]. intros a b _ _. cbn [zsum fold_right]. rewrite Z.add_0_r. reflexivity.
    - cbn [fold_left bind]. destruct (@put_ok psf i0 j0 im R Hi (Hj j0 (or_introl eq_refl))) as (im1 & -> & R1 & V1 & G1). destruct (IH (fun j h => Hj j (or_intror h)) im1 R1) as (im2 & E2 & R2 & V2 & G2).
      exists im2. split; [exact E2|]. split; [exact R2|]. split; [tauto|]. intros a b Ha Hb. rewrite G2 by assumption. rewrite Z.add_mod, G1, <- Z.add_mod by (assumption || lia). rewrite zsum_cons. f_equal. lia.
  Qed.
  Lemma rows_ok psf is js : (forall i0, In i0 is -> - (2 * hz) <= i0 < 2 * hz) -> (forall j0, In j0 js -> - (2 * wz) <= j0 < 2 * wz) -> forall im, rect H W im ->
    exists im', fold_left (fun r i0 => fold_left (fun r j0 => let* im := r in put psf i0 j0 im) js r) is (Ok im) = Ok im' /\ rect H W im' /\ (valid im -> valid im') /\
      forall a b, (a < H)%nat -> (b < W)%nat -> get im' a b mod top = (get im a b + zsum is (fun i0 => zsum js (fun j0 => if (i0 mod hz =? Z.of_nat a) && (j0 mod wz =? Z.of_nat b) then psf i0 j0 else 0))) mod top.
  Proof.
    induction is as [|i0 is IH]; intros Hi Hj im R.
    - exists im. split; [reflexivity|]. split; [exact R|]. split; [tauto|]. intros a b _ _. cbn [zsum fold_right]. rewrite Z.add_0_r. reflexivity.
    - cbn [fold_left]. destruct (@row_ok psf i0 js (Hi i0 (or_introl eq_refl)) Hj im R) as (im1 & -> & R1 & V1 & G1). destruct (IH (fun j h => Hi j (or_intror h)) Hj im1 R1) as (im2 & E2 & R2 & V2 & G2).
      exists im2. split; [exact E2|]. split; [exact R2|]. split; [tauto|]. intros a b Ha Hb. rewrite G2 by assumption. rewrite Z.add_mod, G1, <- Z.add_mod by (assumption || lia). rewrite zsum_cons. f_equal. lia.
  Qed.
  (** Errors *)
  Definition fine (r : res image) : Prop := r = Raise OutOfBounds \/ exists im, r = Ok im /\ rect H W im.
  Lemma put_fine psf i0 j0 r : fine r -> fine (let* im := r in put psf i0 j0 im).
  Proof.
    intros [->|(im & -> & R)]; [left; reflexivity|]. cbn [bind]. unfold put. destruct (py_index H (wrap_index i0 hz)) as [a|] eqn:Ea; [|left; apply add_pixel_out; [exact R|left; exact Ea]].
    destruct (py_index W (wrap_index j0 wz)) as [b|] eqn:Eb; [|left; apply add_pixel_out; [exact R|right; exact Eb]]. destruct (@add_pixel_ok im _ _ (psf i0 j0) _ _ R Ea Eb) as (im' & E & R' & _). right. exists im'. split; assumption.
  Qed.
  Lemma put_out psf i0 j0 r : fine r -> 2 * hz <= i0 \/ 2 * wz <= j0 -> (let* im := r in put psf i0 j0 im) = Raise OutOfBounds.
  Proof.
    intros [->|(im & -> & R)] Hij; [reflexivity|]. cbn [bind]. unfold put. apply add_pixel_out; [exact R|]. pose proof (@wrap_out hz i0 ltac:(lia)) as A. pose proof (@wrap_out wz j0 ltac:(lia)) as B. rewrite Nat2Z.id in A, B. destruct Hij; [left; apply A; assumption|right; apply B; assumption].
  Qed.
  Lemma row_fine psf i0 js r : fine r -> fine (fold_left (fun r j0 => let* im := r in put psf i0 j0 im) js r).
  Proof. revert r. induction js as [|j0 js IH]; intros r Hr; [exact Hr|]. cbn [fold_left]. apply IH. apply put_fine. exact Hr. Qed.
  Lemma rows_fine psf is js r : fine r -> fine (fold_left (fun r i0 => fold_left (fun r j0 => let* im := r in put psf i0 j0 im) js r) is r).
  Proof. revert r. induction is as [|i0 is IH]; intros r Hr; [exact Hr|]. cbn [fold_left]. apply IH. apply row_fine. exact Hr. Qed.
  Lemma row_raise psf i0 js : fold_left (fun r j0 => let* im := r in put psf i0 j0 im) js (Raise OutOfBounds) = Raise OutOfBounds.
  Proof using. clear. induction js as [|j js IH]; [reflexivity|exact IH]. Qed.
  Lemma rows_raise psf is js : fold_left (fun r i0 => fold_left (fun r j0 => let* im := r in put psf i0 j0 im) js r) is (Raise OutOfBounds) = Raise OutOfBounds.
  Proof using. clear. induction is as [|i is IH]; [reflexivity|]. cbn [fold_left]. rewrite row_raise. exact IH. Qed.
  Lemma rows_out psf is js r i0 j0 : fine r -> In i0 is -> In j0 js -> 2 * hz <= i0 \/ 2 * wz <= j0 -> fold_left (fun r i0 => fold_left (fun r j0 => let* im := r in put psf i0 j0 im) js r) is r = Raise OutOfBounds.
  Proof.
    intros Hr Hi Hj Hb. apply in_split in Hi. destruct Hi as (i1 & i2 & ->). rewrite fold_left_app. cbn [fold_left]. match goal with |- fold_left _ _ ?x = _ => assert (X : x = Raise OutOfBounds) end; [|rewrite X; apply rows_raise].
    assert (F : fine (fold_left (fun r i0 => fold_left (fun r j0 => let* im := r in put psf i0 j0 im) js r) i1 r)) by (apply rows_fine; exact Hr). revert F. generalize (fold_left (fun r i0 => fold_left (fun r j0 => let* im := r in put psf i0 j0 im) js r) i1 r). intros r1 F.
    apply in_split in Hj. destruct Hj as (j1 & j2 & ->). rewrite fold_left_app. cbn [fold_left]. rewrite put_out; [apply row_raise|apply row_fine; exact F|exact Hb].
  Qed.
  (** draw_one *)
  Definition spot (psf : Z -> Z -> Z) (size h w : Z) (a b : nat) : Z :=
    zsum (zrange (h - size) (h + size + 1)) (fun i0 => zsum (zrange (w - size) (w + size + 1)) (fun j0 => if (i0 mod hz =? Z.of_nat a) && (j0 mod wz =? Z.of_nat b) then psf i0 j0 else 0)).
  Lemma draw_one_ok psf size h w im : rect H W im -> 0 <= h -> 0 <= w -> h + size < 2 * hz -> w + size < 2 * wz ->
    exists im', draw_one top psf size h w im = Ok im' /\ rect H W im' /\ (valid im -> valid im') /\ forall a b, (a < H)%nat -> (b < W)%nat -> get im' a b mod top = (get im a b + spot psf size h w a b) mod top.
  Proof.
    intros R Hh Hw Sh Sw. assert (R' := R). destruct R' as [R1 R2]. unfold draw_one. rewrite R1, R2 by lia.
    apply (@rows_ok psf); [| |exact R]; intros x Hx; apply in_zrange in Hx; lia.
  Qed.
  Lemma draw_one_out psf size h w im : rect H W im -> 0 <= size -> 2 * hz <= h + size \/ 2 * wz <= w + size -> draw_one top psf size h w im = Raise OutOfBounds.
  Proof.
    intros R Hs Hb. assert (R' := R). destruct R' as [R1 R2]. unfold draw_one. rewrite R1, R2 by lia.
    apply (@rows_out psf _ _ _ (h + size) (w + size)); [right; exists im; split; [reflexivity|exact R]|apply in_zrange; lia|apply in_zrange; lia|exact Hb].
  Qed.
  Lemma draw_psf_ok psf size points : forall k im, rect H W im -> (forall h w, In (h, w) points -> 0 <= h /\ 0 <= w /\ h + size < 2 * hz /\ w + size < 2 * wz) ->
    exists im', draw_psf top psf size k points im = Ok im' /\ rect H W im' /\ (valid im -> valid im') /\
      forall a b, (a < H)%nat -> (b < W)%nat -> get im' a b mod top = (get im a b + zsum (combine (seq k (length points)) points) (fun p => spot (psf (fst p)) size (fst (snd p)) (snd (snd p)) a b)) mod top.
  Proof.
    induction points as [|[h w] points IH]; intros k im R HP.
    - exists im. split; [reflexivity|]. split; [exact R|]. split; [tauto|]. intros a b _ _. cbn [length seq combine zsum fold_right]. rewrite Z.add_0_r. reflexivity.
    - cbn [draw_psf]. destruct (HP h w (or_introl eq_refl)) as (A & B & C & D). destruct (@draw_one_ok (psf k) size h w im R A B C D) as (im1 & -> & R1 & V1 & G1). cbn [bind].
      destruct (IH (S k) im1 R1 (fun h w i => HP h w (or_intror i))) as (im2 & E2 & R2 & V2 & G2). exists im2. split; [exact E2|]. split; [exact R2|]. split; [tauto|]. intros a b Ha Hb. rewrite G2 by assumption. rewrite Z.add_mod, G1, <- Z.add_mod by (assumption || lia).
      cbn [length seq combine]. rewrite zsum_cons. cbn [fst snd]. f_equal. lia.
  Qed.
  Lemma draw_psf_out psf size points : 0 <= size -> (forall h w, In (h, w) points -> 0 <= h /\ 0 <= w) -> (exists h w, In (h, w) points /\ (2 * hz <= h + size \/ 2 * wz <= w + size)) ->
    forall k im, rect H W im -> draw_psf top psf size k points im = Raise OutOfBounds.
  Proof.
    intros Hs HP (h & w & Hi & Hb). induction points as [|[h' w'] points IH]; intros k im R; [destruct Hi|]. cbn [draw_psf].
    destruct (Z_lt_dec (h' + size) (2 * hz)) as [C|C]; [destruct (Z_lt_dec (w' + size) (2 * wz)) as [D|D]|].
    - destruct (HP h' w' (or_introl eq_refl)) as [A B]. destruct (@draw_one_ok (psf k) size h' w' im R A B C D) as (im1 & -> & R1 & _). cbn [bind]. apply IH; [intros; apply HP; right; assumption| |exact R1]. destruct Hi as [E|Hi]; [injection E as -> ->; lia|exact Hi].
    - rewrite draw_one_out; [reflexivity|exact R|exact Hs|right; lia].
    - rewrite draw_one_out; [reflexivity|exact R|exact Hs|left; lia].
  Qed.
  (** draw_points *)
  Lemma draw_points_ok points : forall intensity im, rect H W im -> (forall h w, In (h, w) points -> 0 <= h < hz /\ 0 <= w < wz) -> length points = length intensity ->
    exists im', draw_points_loop top im points intensity = Ok im' /\ rect H W im' /\ (valid im -> valid im') /\
      forall a b, (a < H)%nat -> (b < W)%nat -> get im' a b mod top = (get im a b + zsum (combine points intensity) (fun p => if (fst (fst p) =? Z.of_nat a) && (snd (fst p) =? Z.of_nat b) then snd p else 0)) mod top.
  Proof.
    induction points as [|[h w] points IH]; intros [|v intensity] im R HP HL; try discriminate.
    - exists im. split; [reflexivity|]. split; [exact R|]. split; [tauto|]. intros a b _ _. cbn [combine zsum fold_right]. rewrite Z.add_0_r. reflexivity.
    - cbn [draw_points_loop]. destruct (HP h w (or_introl eq_refl)) as [A B]. assert (Eh : py_index H h = Some (Z.to_nat h)) by (unfold py_index; cbv zeta; replace (h <? 0) with false by lia; replace ((0 <=? h) && (h <? hz))%bool with true by lia; reflexivity).
      assert (Ew : py_index W w = Some (Z.to_nat w)) by (unfold py_index; cbv zeta; replace (w <? 0) with false by lia; replace ((0 <=? w) && (w <? wz))%bool with true by lia; reflexivity).
      destruct (@add_pixel_ok im h w v _ _ R Eh Ew) as (im1 & -> & R1 & G1). cbn [bind]. destruct (IH intensity im1 R1 (fun h w i => HP h w (or_intror i)) ltac:(cbn in HL; lia)) as (im2 & E2 & R2 & V2 & G2).
      exists im2. split; [exact E2|]. split; [exact R2|]. split.
      + intros V. apply V2. intros a b Ha Hb. rewrite G1. destruct (_ && _)%bool; [apply Z.mod_pos_bound; exact HT|apply V; assumption].
      + intros a b Ha Hb. rewrite G2 by assumption. rewrite Z.add_mod by lia. rewrite G1. cbn [combine]. rewrite zsum_cons. cbn [fst snd]. replace ((a =? Z.to_nat h) && (b =? Z.to_nat w))%nat%bool with ((h =? Z.of_nat a) && (w =? Z.of_nat b))%bool by lia.
        destruct ((h =? Z.of_nat a) && (w =? Z.of_nat b))%bool; [rewrite Z.mod_mod by lia|]; rewrite <- Z.add_mod by lia; f_equal; lia.
  Qed.
End Draw.
