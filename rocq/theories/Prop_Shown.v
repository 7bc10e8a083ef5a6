(** C107: the images of differences that are shown. *)
From Coq Require Import QArith Qcanon ZifyBool ZifyNat.
From Verif Require Import Base KernelProofs Ordered NormModel CoreProofs3 Archimedean Examples ShownModel.
Set Implicit Arguments.
Local Open Scope nat_scope.

Lemma nth_mapd A B (f : A -> B) l i d d' : i < length l -> nth i (map f l) d' = f (nth i l d).
Proof. intros H. rewrite (nth_indep _ d' (f d)) by (rewrite map_length; exact H). apply map_nth. Qed.

Section Shown.
  Variable K : OFld.
  Add Field Kshown : (flaw K).
  Local Notation "0" := (f0 K).
  Local Notation "1" := (f1 K).
  Local Infix "+" := (fadd K).
  Local Infix "*" := (fmul K).
  Local Infix "-" := (fsub K).
  Local Infix "/" := (fdiv K).
  Local Notation two := (fadd K (f1 K) (f1 K)).
  Implicit Types x y a b c m : K.
  Lemma two_pos : flt K 0 two = true.
  Proof. pose proof (flt_fnat K (n := 2) ltac:(discriminate)) as H. unfold fnat in H. cbn in H. replace (1 + (1 + 0)) with two in H by ring. exact H. Qed.
  Lemma two_neq0 : two <> 0.
  Proof. intros E. pose proof two_pos as H. rewrite E, flt_irrefl in H. discriminate. Qed.
  Lemma pos_neq0 x : flt K 0 x = true -> x <> 0.
  Proof. intros H E. rewrite E, flt_irrefl in H. discriminate. Qed.
  Lemma is_zero_iff x : is_zero K x = true <-> x = 0.
  Proof.
    unfold is_zero. split.
    - destruct (flt K x 0) eqn:A; [discriminate|]. destruct (flt K 0 x) eqn:B; [discriminate|]. intros _. apply flt_total; assumption.
    - intros ->. rewrite flt_irrefl. reflexivity.
  Qed.
  Lemma is_zero_pos x : flt K 0 x = true -> is_zero K x = false.
  Proof. intros H. destruct (is_zero K x) eqn:E; [|reflexivity]. apply is_zero_iff in E. destruct (pos_neq0 H E). Qed.
  Lemma py_max_l a b : fle a (py_max K a b).
  Proof. unfold py_max. destruct (flt K a b) eqn:E; [apply flt_le; exact E|apply fle_refl]. Qed.
  Lemma py_max_r a b : fle b (py_max K a b).
  Proof. unfold py_max. destruct (flt K a b) eqn:E; [apply fle_refl|exact E]. Qed.
  Lemma py_max_or a b : py_max K a b = a \/ py_max K a b = b.
  Proof. unfold py_max. destruct (flt K a b); auto. Qed.
  Lemma py_max_comm a b : py_max K a b = py_max K b a.
  Proof. apply fle_antisym; [destruct (py_max_or a b) as [->| ->]|destruct (py_max_or b a) as [->| ->]]; (apply py_max_l || apply py_max_r). Qed.
  Lemma fold_max l : forall a, fle a (fold_left (py_max K) l a) /\ (forall v, In v l -> fle v (fold_left (py_max K) l a)) /\ (fold_left (py_max K) l a = a \/ In (fold_left (py_max K) l a) l).
  Proof.
    induction l as [|b l IH]; intros a; cbn [fold_left]; [split; [apply fle_refl|]; split; [intros v []|left; reflexivity]|].
    destruct (IH (py_max K a b)) as (A & B & D). split; [eapply fle_trans; [apply py_max_l|exact A]|]. split.
    - intros v [<-|Hv]; [eapply fle_trans; [apply py_max_r|exact A]|apply B; exact Hv].
    - destruct D as [D|D]; [|right; right; exact D]. rewrite D. destruct (py_max_or a b) as [E|E]; rewrite E; [left; reflexivity|right; left; reflexivity].
  Qed.
  (** array_max is the largest entry *)
  Lemma array_max_ok l : l <> [] -> exists m, array_max K l = Ok m /\ In m l /\ forall v, In v l -> fle v m.
  Proof.
    destruct l as [|a l]; [contradiction|]. intros _. eexists. split; [reflexivity|]. destruct (fold_max l a) as (A & B & D). split; [destruct D as [->|D]; [left; reflexivity|right; exact D]|]. intros v [<-|Hv]; [exact A|apply B; exact Hv].
  Qed.
  Lemma array_max_unique l m m' : array_max K l = Ok m -> In m' l -> (forall v, In v l -> fle v m') -> m = m'.
  Proof.
    intros E I M. destruct l as [|a l]; [discriminate|]. destruct (@array_max_ok (a :: l)) as (m1 & E1 & I1 & M1); [discriminate|]. assert (m1 = m) as -> by congruence. apply fle_antisym; [apply M; exact I1|apply M1; exact I].
  Qed.
  Lemma mul_le c a b : flt K 0 c = true -> fle a b -> fle (c * a) (c * b).
  Proof. intros H E. apply fle_mul; [exact E|apply flt_le; exact H]. Qed.
  Lemma max_scale l m c : flt K 0 c = true -> array_max K l = Ok m -> array_max K (map (fun v => c * v) l) = Ok (c * m).
  Proof.
    intros H E. destruct l as [|a l]; [discriminate|]. destruct (@array_max_ok (a :: l)) as (m1 & E1 & I1 & M1); [discriminate|]. assert (m1 = m) as -> by congruence.
    destruct (@array_max_ok (map (fun v => c * v) (a :: l))) as (m2 & E2 & _); [discriminate|]. rewrite E2. f_equal. apply (@array_max_unique _ _ (c * m) E2).
    - apply in_map. exact I1.
    - intros v Hv. apply in_map_iff in Hv. destruct Hv as (u & <- & Hu). apply mul_le; [exact H|]. apply M1. exact Hu.
  Qed.
  Lemma py_max_scale a b c : flt K 0 c = true -> py_max K (c * a) (c * b) = c * py_max K a b.
  Proof.
    intros H. apply fle_antisym; [destruct (py_max_or (c * a) (c * b)) as [->| ->]|destruct (py_max_or a b) as [->| ->]].
    - apply mul_le; [exact H|apply py_max_l].
    - apply mul_le; [exact H|apply py_max_r].
    - apply py_max_l.
    - apply py_max_r.
  Qed.
  Lemma half_range x m : flt K 0 m = true -> fle 0 x -> fle x m -> fle 0 (x / (two * m)) /\ fle (x / (two * m)) (1 / two).
  Proof.
    intros Hm H1 H2. pose proof two_neq0 as T. pose proof (pos_neq0 Hm) as M. assert (P : flt K 0 (two * m) = true) by (apply flt_mul_pos; [exact two_pos|exact Hm]). split.
    - replace 0 with (0 / (two * m)) by (field; split; assumption). apply fle_div; assumption.
    - replace (1 / two) with (m / (two * m)) by (field; split; assumption). apply fle_div; assumption.
  Qed.
  Lemma diff_range a b : fle 0 a -> fle a (1 / two) -> fle 0 b -> fle b (1 / two) -> fle 0 (a - b + 1 / two) /\ fle (a - b + 1 / two) 1.
  Proof.
    intros A1 A2 B1 B2. pose proof two_neq0 as T. split.
    - apply fle_sub in B2. pose proof (fle_add2 A1 B2) as H. replace (0 + 0) with 0 in H by ring. replace (a - b + 1 / two) with (a + (1 / two - b)) by ring. exact H.
    - apply fle_sub. replace (1 - (a - b + 1 / two)) with ((1 / two - a) + b) by (field; exact T). apply fle_sub in A2. pose proof (fle_add2 A2 B1) as H. replace (0 + 0) with 0 in H by ring. exact H.
  Qed.

  (** The image of the difference of two frames that are not negative and not both black has the shades from 0 to 1; it is the difference, divided by twice the brightest pixel, around the shade 1/2. *)
  Theorem C107_range (x y : list K) : x <> [] -> length x = length y -> (forall v, In v (x ++ y) -> fle 0 v) -> (exists v, In v (x ++ y) /\ v <> 0) ->
    exists m im, In m (x ++ y) /\ (forall v, In v (x ++ y) -> fle v m) /\ diff_image K false x y = Ok (map Fin im) /\ length im = length x /\
      (forall v, In v im -> fle 0 v /\ fle v 1) /\
      (forall i, (i < length x)%nat -> nth i im 0 = (nth i x 0 - nth i y 0) / (two * m) + 1 / two).
  Proof.
    intros Hx HL HP (w & Hw & W0). assert (Hy : y <> []) by (intros ->; destruct x; [contradiction|discriminate]).
    destruct (array_max_ok Hx) as (a & Ea & Ia & Ma). destruct (array_max_ok Hy) as (b & Eb & Ib & Mb). set (m := py_max K a b).
    assert (Im : In m (x ++ y)) by (apply in_or_app; unfold m; destruct (py_max_or a b) as [->| ->]; [left|right]; assumption).
    assert (Mm : forall v, In v (x ++ y) -> fle v m).
    { intros v Hv. apply in_app_or in Hv. destruct Hv as [Hv|Hv]; [eapply fle_trans; [apply Ma; exact Hv|apply py_max_l]|eapply fle_trans; [apply Mb; exact Hv|apply py_max_r]]. }
    assert (Pm : flt K 0 m = true). { apply (@flt_le_trans K 0 w m); [|apply Mm; exact Hw]. pose proof (HP w Hw) as H. apply fle_cases in H. destruct H as [H|H]; [exact H|congruence]. }
    assert (Z : is_zero K (two * m) = false) by (apply is_zero_pos, flt_mul_pos; [exact two_pos|exact Pm]).
    exists m, (map (fun p => fst p / (two * m) - snd p / (two * m) + 1 / two) (combine x y)). split; [exact Im|]. split; [exact Mm|]. split; [|split; [|split]].
    - unfold diff_image, diff_of. rewrite Ea, Eb. cbn [bind]. fold m. rewrite Z, HL, Nat.eqb_refl. cbn [negb]. rewrite map_map. reflexivity.
    - rewrite map_length, combine_length. lia.
    - intros v Hv. apply in_map_iff in Hv. destruct Hv as ((p & q) & <- & Hp). cbn [fst snd]. pose proof (in_combine_l _ _ _ _ Hp) as I1. pose proof (in_combine_r _ _ _ _ Hp) as I2.
      destruct (@half_range p m Pm) as [A1 A2]; [apply HP, in_or_app; left; exact I1|apply Mm, in_or_app; left; exact I1|]. destruct (@half_range q m Pm) as [B1 B2]; [apply HP, in_or_app; right; exact I2|apply Mm, in_or_app; right; exact I2|]. apply diff_range; assumption.
    - intros i Hi. rewrite (@nth_mapd _ _ _ (combine x y) i (0, 0) 0) by (rewrite combine_length; lia). rewrite combine_nth by exact HL. cbn [fst snd]. pose proof (pos_neq0 Pm). field. repeat split; (assumption || exact two_neq0).
  Qed.

  (** Swapping the frames turns the shades around 1/2. *)
  Definition turned (v : fval K) : fval K := match v with Fin v => Fin (1 - v) | NonFin => NonFin end.
  Theorem C107_swap (x y : list K) im : diff_image K false x y = Ok im -> diff_image K false y x = Ok (map turned im).
  Proof.
    unfold diff_image, diff_of. destruct (array_max K x) as [a|e]; [|discriminate]. destruct (array_max K y) as [b|e]; [|discriminate]. cbn [bind]. rewrite (py_max_comm b a). set (m := two * py_max K a b).
    destruct (Nat.eqb_spec (length x) (length y)) as [HL|]; [|discriminate]. cbn [negb]. intros E. injection E as <-. rewrite HL, Nat.eqb_refl. cbn [negb]. f_equal. rewrite map_map.
    revert y HL. induction x as [|u x IH]; intros [|v y] HL; try discriminate; [reflexivity|]. cbn [combine map]. rewrite (IH y) by (injection HL as HL; exact HL). f_equal. cbn [fst snd]. destruct (is_zero K m) eqn:Z; [reflexivity|]. cbn [turned]. f_equal.
    assert (m <> 0) by (intros X; apply is_zero_iff in X; congruence). field. repeat split; (assumption || exact two_neq0).
  Qed.

  (** Equal frames, not black, give the shade 1/2 everywhere; black frames give no number at all. *)
  Theorem C107_equal (x : list K) : x <> [] -> (forall v, In v x -> fle 0 v) ->
    diff_image K false x x = Ok (map (fun _ => if forallb (is_zero K) x then NonFin else Fin (1 / two)) x).
  Proof.
    intros Hx HP. destruct (array_max_ok Hx) as (a & Ea & Ia & Ma). unfold diff_image, diff_of. rewrite Ea. cbn [bind]. rewrite Nat.eqb_refl. cbn [negb]. f_equal.
    assert (E : py_max K a a = a) by (destruct (py_max_or a a); assumption). rewrite E.
    assert (Z : is_zero K (two * a) = forallb (is_zero K) x).
    { destruct (forallb (is_zero K) x) eqn:F.
      - rewrite forallb_forall in F. specialize (F a Ia). apply is_zero_iff in F. apply is_zero_iff. rewrite F. ring.
      - destruct (is_zero K (two * a)) eqn:T; [|reflexivity]. apply is_zero_iff in T. rewrite <- F. symmetry. apply forallb_forall. intros v Hv. apply is_zero_iff. assert (A0 : a = 0).
        { replace a with ((two * a) / two) by (field; exact two_neq0). rewrite T. field. exact two_neq0. }
        apply fle_antisym; [rewrite <- A0; apply Ma; exact Hv|apply HP; exact Hv]. }
    rewrite Z. assert (C : combine x x = map (fun v => (v, v)) x) by (clear; induction x as [|v x IH]; [reflexivity|cbn; rewrite IH; reflexivity]). rewrite C, map_map. apply map_ext_in. intros v Hv. cbn [fst snd].
    destruct (forallb (is_zero K) x) eqn:F; [reflexivity|]. f_equal. assert (two * a <> 0) by (intros X; apply is_zero_iff in X; congruence). assert (a <> 0) by (intros ->; apply H; ring). field. repeat split; (assumption || exact two_neq0).
  Qed.

  (** More light on both frames does not change the image. *)
  Lemma scaled_combine c (x y : list K) : combine (map (fun v => c * v) x) (map (fun v => c * v) y) = map (fun p => (c * fst p, c * snd p)) (combine x y).
  Proof. revert y. induction x as [|u x IH]; intros [|v y]; cbn; try reflexivity. rewrite IH. reflexivity. Qed.
  Theorem C107_light c (x y : list K) : flt K 0 c = true -> diff_image K false (map (fun v => c * v) x) (map (fun v => c * v) y) = diff_image K false x y.
  Proof.
    intros H. unfold diff_image, diff_of. destruct x as [|u x]; [reflexivity|]. destruct (@array_max_ok (u :: x)) as (a & Ea & _); [discriminate|]. rewrite (@max_scale _ _ c H Ea), Ea. cbn [bind].
    destruct y as [|v y]; [reflexivity|]. destruct (@array_max_ok (v :: y)) as (b & Eb & _); [discriminate|]. rewrite (@max_scale _ _ c H Eb), Eb. cbn [bind]. rewrite !map_length, (@py_max_scale a b c H).
    destruct (negb (length (u :: x) =? length (v :: y))); [reflexivity|]. f_equal. rewrite scaled_combine, map_map. apply map_ext. intros [p q]. cbn [fst snd]. set (m := py_max K a b).
    pose proof (pos_neq0 H) as C0. pose proof two_neq0 as T. destruct (is_zero K (two * m)) eqn:Z.
    - apply is_zero_iff in Z. replace (is_zero K (two * (c * m))) with true; [reflexivity|]. symmetry. apply is_zero_iff. replace (two * (c * m)) with (c * (two * m)) by ring. rewrite Z. ring.
    - assert (m <> 0) by (intros X; assert (two * m = 0) as Y by (rewrite X; ring); apply is_zero_iff in Y; congruence).
      destruct (is_zero K (two * (c * m))) eqn:Z2.
      + apply is_zero_iff in Z2. exfalso. assert (two * m = 0) as Y by (replace (two * m) with ((two * (c * m)) / c) by (field; exact C0); rewrite Z2; field; exact C0). apply is_zero_iff in Y. congruence.
      + f_equal. field. repeat split; assumption.
  Qed.

  (** With normalize, different lights on the two frames do not change the image. *)
  Lemma lsum_scale c (x : list K) : lsum (fmon K) (map (fun v => c * v) x) = c * lsum (fmon K) x.
  Proof.
    induction x as [|v x IH]; [change (0 = c * 0); ring|]. change (c * v + lsum (fmon K) (map (fun v => c * v) x) = c * (v + lsum (fmon K) x)). rewrite IH. ring.
  Qed.
  Lemma mean_scale c (x : list K) : x <> [] -> array_mean K (map (fun v => c * v) x) = c * array_mean K x.
  Proof. intros H. unfold array_mean. rewrite map_length, lsum_scale. field. apply fnat_neq0. destruct x; [contradiction|discriminate]. Qed.
  Lemma normal_scale c (x : list K) : flt K 0 c = true -> x <> [] -> is_zero K (array_mean K x) = false ->
    is_zero K (array_mean K (map (fun v => c * v) x)) = false /\ map (fun v => v / array_mean K (map (fun v => c * v) x)) (map (fun v => c * v) x) = map (fun v => v / array_mean K x) x.
  Proof.
    intros H Hx Z. pose proof (pos_neq0 H) as C0. rewrite (@mean_scale c x Hx). assert (M : array_mean K x <> 0) by (intros X; apply is_zero_iff in X; congruence). split.
    - destruct (is_zero K (c * array_mean K x)) eqn:E; [|reflexivity]. apply is_zero_iff in E. destruct M. replace (array_mean K x) with ((c * array_mean K x) / c) by (field; exact C0). rewrite E. field. exact C0.
    - rewrite map_map. apply map_ext. intros v. field. split; assumption.
  Qed.
  Lemma zero_scale c (x : list K) : x <> [] -> is_zero K (array_mean K x) = true -> is_zero K (array_mean K (map (fun v => c * v) x)) = true.
  Proof. intros Hx Z. apply is_zero_iff in Z. apply is_zero_iff. rewrite (@mean_scale c x Hx), Z. ring. Qed.
  Theorem C107_flicker c d (x y : list K) : flt K 0 c = true -> flt K 0 d = true ->
    diff_image K true (map (fun v => c * v) x) (map (fun v => d * v) y) = diff_image K true x y.
  Proof.
    intros Hc Hd. unfold diff_image. destruct x as [|u x]; [reflexivity|]. destruct (@array_max_ok (u :: x)) as (a & Ea & _); [discriminate|]. rewrite (@max_scale _ _ c Hc Ea), Ea. cbn [bind].
    destruct y as [|v y]; [reflexivity|]. destruct (@array_max_ok (v :: y)) as (b & Eb & _); [discriminate|]. rewrite (@max_scale _ _ d Hd Eb), Eb. cbn [bind].
    assert (Nx : u :: x <> []) by discriminate. assert (Ny : v :: y <> []) by discriminate. set (X := u :: x) in *. set (Y := v :: y) in *. clearbody X Y.
    destruct (is_zero K (array_mean K X)) eqn:ZX.
    - rewrite (@zero_scale c X Nx ZX). cbn [orb]. rewrite !map_length, map_map. reflexivity.
    - destruct (@normal_scale c X Hc Nx ZX) as [-> ->]. destruct (is_zero K (array_mean K Y)) eqn:ZY.
      + rewrite (@zero_scale d Y Ny ZY). cbn [orb]. rewrite !map_length, map_map. reflexivity.
      + destruct (@normal_scale d Y Hd Ny ZY) as [-> ->]. reflexivity.
  Qed.

  (** Frames of different sizes, or empty ones, are refused. *)
  Theorem C107_sizes normalize (x y : list K) : length x <> length y \/ x = [] \/ y = [] -> diff_image K normalize x y = Raise ValueError.
  Proof.
    intros H. destruct x as [|u x]; [destruct normalize; reflexivity|]. destruct (@array_max_ok (u :: x)) as (a & Ea & _); [discriminate|].
    destruct y as [|v y]; [unfold diff_image, diff_of; destruct normalize; rewrite Ea; reflexivity|]. destruct (@array_max_ok (v :: y)) as (b & Eb & _); [discriminate|].
    assert (N : length (u :: x) <> length (v :: y)) by (destruct H as [H|[H|H]]; [exact H|discriminate H|discriminate H]).
    assert (G : forall x y : list K, x <> [] -> y <> [] -> length x <> length y -> diff_of K x y = Raise ValueError).
    { clear. intros x y Hx Hy N. unfold diff_of. destruct (array_max_ok Hx) as (a & -> & _). destruct (array_max_ok Hy) as (b & -> & _). cbn [bind]. apply Nat.eqb_neq in N. rewrite N. reflexivity. }
    destruct normalize; unfold diff_image; [|apply G; [discriminate|discriminate|exact N]]. rewrite Ea, Eb. cbn [bind]. destruct (_ || _)%bool.
    - apply Nat.eqb_neq in N. rewrite N. reflexivity.
    - apply G; [discriminate|discriminate|rewrite !map_length; exact N].
  Qed.
  (** OpenCV gets images of shades up to 1: those are shown as they are, brighter ones are divided by their brightest pixel, and black stays black. *)
  Theorem C107_cv (im : list K) : im <> [] ->
    exists out, cv_image K im = Ok out /\ length out = length im /\ (forall v, In v out -> fle v 1) /\
      ((forall v, In v im -> fle v 1) -> out = im) /\
      ((exists v, In v im /\ flt K 1 v = true) -> In 1 out) /\
      (forall i j, (i < length im)%nat -> (j < length im)%nat -> nth i out 0 * nth j im 0 = nth j out 0 * nth i im 0).
  Proof.
    intros H. destruct (array_max_ok H) as (m & E & I & M). unfold cv_image. rewrite E. cbn [bind]. destruct (flt K 1 m) eqn:L.
    - assert (P : flt K 0 m = true) by (apply (flt_trans K _ 1); [apply flt_0_1|exact L]). pose proof (pos_neq0 P) as N. eexists. split; [reflexivity|]. split; [apply map_length|]. split; [|split; [|split]].
      + intros v Hv. apply in_map_iff in Hv. destruct Hv as (u & <- & Hu). replace 1 with (m / m) by (field; exact N). apply fle_div; [apply M; exact Hu|exact P].
      + intros A. specialize (A m I). unfold fle in A. congruence.
      + intros _. apply in_map_iff. exists m. split; [field; exact N|exact I].
      + intros i j Hi Hj. rewrite (@nth_mapd _ _ _ im i 0 0 Hi), (@nth_mapd _ _ _ im j 0 0 Hj). field. exact N.
    - exists im. split; [reflexivity|]. split; [reflexivity|]. split; [|split; [|split]].
      + intros v Hv. eapply fle_trans; [apply M; exact Hv|exact L].
      + reflexivity.
      + intros (v & Hv & B). exfalso. pose proof (@flt_le_trans K _ _ _ B (M v Hv)). congruence.
      + intros i j _ _. ring.
  Qed.
End Shown.
Print Assumptions C107_range.
Print Assumptions C107_swap.
Print Assumptions C107_equal.
Print Assumptions C107_light.
Print Assumptions C107_flicker.
Print Assumptions C107_sizes.
Print Assumptions C107_cv.

Definition showf (r : res (list (fval QcO))) := match r with Ok l => Ok (map (fun v : fval QcO => match v with Fin v => Some (this v) | NonFin => None end) l) | Raise e => Raise e end.
Example C107_example :
  showf (diff_image QcO false [q 4; q 0; q 3] [q 1; q 2; q 3]) = Ok [Some (7 # 8); Some (1 # 4); Some (1 # 2)]%Q /\
  showf (diff_image QcO false [q 0; q 0] [q 0; q 0]) = Ok [None; None] /\
  showf (diff_image QcO true [q 1; q 3] [q 10; q 30]) = Ok [Some (1 # 2); Some (1 # 2)]%Q /\
  showf (diff_image QcO false [] []) = Raise ValueError /\
  match cv_image QcO [q 1; q 4] with Ok l => map this l = [1 # 4; 1 # 1]%Q | _ => False end.
Proof. repeat split; vm_compute; reflexivity. Qed.
