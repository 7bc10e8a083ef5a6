(** C84 with real numbers, square root and arctangent. *)
From Coq Require Import Reals Lra Psatz Permutation.
From Verif Require Import Base Ordered Prop_AvgReals Archimedean MapModel MapProofs Fft2Proofs SectorModel SectorProofs SectorProofs2 SectorProofs3 ViewerModel ViewerProofs ViewerApart Prop_Sector Prop_SectorReals Prop_Viewer.
Set Implicit Arguments.
Open Scope R_scope.

Ltac rring := match goal with |- ?a = ?b => change (@eq R a b) end; field.
Lemma arctan2_turned : turned RO PI arctan2.
Proof.
  intros y x H. change (fopp RO y) with (- y). change (fopp RO x) with (- x). change (fadd RO (arctan2 y x) PI) with (arctan2 y x + PI). change (fsub RO (arctan2 y x) PI) with (arctan2 y x - PI).
  change (y <> 0 \/ x <> 0) in H. unfold arctan2.
  destruct (Rlt_dec 0 x) as [P|P].
  - destruct (Rlt_dec 0 (- x)); [lra|]. destruct (Rlt_dec (- x) 0); [|lra]. replace (- y / - x) with (y / x) by (field; lra). destruct (Rlt_dec 0 (- y)); [left|right]; rring.
  - destruct (Rlt_dec x 0) as [N|N].
    + destruct (Rlt_dec 0 (- x)); [|lra]. replace (- y / - x) with (y / x) by (field; lra). destruct (Rlt_dec 0 y); [right|left]; rring.
    + assert (x = 0) by lra. subst x. destruct (Rlt_dec 0 (- 0)); [lra|]. destruct (Rlt_dec (- 0) 0); [lra|].
      destruct (Rlt_dec 0 (- y)), (Rlt_dec (- y) 0), (Rlt_dec 0 y), (Rlt_dec y 0); try (exfalso; lra); solve [left; rring|right; rring].
Qed.
Lemma arctan2_in_range : in_range RO PI arctan2.
Proof. intros y x. pose proof (arctan2_range y x). split; [apply RO_le|apply RO_lt]; cbn; lra. Qed.

(** Data of the half plane of a plane of odd sizes; all pixels or those of the computed mask: the viewer shows the mean over all computed wave vectors of the full plane that have the index. *)
Theorem C84_real A (cj : A -> A) (mean : list A -> A) (kmean : list R -> R) junk (F x : mat A) c shape k (angle sector kstep : R) :
  (mh F mod 2 = 1)%nat -> (mw F mod 2 = 1)%nat -> hermitian cj F -> half_of F x -> as_fft2_shape (Some (Z.of_nat (mh x))) (Some (Z.of_nat (mw x))) shape = Ok (Z.of_nat (mh F), Z.of_nat (mw F)) ->
  match shape with None => True | Some (h, w) => (1 <= h)%Z /\ (1 <= w)%Z end -> mask_fits x c -> any_order mean -> -180 <= angle <= 180 -> 0 < sector <= 180 -> 0 < kstep -> (0 <= k)%Z ->
  exists v0 v kmap anglemap z ok, fft2_kangle RO hypot arctan2 (Some (Z.of_nat (mh F))) (Some (Z.of_nat (mw F))) shape = Ok (kmap, anglemap) /\
    fft2_sector_indexmap RO PI rfloor kmap anglemap angle sector kstep = Ok z /\ mh z = mh F /\ mw z = mw F /\
    set_data (viewer_init RO A shape c) (Full x) = Ok v0 /\ @set_mask RO PI rfloor hypot arctan2 A junk v0 k angle sector kstep = Ok (v, ok) /\ (ok = true <-> in_view z c k <> []) /\
    @get_k RO A kmean v = Ok (kmean (map (at2 kmap) (in_view z c k))) /\ get_data cj mean v = Ok (mean (map (at2 F) (in_view z c k))).
Proof.
  intros Oh Ow He Hf Es G Fc Ho A1 S1 Hk K0.
  assert (P : right_parameters RO angle sector kstep shape). { unfold right_parameters. rewrite !fZ_R. repeat split; try (apply RO_le; cbn; lra); try (apply RO_lt; cbn; lra). exact G. }
  assert (Nh : (1 <= mh F)%nat) by (destruct (mh F); [discriminate Oh|lia]). assert (Nw : (1 <= mw F)%nat) by (destruct (mw F); [discriminate Ow|lia]).
  destruct (@C84_average RO PI rfloor hypot arctan2 A cj mean kmean junk F x c shape k angle sector kstep) as (v0 & v & kmap & anglemap & z & ok & E1 & E2 & Z1 & Z2 & Ed & Em & Eo & Ek & Eg); try assumption.
  { apply rfloor_ok. } { intros a b. apply RO_le. apply hypot_pos. }
  exists v0, v, kmap, anglemap, z, ok. do 8 (split; [assumption|]). apply Eg.
  apply (@C84_apart RO PI rfloor hypot arctan2 (mh F) (mw F) kmap anglemap z shape angle sector kstep k); try assumption.
  { apply RO_lt. exact PI_RGT_0. } { apply rfloor_ok. } { intros a b. apply RO_le. apply hypot_pos. } { exact arctan2_turned. } { exact arctan2_in_range. }
Qed.
Print Assumptions C84_real.
(** One pixel, with its mask *)
Example C84_real_example : let F := Mat 1 1 (fun _ _ => 5) in half_of F F /\ hermitian (fun z : R => z) F /\ as_fft2_shape (Some 1%Z) (Some 1%Z) None = Ok (1, 1)%Z /\ mask_fits F (Some (Mat 1 1 (fun _ _ => true))) /\
  any_order (fun l : list R => fold_right Rplus 0 l).
Proof.
  cbv zeta. split; [repeat split; intros [|i] [|j]; intros; reflexivity|]. split; [intros ki kj; reflexivity|]. split; [reflexivity|]. split; [split; reflexivity|].
  intros l l' H. induction H; cbn [fold_right]; try lra.
Qed.
