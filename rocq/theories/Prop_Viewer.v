(** C84: what the viewers compute. *)
From Coq Require Import String ZifyBool ZifyNat Permutation.
From Verif Require Import Base KernelProofs Ordered Archimedean NormModel VideoModel SectorFloor MapModel MapProofs Fft2Proofs SectorModel SectorProofs SectorProofs2 SectorProofs3 SectorProofs4 ViewerModel ViewerProofs Prop_Map Prop_Sector ViewerApart Examples.
Set Implicit Arguments.
Open Scope string_scope.
Open Scope nat_scope.
Local Notation length := List.length.
Ltac Zify.zify_post_hook ::= Z.div_mod_to_equations.

Section C84.
  Variable K : OFld.
  Local Notation fZ := (fZ K).
  Variable pi : K.
  Variable floor : K -> Z.
  Variable hyp arg : K -> K -> K.
  Variable A : Type.
  Variable cj : A -> A.
  Variable mean : list A -> A.
  Variable kmean : list K -> K.
  Variable junk : nat -> nat -> bool.
  Local Notation set_mask := (set_mask pi floor hyp arg junk).
  Local Notation get_data := (get_data cj mean).
  Local Notation get_k := (get_k kmean).
  Local Notation viewer_init := (viewer_init K A).

  (** [x] is the half plane (columns 0 ... width/2) of the data [F] of the full plane. *)
  Definition half_of (F x : mat A) : Prop :=
    mh x = mh F /\ mw x = mw F / 2 + 1 /\ forall i j, i < mh x -> j < mw x -> mat_at x i j = mat_at F i j.
  (** A wave vector of the full plane was computed: the mask of the half plane has it or its opposite. *)
  Definition was_computed (h w : nat) (c : option (mat bool)) (p : nat * nat) : bool :=
    match c with
    | None => true
    | Some c => if 2 * snd p <? w then mat_at c (fst p) (snd p) else mat_at c (freq h (- Z.of_nat (fst p))) (freq w (- Z.of_nat (snd p)))
    end.
  (** The wave vectors of the full plane that have index [k] and were computed *)
  Definition in_view (z : mat Z) (c : option (mat bool)) (k : Z) : list (nat * nat) :=
    filter (fun p => (mat_at z (fst p) (snd p) =? k)%Z && was_computed (mh z) (mw z) c p) (list_prod (seq 0 (mh z)) (seq 0 (mw z))).
  (** No wave vector (but those of column 0) has index [k] along with its opposite, and none of the column that is its own opposite has it. *)
  Definition apart (z : mat Z) (k : Z) : Prop := forall i j, i < mh z -> j < mw z -> mat_at z i j = k -> j <> 0 ->
    at_freq z (- Z.of_nat i) (- Z.of_nat j) <> k /\ 2 * j <> mw z.
  Definition mask_fits (x : mat A) (c : option (mat bool)) : Prop := match c with None => True | Some c => mh c = mh x /\ mw c = mw x end.
  Definition any_order : Prop := forall l l', Permutation l l' -> mean l = mean l'.

  Lemma filter_map_swap B D (f : B -> bool) (g : D -> B) l : filter f (map g l) = map g (filter (fun d => f (g d)) l).
  Proof. induction l as [|x l IH]; [reflexivity|]. cbn. destruct (f (g x)); cbn; rewrite IH; reflexivity. Qed.
  Lemma existsb_filter B (f : B -> bool) l : existsb (fun b => b) (map f l) = true <-> filter f l <> [].
  Proof.
    induction l as [|x l IH]; cbn; [split; congruence|]. destruct (f x); cbn; [|exact IH]. split; [discriminate|reflexivity].
  Qed.
  Lemma conjugated_map (x : nat * nat -> A) (b : nat * nat -> bool) l : conjugated cj (map x l) (map b l) = map (fun p => if b p then cj (x p) else x p) l.
  Proof. unfold conjugated. induction l as [|p l IH]; [reflexivity|]. cbn [map combine fst snd]. rewrite IH. reflexivity. Qed.

  (** The masks that set_mask computes from the map [z] of indices *)
  Section Masks.
    Variable z : mat Z.
    Variable k : Z.
    Variable c : option (mat bool).
    Variable shape : option (Z * Z).
    Hypothesis Hh : 1 <= mh z.
    Hypothesis Hw : 1 <= mw z.
    Let mask := Mat (mh z) (mw z) (fun i j => (mat_at z i j =? k)%Z).
    Let wh := mw z / 2 + 1.
    Lemma at2_mask p : at2 mask p = (at2 z p =? k)%Z.
    Proof using. reflexivity. Qed.
    Lemma half_masks : exists half cm, as_rfft2_mask mask = Ok half /\ as_rfft2_conj false mask = Ok cm /\ mh half = mh z /\ mw half = wh /\ mh cm = mh z /\ mw cm = wh /\
      (forall p, In p (cells (mh z) wh) -> at2 half p = at2 mask p || at2 cm p) /\
      (forall p, In p (cells (mh z) wh) -> at2 cm p = if snd p =? 0 then false else at2 mask (opposite (mh z) (mw z) p)).
    Proof using Hh Hw.
      destruct (as_rfft2_data_ok mask Hw) as (m1 & E1 & R1 & C1 & V1). destruct (as_rfft2_conj_ok false mask Hh Hw) as (m2 & E2 & R2 & C2 & V2).
      unfold as_rfft2_mask. rewrite E1, E2. cbn [bind]. do 2 eexists. split; [reflexivity|]. split; [reflexivity|]. cbn [mh mw] in *. repeat (split; [assumption|]). split.
      - intros p Hp. apply in_cells in Hp. unfold at2. cbn [mat_at]. rewrite V1 by (rewrite ?R1, ?C1; apply Hp). reflexivity.
      - intros p Hp. apply in_cells in Hp. unfold at2 at 1. rewrite V2 by (rewrite ?R2, ?C2; apply Hp). reflexivity.
    Qed.
  End Masks.

  (** Whether the pixel of the half plane was computed *)
  Definition half_computed (c : option (mat bool)) (p : nat * nat) : bool := match c with None => true | Some c => at2 c p end.
  Lemma was_computed_ok h w c p : In p (cells h w) -> was_computed h w c p = if snd p <? (w + 1) / 2 then half_computed c p else half_computed c (opposite h w p).
  Proof.
    intros _. unfold was_computed, half_computed, opposite, at2. cbn [fst snd]. destruct c as [c|]; [|destruct (_ <? _); reflexivity].
    destruct (2 * snd p <? w) eqn:E1, (snd p <? (w + 1) / 2) eqn:E2; try reflexivity; exfalso; lia.
  Qed.
  Lemma in_view_chosen z c k : in_view z c k = chosen (mh z) (mw z) (fun p => (at2 z p =? k)%Z) (was_computed (mh z) (mw z) c).
  Proof. reflexivity. Qed.
  Lemma from_computed (x : mat A) (c : mat bool) w shape : 1 <= mh c -> 1 <= w -> mw c = w / 2 + 1 -> as_fft2_shape (Some (Z.of_nat (mh c))) (Some (Z.of_nat (mw c))) shape = Ok (Z.of_nat (mh c), Z.of_nat w) ->
    exists m, from_rfft2_data junk (fun b => b) c shape = Ok m /\ mh m = mh c /\ mw m = w /\ forall p, In p (cells (mh c) w) -> at2 m p = was_computed (mh c) w (Some c) p.
  Proof.
    intros Hh Hw Ew Es. destruct (@from_rfft2_ok bool junk (fun b => b) c shape w Hh Hw Ew Es) as (m & E & M1 & M2 & V). exists m. repeat (split; [assumption|]). intros p Hp. pose proof Hp as Hc. apply in_cells in Hp.
    rewrite was_computed_ok by exact Hc. unfold at2 at 1. rewrite V by (rewrite ?M1; apply Hp). unfold half_computed, opposite, at2. cbn [fst snd]. rewrite freq_minus with (n := w) by lia.
    destruct (snd p <? (w + 1) / 2) eqn:E1; [reflexivity|]. replace (snd p =? 0) with false by lia. reflexivity.
  Qed.

  (** What set_mask leaves behind *)
  Lemma set_mask_full v (x : mat A) c kmap anglemap z k angle sector kstep : v_data v = Some (Full x) -> v_computed v = c -> mask_fits x c ->
    match v_maps v with Some m => Ok m | None => _init_map hyp arg v end = Ok (kmap, anglemap) ->
    fft2_sector_indexmap K pi floor kmap anglemap angle sector kstep = Ok z -> 1 <= mh z -> 1 <= mw z -> mh x = mh z -> mw x = mw z / 2 + 1 ->
    as_fft2_shape (Some (Z.of_nat (mh x))) (Some (Z.of_nat (mw x))) (v_shape v) = Ok (Z.of_nat (mh z), Z.of_nat (mw z)) ->
    exists mask half cm v' ok, set_mask v k angle sector kstep = Ok (v', ok) /\ v_data v' = v_data v /\ v_maps v' = Some (kmap, anglemap) /\ v_masks v' = Some (Masks (Full mask) (Full half) (Full cm)) /\
      (ok = true <-> in_view z c k <> []) /\ mh mask = mh z /\ mw mask = mw z /\ mh half = mh x /\ mw half = mw x /\ mh cm = mh x /\ mw cm = mw x /\
      (forall p, In p (cells (mh z) (mw z)) -> at2 mask p = (at2 z p =? k)%Z && was_computed (mh z) (mw z) c p) /\
      (forall p, In p (cells (mh x) (mw x)) -> at2 cm p = (if snd p =? 0 then false else (at2 z (opposite (mh z) (mw z) p) =? k)%Z) && half_computed c p) /\
      (forall p, In p (cells (mh x) (mw x)) -> at2 half p = (((at2 z p =? k)%Z || if snd p =? 0 then false else (at2 z (opposite (mh z) (mw z) p) =? k)%Z) && half_computed c p)).
  Proof.
    intros Ed Ec Fc Em Ez Hh Hw X1 X2 Es. unfold ViewerModel.set_mask. rewrite Em. cbn [bind]. rewrite Ez. cbn [bind].
    destruct (half_masks z k Hh Hw) as (half & cm & E1 & E2 & H1 & H2 & C1 & C2 & Vh & Vc). rewrite E1, E2. cbn [bind]. rewrite Ec, Ed.
    assert (EX : forall (m : mat bool) (g : nat * nat -> bool), mh m = mh z -> mw m = mw z -> (forall p, In p (cells (mh z) (mw z)) -> at2 m p = g p) ->
      existsb (fun b => b) (all_entries m) = true <-> filter g (cells (mh z) (mw z)) <> []).
    { intros m g M1 M2 V. rewrite entries_cells, existsb_filter, M1, M2. rewrite (filter_ext_in _ _ _ V). reflexivity. }
    destruct c as [c|].
    - cbn [mask_fits] in Fc. destruct Fc as [F1 F2]. unfold is_full. rewrite F1, F2, !Nat.eqb_refl. cbn [andb].
      destruct (@from_computed x c (mw z) (v_shape v)) as (full & Ef & G1 & G2 & Vf); [lia|exact Hw|lia|rewrite F1, F2, Es; do 2 f_equal; lia|].
      destruct (@mat_and_ok half c) as (half' & A1 & B1 & B2 & B); [lia|lia|]. rewrite A1. cbn [bind]. rewrite Ef. cbn [bind].
      match goal with |- context [mat_and ?m full] => destruct (@mat_and_ok m full) as (mask' & A2 & D1 & D2 & D) end; [cbn [mh]; lia|cbn [mw]; lia|]. rewrite A2. cbn [bind].
      destruct (@mat_and_ok cm c) as (cm' & A3 & E3 & E4 & E). { lia. } { lia. } rewrite A3. cbn [bind].
      exists mask', half', cm'. do 2 eexists. split; [reflexivity|]. cbn [v_data v_maps v_masks m_mask any_mask mh mw] in *. split; [first [reflexivity|exact Ed]|]. split; [reflexivity|]. split; [reflexivity|].
      assert (VM : forall p, In p (cells (mh z) (mw z)) -> at2 mask' p = (at2 z p =? k)%Z && was_computed (mh z) (mw z) (Some c) p).
      { intros p Hp. rewrite D by exact Hp. rewrite Vf by (rewrite F1, X1; exact Hp). rewrite F1, X1. reflexivity. }
      split; [apply EX; assumption|]. do 6 (split; [lia|]). split; [exact VM|]. split; intros p Hp.
      + rewrite E by (rewrite C1, C2, <- X1, <- X2; exact Hp). rewrite Vc by (rewrite <- X1, <- X2; exact Hp). reflexivity.
      + rewrite B by (rewrite H1, H2, <- X1, <- X2; exact Hp). rewrite Vh by (rewrite <- X1, <- X2; exact Hp). rewrite Vc by (rewrite <- X1, <- X2; exact Hp). reflexivity.
    - cbn [bind]. do 5 eexists. split; [reflexivity|]. cbn [v_data v_maps v_masks m_mask any_mask mh mw half_computed]. split; [first [reflexivity|exact Ed]|]. split; [reflexivity|]. split; [reflexivity|].
      assert (VM : forall p, In p (cells (mh z) (mw z)) -> at2 (Mat (mh z) (mw z) (fun i j => (mat_at z i j =? k)%Z)) p = (at2 z p =? k)%Z && was_computed (mh z) (mw z) None p).
      { intros p Hp. cbn [was_computed]. rewrite andb_true_r. reflexivity. }
      split; [apply EX; [reflexivity|reflexivity|exact VM]|]. do 6 (split; [first [reflexivity|lia|idtac]|]). split; [exact VM|]. split; intros p Hp; rewrite andb_true_r.
      + rewrite Vc by (rewrite <- X1, <- X2; exact Hp). reflexivity.
      + rewrite Vh by (rewrite <- X1, <- X2; exact Hp). rewrite Vc by (rewrite <- X1, <- X2; exact Hp). reflexivity.
  Qed.

  Lemma opposite_F (F : mat A) : hermitian cj F -> 1 <= mh F -> 1 <= mw F -> forall p, In p (cells (mh F) (mw F)) -> at2 F (opposite (mh F) (mw F) p) = cj (at2 F p).
  Proof.
    intros H Hh Hw p Hp. apply in_cells in Hp. specialize (H (Z.of_nat (fst p)) (Z.of_nat (snd p))). unfold at_freq in H. unfold at2, opposite. cbn [fst snd]. rewrite H.
    f_equal. f_equal; unfold freq; rewrite Z.mod_small by lia; apply Nat2Z.id.
  Qed.
  Lemma apart_single z k : apart z k -> forall p, In p (cells (mh z) (mw z)) -> (at2 z p =? k)%Z = true -> snd p <> 0 ->
    (at2 z (opposite (mh z) (mw z) p) =? k)%Z = false /\ 2 * snd p <> mw z.
  Proof.
    intros H p Hp E N. apply in_cells in Hp. destruct (H (fst p) (snd p)) as [H1 H2]; [lia|lia|unfold at2 in E; lia|exact N|]. split; [|exact H2].
    unfold at_freq in H1. unfold at2, opposite. cbn [fst snd]. lia.
  Qed.

  Lemma Permutation_of_eq B (l l' : list B) : l = l' -> Permutation l l'.
  Proof. intros ->. reflexivity. Qed.

  (** Data of the half plane of a video (all pixels): the viewer shows the mean over the wave vectors of the full plane that have index k and were computed, and the mean of their lengths; set_mask tells whether there are any. *)
  Theorem C84_average (F x : mat A) c shape k angle sector kstep : floors K floor -> (forall a b, fle (f0 K) (hyp a b)) -> 1 <= mh F -> 1 <= mw F -> hermitian cj F -> half_of F x ->
    as_fft2_shape (Some (Z.of_nat (mh x))) (Some (Z.of_nat (mw x))) shape = Ok (Z.of_nat (mh F), Z.of_nat (mw F)) -> right_parameters K angle sector kstep shape -> mask_fits x c -> any_order ->
    exists v0 v kmap anglemap z ok, fft2_kangle K hyp arg (Some (Z.of_nat (mh F))) (Some (Z.of_nat (mw F))) shape = Ok (kmap, anglemap) /\
      fft2_sector_indexmap K pi floor kmap anglemap angle sector kstep = Ok z /\ mh z = mh F /\ mw z = mw F /\
      set_data (viewer_init shape c) (Full x) = Ok v0 /\ set_mask v0 k angle sector kstep = Ok (v, ok) /\ (ok = true <-> in_view z c k <> []) /\
      get_k v = Ok (kmean (map (at2 kmap) (in_view z c k))) /\ (apart z k -> get_data v = Ok (mean (map (at2 F) (in_view z c k)))).
  Proof.
    intros HF Hy Hh Hw He (X1 & X2 & X) Es P Fc Ho. destruct (@maps_ok K pi floor hyp arg (mh F) (mw F) angle sector kstep shape HF Hy Hh Hw P) as (kmap & anglemap & z & E1 & E2 & K1 & K2 & Z1 & Z2 & Z0).
    set (v0 := @Viewer K A shape c (Some (Z.of_nat (mh x))) (Some (Z.of_nat (mw x))) (Some (Full x)) None None : viewer K A).
    assert (E0 : set_data (viewer_init shape c) (Full x) = Ok v0).
    { unfold v0. destruct c as [c|]; [|reflexivity]. cbn [mask_fits] in Fc. destruct Fc as [F1 F2]. unfold set_data, viewer_init. cbn [v_computed v_kisize v_kjsize bind v_shape v_maps v_masks]. rewrite F1, F2. reflexivity. }
    destruct (@set_mask_full v0 x c kmap anglemap z k angle sector kstep) as (mask & half & cm & v & ok & Em & Ed & Emap & Ems & Eok & M1 & M2 & H1 & H2 & C1 & C2 & Vm & Vc & Vh).
    { reflexivity. } { reflexivity. } { exact Fc. } { cbn [v0 v_maps]. unfold _init_map. cbn [v0 v_kisize v_kjsize v_shape]. rewrite Es. cbn [bind]. exact E1. } { exact E2. } { lia. } { lia. } { lia. } { lia. } { cbn [v0 v_shape]. rewrite Es, Z1, Z2. reflexivity. }
    exists v0, v, kmap, anglemap, z, ok. do 7 (split; [assumption|]). split.
    - unfold ViewerModel.get_k. rewrite Ems, Emap. cbn [m_mask]. rewrite mat_select_ok by lia. cbn [bind]. do 2 f_equal. f_equal. rewrite M1, M2. apply filter_ext_in. exact Vm.
    - intros Ap. unfold ViewerModel.get_data. rewrite Ems, Ed. cbn [v0 v_data m_half m_conj kindex]. rewrite !mat_select_ok by lia. cbn [bind]. rewrite conjugated_map. f_equal. apply Ho.
      rewrite in_view_chosen. rewrite H1, H2, X1, X2, <- Z1, <- Z2.
      rewrite <- (@averaged_list A cj (mh z) (mw z) (fun p => (at2 z p =? k)%Z) (was_computed (mh z) (mw z) c) (fun p => (at2 z p =? k)%Z || if snd p =? 0 then false else (at2 z (opposite (mh z) (mw z) p) =? k)%Z)
        (fun p => if snd p =? 0 then false else (at2 z (opposite (mh z) (mw z) p) =? k)%Z) (half_computed c)).
      + unfold half_chosen. rewrite X1, X2, <- Z1, <- Z2 in Vh, Vc. rewrite (filter_ext_in _ _ _ Vh). apply Permutation_of_eq, map_ext_in. intros p Hp. apply filter_In in Hp. destruct Hp as [Hp Hb].
        rewrite Vc by exact Hp. apply andb_prop in Hb. destruct Hb as [_ Hb]. rewrite Hb, andb_true_r.
        assert (Q : at2 x p = at2 F p) by (apply in_cells in Hp; unfold at2; apply X; lia). rewrite Q. reflexivity.
      + lia.
      + lia.
      + reflexivity.
      + reflexivity.
      + intros p Hp. apply was_computed_ok. exact Hp.
      + rewrite Z1, Z2. apply opposite_F; assumption.
      + apply apart_single. exact Ap.
  Qed.
  Print Assumptions C84_average.

  Lemma existsb_map_filter B (f : B -> bool) (g : B -> bool) l : existsb (fun b => b) (map f (filter g l)) = existsb (fun b => b) (map (fun b => f b && g b) l).
  Proof. induction l as [|b l IH]; [reflexivity|]. cbn [filter map existsb]. rewrite <- IH. destruct (g b); cbn [map existsb]; [rewrite andb_true_r|rewrite andb_false_r]; reflexivity. Qed.
  Lemma filter_filter_in B (f g h : B -> bool) l : (forall b, In b l -> h b = f b && g b) -> filter f (filter g l) = filter h l.
  Proof.
    induction l as [|b l IH]; intros H; [reflexivity|]. cbn [filter]. rewrite H by (left; reflexivity). destruct (g b); cbn [filter]; [rewrite andb_true_r|rewrite andb_false_r]; [destruct (f b)|];
      rewrite IH by (intros; apply H; right; assumption); reflexivity.
  Qed.
  Lemma filter_filter_in' B (f f' g : B -> bool) l : (forall b, In b l -> g b = true -> f b = f' b) -> map f (filter g l) = map f' (filter g l).
  Proof. intros H. apply map_ext_in. intros b Hb. apply filter_In in Hb. apply H; apply Hb. Qed.

  (** Data of the computed pixels alone: the same average as from data with all pixels. *)
  Theorem C84_masked (F x : mat A) c shape k angle sector kstep : floors K floor -> (forall a b, fle (f0 K) (hyp a b)) -> 1 <= mh F -> 1 <= mw F -> half_of F x ->
    as_fft2_shape (Some (Z.of_nat (mh x))) (Some (Z.of_nat (mw x))) shape = Ok (Z.of_nat (mh F), Z.of_nat (mw F)) -> right_parameters K angle sector kstep shape -> mh c = mh x -> mw c = mw x ->
    exists v0 v u0 u ok, set_data (viewer_init shape (Some c)) (Full x) = Ok v0 /\ set_mask v0 k angle sector kstep = Ok (v, ok) /\
      set_data (viewer_init shape (Some c)) (Masked (select (all_entries x) (all_entries c))) = Ok u0 /\ set_mask u0 k angle sector kstep = Ok (u, ok) /\
      get_data u = get_data v /\
      (length (filter (was_computed (mh F) (mw F) (Some c)) (list_prod (seq 0 (mh F)) (seq 0 (mw F)))) <> mh F -> get_k u = Raise IndexError).
  Proof.
    intros HF Hy Hh Hw (X1 & X2 & X) Es P F1 F2. destruct (@maps_ok K pi floor hyp arg (mh F) (mw F) angle sector kstep shape HF Hy Hh Hw P) as (kmap & anglemap & z & E1 & E2 & K1 & K2 & Z1 & Z2 & Z0).
    set (v0 := @Viewer K A shape (Some c) (Some (Z.of_nat (mh c))) (Some (Z.of_nat (mw c))) (Some (Full x)) None None).
    set (u0 := @Viewer K A shape (Some c) (Some (Z.of_nat (mh c))) (Some (Z.of_nat (mw c))) (Some (Masked (select (all_entries x) (all_entries c)))) None None).
    assert (Em0 : _init_map hyp arg v0 = Ok (kmap, anglemap)). { unfold _init_map. cbn [v0 v_kisize v_kjsize v_shape]. rewrite F1, F2, Es. cbn [bind]. exact E1. }
    destruct (@half_masks z k) as (half & cm & E3 & E4 & H1 & H2 & C1 & C2 & Vh & Vc); [lia|lia|].
    destruct (@from_computed x c (mw z) shape) as (full & Ef & G1 & G2 & Vf); [lia|lia|lia|rewrite F1, F2, Es; do 2 f_equal; lia|].
    set (mask := Mat (mh z) (mw z) (fun i j => (mat_at z i j =? k)%Z)) in *.
    destruct (@mat_and_ok half c) as (half' & A1 & B1 & B2 & B); [lia|lia|]. destruct (@mat_and_ok cm c) as (cm' & A3 & D3 & D4 & D). { lia. } { lia. }
    destruct (@mat_and_ok mask full) as (mask' & A2 & Q1 & Q2 & Q); [cbn [mask mh]; lia|cbn [mask mw]; lia|].
    assert (Sv : set_mask v0 k angle sector kstep = Ok (@Viewer K A shape (Some c) (Some (Z.of_nat (mh c))) (Some (Z.of_nat (mw c))) (Some (Full x)) (Some (kmap, anglemap)) (Some (Masks (Full mask') (Full half') (Full cm'))), existsb (fun b => b) (all_entries mask'))).
    { unfold ViewerModel.set_mask. cbn [v0 v_maps]. rewrite Em0. cbn [bind]. rewrite E2. cbn [bind]. fold mask. rewrite E3, E4. cbn [bind]. subst v0. cbn [v_computed v_data is_full v_shape v_kisize v_kjsize]. rewrite F1, F2, !Nat.eqb_refl. cbn [andb]. rewrite A1. cbn [bind v_shape v_kisize v_kjsize]. rewrite Ef. cbn [bind]. rewrite A2. cbn [bind]. rewrite A3. reflexivity. }
    assert (Su : set_mask u0 k angle sector kstep = Ok (@Viewer K A shape (Some c) (Some (Z.of_nat (mh c))) (Some (Z.of_nat (mw c))) (v_data u0) (Some (kmap, anglemap))
      (Some (Masks (Masked (map (at2 mask) (filter (at2 full) (cells (mh full) (mw full))))) (Masked (map (at2 half) (filter (at2 c) (cells (mh c) (mw c))))) (Masked (map (at2 cm) (filter (at2 c) (cells (mh c) (mw c))))))),
      existsb (fun b => b) (map (at2 mask) (filter (at2 full) (cells (mh full) (mw full)))))).
    { unfold ViewerModel.set_mask. change (_init_map hyp arg u0) with (_init_map hyp arg v0). cbn [u0 v_maps]. rewrite Em0. cbn [bind]. rewrite E2. cbn [bind]. fold mask. rewrite E3, E4. cbn [bind]. subst u0 v0. cbn [v_computed v_data is_full v_shape v_kisize v_kjsize]. rewrite Ef. cbn [bind]. rewrite A2. cbn [bind].
      rewrite !mat_select_ok by (cbn [mask mh mw]; lia). reflexivity. }
    exists v0. do 1 eexists. exists u0. do 2 eexists. split; [reflexivity|]. split; [exact Sv|]. split; [reflexivity|]. split.
    { rewrite Su. do 2 f_equal. rewrite existsb_map_filter, entries_cells, G1, G2, Q1, Q2, F1, X1, <- Z1. cbn [mask mh mw]. f_equal. apply map_ext_in. intros p Hp. symmetry. apply Q. exact Hp. }
    split.
    - unfold ViewerModel.get_data. cbn [u0 v_data v_masks m_half m_conj kindex]. rewrite !mat_select_ok by lia. rewrite !entries_cells, F1, F2, select_map. rewrite !list_select_map. cbn [bind]. rewrite !conjugated_map. do 2 f_equal.
      assert (L1 : mh half' = mh x) by lia. assert (L2 : mw half' = mw x) by lia. assert (L3 : mh half = mh x) by lia. assert (L4 : mw half = mw x) by lia. assert (L5 : mh cm = mh x) by lia. assert (L6 : mw cm = mw x) by lia.
      rewrite L1, L2. rewrite L3, L4 in B. rewrite L5, L6 in D. rewrite (@filter_filter_in _ (at2 half) (at2 c) (at2 half')) by (intros b Hb; apply B; exact Hb).
      apply map_ext_in. intros p Hp. apply filter_In in Hp. destruct Hp as [Hp Hb]. rewrite D by exact Hp. rewrite B in Hb by exact Hp. apply andb_prop in Hb. destruct Hb as [_ ->]. rewrite andb_true_r. reflexivity.
    - intros N. unfold ViewerModel.get_k. cbn [v_masks v_maps m_mask]. unfold list_select. rewrite map_length, seq_length, G1, G2, K1.
      rewrite F1, X1 in *. rewrite Z2 in *. rewrite (filter_ext_in _ _ _ Vf). unfold cells. destruct (Nat.eqb_spec (mh F) (length (filter (was_computed (mh F) (mw F) (Some c)) (list_prod (seq 0 (mh F)) (seq 0 (mw F)))))) as [E|E]; [congruence|reflexivity].
  Qed.
  Print Assumptions C84_masked.

  (** Data of another size than the computed mask is taken, but its average is refused with an IndexError. *)
  Theorem C84_sizes_refuted (F x x' : mat A) c shape k angle sector kstep : floors K floor -> (forall a b, fle (f0 K) (hyp a b)) -> 1 <= mh F -> 1 <= mw F -> half_of F x ->
    as_fft2_shape (Some (Z.of_nat (mh x))) (Some (Z.of_nat (mw x))) shape = Ok (Z.of_nat (mh F), Z.of_nat (mw F)) -> right_parameters K angle sector kstep shape -> mh c = mh x -> mw c = mw x ->
    (mh x' <> mh c \/ mw x' <> mw c) -> length (filter (at2 c) (list_prod (seq 0 (mh c)) (seq 0 (mw c)))) <> mw x' ->
    exists u0 u ok, set_data (viewer_init shape (Some c)) (Full x') = Ok u0 /\ set_mask u0 k angle sector kstep = Ok (u, ok) /\ get_data u = Raise IndexError.
  Proof.
    intros HF Hy Hh Hw (X1 & X2 & X) Es P F1 F2 Hne _. destruct (@maps_ok K pi floor hyp arg (mh F) (mw F) angle sector kstep shape HF Hy Hh Hw P) as (kmap & anglemap & z & E1 & E2 & K1 & K2 & Z1 & Z2 & Z0).
    set (u0 := @Viewer K A shape (Some c) (Some (Z.of_nat (mh c))) (Some (Z.of_nat (mw c))) (Some (Full x')) None None).
    assert (Em0 : _init_map hyp arg u0 = Ok (kmap, anglemap)). { unfold _init_map. cbn [u0 v_kisize v_kjsize v_shape]. rewrite F1, F2, Es. cbn [bind]. exact E1. }
    destruct (@half_masks z k) as (half & cm & E3 & E4 & H1 & H2 & C1 & C2 & Vh & Vc); [lia|lia|].
    destruct (@from_computed x c (mw z) shape) as (full & Ef & G1 & G2 & Vf); [lia|lia|lia|rewrite F1, F2, Es; do 2 f_equal; lia|].
    set (mask := Mat (mh z) (mw z) (fun i j => (mat_at z i j =? k)%Z)) in *.
    destruct (@mat_and_ok mask full) as (mask' & A2 & Q1 & Q2 & Q); [cbn [mask mh]; lia|cbn [mask mw]; lia|].
    exists u0. eexists. eexists. split; [reflexivity|]. split.
    - unfold ViewerModel.set_mask. cbn [u0 v_maps]. rewrite Em0. cbn [bind]. rewrite E2. cbn [bind]. fold mask. rewrite E3, E4. cbn [bind]. subst u0. cbn [v_computed v_data is_full v_shape v_kisize v_kjsize].
      replace ((mh x' =? mh c) && (mw x' =? mw c)) with false by (destruct (Nat.eqb_spec (mh x') (mh c)), (Nat.eqb_spec (mw x') (mw c)); cbn [andb]; try reflexivity; lia).
      rewrite Ef. cbn [bind]. rewrite A2. cbn [bind]. rewrite !mat_select_ok by (cbn [mask mh mw]; lia). reflexivity.
    - reflexivity.
  Qed.
  Print Assumptions C84_sizes_refuted.
  (** With data of the computed pixels alone the wave number comes from rows of the map: if there are as
      many computed pixels as rows, row i is taken when pixel i of the computed ones is in the mask. *)
  Theorem C84_rows_refuted (v : viewer K A) m kmap anglemap mask : v_masks v = Some m -> v_maps v = Some (kmap, anglemap) -> m_mask m = Masked mask -> length mask = mh kmap ->
    get_k v = Ok (kmean (map (at2 kmap) (filter (fun p => nth (fst p) mask false) (list_prod (seq 0 (mh kmap)) (seq 0 (mw kmap)))))).
  Proof using.
    clear cj mean junk pi floor hyp arg. intros Em Ek Emm L. unfold ViewerModel.get_k. rewrite Em, Ek, Emm. unfold list_select. rewrite seq_length, L, Nat.eqb_refl. cbn [bind]. do 2 f_equal. clear Em Ek Emm.
    revert L. generalize (mh kmap) as h. intros h L. subst h.
    assert (G : forall l s f, (forall i, i < length l -> f (Nat.add s i) = nth i l false) -> flat_map (fun i => map (mat_at kmap i) (seq 0 (mw kmap))) (map fst (filter snd (combine (seq s (length l)) l))) = map (at2 kmap) (filter (fun p => f (fst p)) (list_prod (seq s (length l)) (seq 0 (mw kmap))))).
    { induction l as [|b l IH]; intros s f Hf; [reflexivity|]. cbn [length seq combine filter snd list_prod]. rewrite filter_app, map_app. rewrite <- (IH (S s) f) by (intros i Hi; specialize (Hf (S i) ltac:(cbn; lia)); cbn [nth] in Hf; rewrite <- Hf; f_equal; lia).
      specialize (Hf 0 ltac:(cbn; lia)). rewrite Nat.add_0_r in Hf. cbn [nth] in Hf.
      assert (Q : forall l', filter (fun p : nat * nat => f (fst p)) (map (fun y => (s, y)) l') = if b then map (fun y => (s, y)) l' else []).
      { induction l' as [|y l' IH']; [destruct b; reflexivity|]. cbn [map filter fst]. rewrite IH', Hf. destruct b; reflexivity. }
      rewrite Q. destruct b; cbn [map flat_map fst app]; [|reflexivity]. rewrite map_map. reflexivity. }
    apply (G mask 0 (fun i => nth i mask false)). intros i Hi. reflexivity.
  Qed.
  Print Assumptions C84_rows_refuted.

  (** In planes of odd sizes no index that occurs in a sector has opposite wave vectors. *)
  Theorem C84_apart h w kmap anglemap z shape angle sector kstep k : flt K (f0 K) pi = true -> floors K floor -> (forall a b, fle (f0 K) (hyp a b)) ->
    turned K pi arg -> in_range K pi arg -> h mod 2 = 1 -> w mod 2 = 1 -> right_parameters K angle sector kstep shape ->
    fft2_kangle K hyp arg (Some (Z.of_nat h)) (Some (Z.of_nat w)) shape = Ok (kmap, anglemap) -> fft2_sector_indexmap K pi floor kmap anglemap angle sector kstep = Ok z -> (0 <= k)%Z ->
    mh z = h -> mw z = w -> apart z k.
  Proof using.
    clear cj mean kmean junk.
    intros Hpi HF Hy Ht Hr Oh Ow P Ek Ez K0 Z1 Z2 i j Hi Hj E N. split.
    - apply (@odd_apart K pi Hpi floor hyp arg h w kmap anglemap z shape angle sector kstep k HF Hy Ht Hr Oh Ow P Ek Ez K0); try assumption; try lia. congruence.
    - lia.
  Qed.
  Print Assumptions C84_apart.

  (** Without data or without a mask there is nothing to show. *)
  Theorem C84_refused shape (v : viewer K A) l k angle sector kstep : set_data (viewer_init shape None) (Masked l) = Raise ValueError /\
    ((v_data v = None \/ v_masks v = None) -> get_data v = Raise ValueError) /\ (v_masks v = None -> get_k v = Raise ValueError) /\
    (v_maps v <> None -> (flt K angle (fopp K (fZ 180)) = true \/ flt K (fZ 180) angle = true \/ fle sector (f0 K) \/ flt K (fZ 180) sector = true) -> set_mask v k angle sector kstep = Raise ValueError).
  Proof.
    split; [reflexivity|]. split; [|split].
    - unfold ViewerModel.get_data. intros [->| ->]; [reflexivity|]. destruct (v_data v); reflexivity.
    - unfold ViewerModel.get_k. intros ->. reflexivity.
    - intros Hm H. unfold ViewerModel.set_mask. destruct (v_maps v) as [[kmap anglemap]|]; [|congruence]. cbn [bind]. unfold fft2_sector_indexmap.
      assert (Q : (flt K angle (fopp K (fZ 180)) || flt K (fZ 180) angle) || (fleb K sector (f0 K) || flt K (fZ 180) sector) = true).
      { apply orb_true_iff. rewrite !orb_true_iff, fleb_true. tauto. }
      destruct (flt K angle (fopp K (fZ 180)) || flt K (fZ 180) angle); [reflexivity|]. cbn [orb] in Q. rewrite Q. reflexivity.
  Qed.
  Print Assumptions C84_refused.

  (** New data of another size: the maps of the first size stay, and the average is refused with an IndexError, whether the mask is set again or not. *)
  Theorem C84_stale_refuted (F x x' : mat A) shape k k' angle sector kstep angle' sector' kstep' : floors K floor -> (forall a b, fle (f0 K) (hyp a b)) -> 1 <= mh F -> 1 <= mw F -> half_of F x ->
    as_fft2_shape (Some (Z.of_nat (mh x))) (Some (Z.of_nat (mw x))) shape = Ok (Z.of_nat (mh F), Z.of_nat (mw F)) -> right_parameters K angle sector kstep shape -> right_parameters K angle' sector' kstep' shape ->
    (mh x' <> mh x \/ mw x' <> mw x) ->
    exists v0 v ok v1 v2 ok', set_data (viewer_init shape None) (Full x) = Ok v0 /\ set_mask v0 k angle sector kstep = Ok (v, ok) /\ set_data v (Full x') = Ok v1 /\ get_data v1 = Raise IndexError /\
      set_mask v1 k' angle' sector' kstep' = Ok (v2, ok') /\ get_data v2 = Raise IndexError.
  Proof.
    intros HF Hy Hh Hw (X1 & X2 & X) Es P P' Hne.
    destruct (@maps_ok K pi floor hyp arg (mh F) (mw F) angle sector kstep shape HF Hy Hh Hw P) as (kmap & anglemap & z & E1 & E2 & K1 & K2 & Z1 & Z2 & Z0).
    destruct (@maps_ok K pi floor hyp arg (mh F) (mw F) angle' sector' kstep' shape HF Hy Hh Hw P') as (kmap' & anglemap' & z' & E1' & E2' & _ & _ & Z1' & Z2' & _).
    assert (kmap' = kmap /\ anglemap' = anglemap) as [-> ->] by (rewrite E1 in E1'; injection E1'; auto).
    destruct (@half_masks z k) as (half & cm & M3 & M4 & H1 & H2 & C1 & C2 & _ & _); [lia|lia|]. destruct (@half_masks z' k') as (half' & cm' & M3' & M4' & H1' & H2' & C1' & C2' & _ & _); [lia|lia|].
    exists (@Viewer K A shape None (Some (Z.of_nat (mh x))) (Some (Z.of_nat (mw x))) (Some (Full x)) None None). do 5 eexists. split; [reflexivity|]. split.
    { unfold ViewerModel.set_mask. cbn [v_maps]. unfold _init_map. cbn [v_kisize v_kjsize v_shape]. rewrite Es. cbn [bind]. rewrite E1. cbn [bind]. rewrite E2. cbn [bind]. rewrite M3, M4. cbn [bind v_computed]. reflexivity. }
    split; [reflexivity|]. split.
    { unfold ViewerModel.get_data. cbn [v_data v_masks m_half kindex]. rewrite mat_select_bad by lia. reflexivity. }
    split.
    { unfold ViewerModel.set_mask. cbn [v_maps bind]. rewrite E2'. cbn [bind]. rewrite M3', M4'. cbn [bind v_computed]. reflexivity. }
    unfold ViewerModel.get_data. cbn [v_data v_masks m_half kindex]. rewrite mat_select_bad by lia. reflexivity.
  Qed.
  Print Assumptions C84_stale_refuted.

  (** Viewers of correlation data: what is shown is what a viewer shows of data normalized, folded and averaged beforehand, pixel by pixel. *)
  Definition pixelwise {P B} (f : P -> B) (data : kdata P) : kdata B :=
    match data with Full x => Full (Mat (mh x) (mw x) (fun i j => f (mat_at x i j))) | Masked l => Masked (map f l) end.
  Lemma select_mapl P B (f : P -> B) l m : select (map f l) m = map f (select l m).
  Proof. unfold select. revert m. induction l as [|p l IH]; intros m; [reflexivity|]. destruct m as [|b m]; [reflexivity|]. cbn [map combine filter snd]. destruct b; cbn [map fst]; rewrite IH; reflexivity. Qed.
  Lemma kindex_pixelwise P B (f : P -> B) data m : kindex (pixelwise f data) m = let* l := kindex data m in Ok (map f l).
  Proof.
    destruct data as [x|l], m as [m|m]; try reflexivity; cbn [pixelwise kindex].
    - unfold mat_select. cbn [mh mw]. destruct (_ && _); [|reflexivity]. cbn [bind]. rewrite <- select_mapl. do 2 f_equal. rewrite !entries_cells. cbn [mh mw]. rewrite map_map. reflexivity.
    - unfold list_select. rewrite map_length. destruct (_ =? _); [|reflexivity]. cbn [bind]. rewrite select_mapl. reflexivity.
  Qed.
  Theorem C84_corr P (normalize : P -> res A) (n : P -> A) (fold_data average : A -> A) m (data : kdata P) B D (bg : statarg B) (var : statarg D) iscomplex fold f (v : viewer K A) :
    (forall p, normalize p = Ok (n p)) -> folded iscomplex bg var fold = Ok f -> v_data v = Some (pixelwise (fun p => average (if f then fold_data (n p) else n p)) data) -> v_masks v = Some m ->
    corr_get_data cj mean normalize fold_data average m data iscomplex bg var fold = get_data v.
  Proof.
    intros Hn Hf Hd Hm. unfold corr_get_data, ViewerModel.get_data. rewrite Hd, Hm, kindex_pixelwise. destruct (kindex data (m_half m)) as [l|e]; [|reflexivity]. cbn [bind].
    assert (E : forall l, map_res_v normalize l = Ok (map n l)). { clear - Hn. induction l as [|p l IH]; [reflexivity|]. cbn [map_res_v map]. rewrite Hn. cbn [bind]. rewrite IH. reflexivity. }
    rewrite E. cbn [bind]. rewrite Hf. cbn [bind]. destruct f; rewrite ?map_map; reflexivity.
  Qed.
  Print Assumptions C84_corr.
End C84.

(** Complex data is folded if there are two backgrounds or variances, or if the option is given, with whatever value: fold=False folds too. *)
Theorem C84_fold B D (bg : statarg B) (var : statarg D) fold :
  (folded false bg var fold = Ok false) /\
  (folded true bg var fold = Ok true <-> (exists a b, bg = STwo a b) \/ (exists a b, var = STwo a b) \/ fold <> None) /\
  (folded true bg var fold = Raise ValueError <-> bg = SNone /\ var = SNone /\ fold = None).
Proof.
  split; [reflexivity|]. unfold folded. destruct bg as [|a|a b], var as [|a'|a' b'], fold as [f|]; cbn; split; split; intros H; try reflexivity; try discriminate H;
    try (right; right; discriminate); try (left; eauto; fail); try (right; left; eauto; fail); try tauto;
    try (destruct H as [(? & ? & H)|[(? & ? & H)|H]]; [discriminate H|discriminate H|congruence]); try (destruct H as (H1 & H2 & H3); discriminate).
Qed.
Print Assumptions C84_fold.
Theorem C84_fold_refuted B D : folded true (SNone (X := B)) (SNone (X := D)) (Some false) = Ok true /\ folded true (SNone (X := B)) (SNone (X := D)) None = Raise ValueError.
Proof. split; reflexivity. Qed.
Print Assumptions C84_fold_refuted.

(** Representation of complex values; blanks around the mode and capitals do not count. *)
Theorem C84_repr (K : Fld) abs arctan2 (z : Cx K) mode :
  (lower (strip mode) = "real" -> data_repr abs arctan2 z mode = Ok (cre z)) /\ (lower (strip mode) = "imag" -> data_repr abs arctan2 z mode = Ok (cim z)) /\
  (lower (strip mode) = "abs" -> data_repr abs arctan2 z mode = Ok (abs z)) /\ (lower (strip mode) = "phase" -> data_repr abs arctan2 z mode = Ok (arctan2 (cim z) (cre z))) /\
  (~ In (lower (strip mode)) ["real"; "imag"; "abs"; "phase"] -> data_repr abs arctan2 z mode = Raise ValueError).
Proof.
  unfold data_repr, _inspect_data_repr_mode. repeat split; try (intros ->; reflexivity).
  intros H. replace (existsb (String.eqb (lower (strip mode))) ["real"; "imag"; "abs"; "phase"]) with false; [reflexivity|]. symmetry. apply Bool.not_true_iff_false. intros E. apply H.
  apply existsb_exists in E. destruct E as (m & Hm & E). apply String.eqb_eq in E. rewrite E. exact Hm.
Qed.
Print Assumptions C84_repr.

(** The video of a generator: after any moves of the slider the frame shown is that of the largest position so far (not of the last one), or the last frame. *)
Section Video.
  Variable A : Type.
  Implicit Types video rest : list A.
  Lemma advance_ok rest : forall m i frame, (m < i)%Z -> advance rest m i frame =
    let d := Nat.min (Z.to_nat (i - m)) (length rest) in (skipn d rest, (m + Z.of_nat d)%Z, match d with 0 => frame | S d => nth_error rest d end).
  Proof.
    induction rest as [|f rest IH]; intros m i frame H; cbn [advance].
    - cbv zeta. rewrite Nat.min_0_r. cbn. f_equal. f_equal. lia.
    - destruct (Z.leb_spec i (m + 1)) as [L|L].
      + cbv zeta. replace (Nat.min (Z.to_nat (i - m)) (length (f :: rest))) with 1 by (cbn [List.length]; lia). reflexivity.
      + rewrite IH by lia. cbv zeta. cbn [List.length]. set (d := Nat.min (Z.to_nat (i - (m + 1))) (length rest)). replace (Nat.min (Z.to_nat (i - m)) (S (length rest))) with (S d) by lia.
        cbn [skipn]. f_equal; [f_equal; lia|]. destruct d; reflexivity.
  Qed.
  Lemma skipn_S_skipn n m (l : list A) : skipn n (skipn m l) = skipn (n + m) l.
  Proof. revert l. induction m as [|m IH]; intros l; [rewrite Nat.add_0_r; reflexivity|]. destruct l as [|a l]; [rewrite !skipn_nil; reflexivity|]. rewrite Nat.add_succ_r. cbn [skipn]. apply IH. Qed.
  Lemma nth_error_skipn' n m (l : list A) : nth_error (skipn m l) n = nth_error l (m + n).
  Proof. revert l. induction m as [|m IH]; intros l; [reflexivity|]. destruct l as [|a l]; [destruct n; reflexivity|]. cbn [skipn Nat.add nth_error]. apply IH. Qed.
  Definition showing video (m : nat) : list A * Z * option A := (skipn (S m) video, Z.of_nat m, nth_error video m).
  Lemma update_ok video m i : m < length video -> update_generator (showing video m) i = showing video (Nat.max m (Nat.min (Z.to_nat i) (length video - 1))).
  Proof.
    intros Hm. unfold showing at 1, update_generator. destruct (Z.ltb_spec (Z.of_nat m) i) as [L|L].
    - rewrite advance_ok by exact L. cbv zeta. rewrite skipn_length. set (d := Nat.min (Z.to_nat (i - Z.of_nat m)) (length video - S m)).
      replace (Nat.max m (Nat.min (Z.to_nat i) (length video - 1))) with (d + m) by (unfold d; lia). unfold showing. rewrite skipn_S_skipn. f_equal; [f_equal; [f_equal; lia|lia]|].
      assert (Ld : d <= length video - S m) by (unfold d; lia). clearbody d.       destruct d as [|d]; [reflexivity|]. rewrite nth_error_skipn'. replace (S m + d) with (S d + m) by lia.
      destruct (nth_error video (S d + m)) as [f|] eqn:E; [reflexivity|]. apply nth_error_None in E. lia.
    - replace (Nat.max m (Nat.min (Z.to_nat i) (length video - 1))) with m by lia. reflexivity.
  Qed.
  Theorem C84_video video moves s : viewer_start video = Ok s ->
    let m := Nat.min (Z.to_nat (fold_left Z.max moves 0%Z)) (length video - 1) in
    fold_left (@update_generator A) moves s = (skipn (S m) video, Z.of_nat m, nth_error video m) /\ m < length video.
  Proof.
    destruct video as [|f rest]; [discriminate|]. intros E. injection E as <-. cbv zeta. split; [|cbn [List.length]; lia]. set (video := f :: rest). change (rest, 0%Z, Some f) with (showing video 0). 
    assert (G : forall moves z m, m = Nat.min (Z.to_nat z) (length video - 1) -> (0 <= z)%Z -> fold_left (@update_generator A) moves (showing video m) = showing video (Nat.min (Z.to_nat (fold_left Z.max moves z)) (length video - 1))).
    { clear moves. induction moves as [|i moves IH]; intros z m Hm Hz; [cbn [fold_left]; congruence|]. cbn [fold_left]. rewrite update_ok by (unfold video in *; cbn [List.length] in *; lia). apply IH; [|lia]. rewrite Hm. lia. }
    apply (G moves 0%Z 0); [reflexivity|lia].
  Qed.
  (** A video that can be indexed: the frame of the position. *)
  Theorem C84_list video i : i < length video -> exists f, update_list video (Z.of_nat i) = Ok f /\ nth_error video i = Some f.
  Proof.
    intros H. unfold update_list, py_index. cbv zeta. destruct (Z.ltb_spec (Z.of_nat i) 0); [lia|]. replace ((0 <=? Z.of_nat i)%Z && (Z.of_nat i <? Z.of_nat (length video))%Z) with true by lia. rewrite Nat2Z.id.
    destruct (nth_error video i) as [f|] eqn:E; [eauto|]. apply nth_error_None in E. lia.
  Qed.
End Video.
Print Assumptions C84_video.
Print Assumptions C84_list.

(** The indices of the array viewers *)
Section Indices.
  Variable V : Type.
  Implicit Types (vals : list V) (axes : list Z) (ind : list (option V)).
  Lemma py_set_ok B (l : list B) (ax : Z) v : (0 <= ax < Z.of_nat (length l))%Z -> exists l', py_set l ax v = Ok l' /\ length l' = length l /\ nth_error l' (Z.to_nat ax) = Some v /\
    forall k, k <> Z.to_nat ax -> nth_error l' k = nth_error l k.
  Proof.
    intros H. unfold py_set, py_index. cbv zeta. destruct (Z.ltb_spec ax 0); [lia|]. replace ((0 <=? ax)%Z && (ax <? Z.of_nat (length l))%Z) with true by lia. eexists. split; [reflexivity|].
    set (n := Z.to_nat ax). assert (Hn : n < length l) by lia. clearbody n. clear - Hn. assert (Lf : length (firstn n l) = n) by (rewrite firstn_length; lia). split; [|split].
    - rewrite app_length. cbn [List.length]. rewrite skipn_length, Lf. lia.
    - rewrite nth_error_app2 by lia. rewrite Lf, Nat.sub_diag. reflexivity.
    - intros k Hk. destruct (Nat.lt_ge_cases k n) as [L|L].
      + rewrite nth_error_app1 by lia. rewrite <- (firstn_skipn n l) at 2. rewrite nth_error_app1 by lia. reflexivity.
      + rewrite nth_error_app2 by lia. rewrite Lf. destruct (k - n) as [|d] eqn:E; [lia|]. cbn [nth_error]. rewrite nth_error_skipn'. f_equal. lia.
  Qed.
  Let step vals (s : nat * res (list (option V))) (ax : Z) :=
    let '(i, r) := s in
    (S i, let* indices := r in match nth_error vals i with None => Raise IndexError | Some v => py_set indices ax (Some v) end).
  Lemma steps_raise vals e axes : forall i, snd (fold_left (step vals) axes (i, Raise e)) = Raise e.
  Proof. induction axes as [|ax axes IH]; intros i; [reflexivity|]. cbn [fold_left step bind]. apply IH. Qed.
  Lemma steps_ok' vals axes : forall i ind, i + length axes <= length vals -> (forall ax, In ax axes -> (0 <= ax < Z.of_nat (length ind))%Z) -> NoDup axes ->
    exists ind', snd (fold_left (step vals) axes (i, Ok ind)) = Ok ind' /\ length ind' = length ind /\
      (forall j ax v, nth_error axes j = Some ax -> nth_error vals (i + j) = Some v -> nth_error ind' (Z.to_nat ax) = Some (Some v)) /\
      (forall k, k < length ind -> ~ In (Z.of_nat k) axes -> nth_error ind' k = nth_error ind k).
  Proof.
    induction axes as [|ax axes IH]; intros i ind Hl Hr Hn.
    - exists ind. cbn. repeat split. intros [|j] ax v E; discriminate E.
    - cbn [fold_left step bind]. cbn [List.length] in Hl. destruct (nth_error vals i) as [v0|] eqn:E0; [|apply nth_error_None in E0; lia].
      assert (Hax : (0 <= ax < Z.of_nat (length ind))%Z) by (apply Hr; left; reflexivity).
      destruct (@py_set_ok _ ind ax (Some v0) Hax) as (ind1 & E1 & L1 & N1 & O1). rewrite E1. inversion Hn as [|? ? Hni Hn']; subst.
      destruct (IH (S i) ind1) as (ind' & E' & L' & N' & O'); [lia|intros a Ha; rewrite L1; apply Hr; right; exact Ha|exact Hn'|]. exists ind'. split; [exact E'|]. split; [congruence|]. split.
      + intros [|j] a v Ea Ev; cbn [nth_error] in Ea.
        * injection Ea as <-. rewrite Nat.add_0_r, E0 in Ev. injection Ev as <-. rewrite O'; [exact N1|lia|rewrite Z2Nat.id by lia; exact Hni].
        * apply (N' j); [exact Ea|]. rewrite <- Ev. f_equal. lia.
      + intros k Hk Hi. rewrite O'; [|lia|intros Q; apply Hi; right; exact Q]. apply O1. intros Q. apply Hi. left. lia.
  Qed.
  (** The value of every axis is put in the place of this axis. *)
  Theorem C84_indices axes vals : length axes <= length vals -> (forall ax, In ax axes -> (0 <= ax < Z.of_nat (length axes))%Z) -> NoDup axes ->
    exists ind, set_indices axes vals = Ok ind /\ length ind = length axes /\
      forall i ax v, nth_error axes i = Some ax -> nth_error vals i = Some v -> nth_error ind (Z.to_nat ax) = Some (Some v).
  Proof.
    intros Hl Hr Hn. destruct (@steps_ok' vals axes 0 (repeat None (length axes))) as (ind & E & L & N & _); [lia|intros ax Ha; rewrite repeat_length; apply Hr; exact Ha|exact Hn|].
    rewrite repeat_length in L. exists ind. split; [exact E|]. split; [exact L|]. exact N.
  Qed.
  (** An axis that is not smaller than the number of axes with sliders is refused, whatever the dimension of the data: the constructor with axes=(1,) raises an IndexError. *)
  Theorem C84_axes_refuted axes vals ax : In ax axes -> (Z.of_nat (length axes) <= ax)%Z -> set_indices axes vals = Raise IndexError.
  Proof.
    intros Hi Hax. unfold set_indices. change (snd (fold_left (step vals) axes (0, Ok (repeat None (length axes)))) = Raise IndexError).
    assert (G : forall axes i ind, In ax axes -> (Z.of_nat (length ind) <= ax)%Z -> snd (fold_left (step vals) axes (i, Ok ind)) = Raise IndexError).
    { clear Hi Hax axes. induction axes as [|a axes IH]; intros i ind Hi Hax; [destruct Hi|]. cbn [fold_left step bind]. destruct (nth_error vals i) as [v|]; [|apply steps_raise].
      destruct Hi as [->|Hi].
      - unfold py_set, py_index. cbv zeta. destruct (Z.ltb_spec ax 0); [lia|]. replace ((0 <=? ax)%Z && (ax <? Z.of_nat (length ind))%Z) with false by lia. apply steps_raise.
      - unfold py_set at 1. destruct (py_index (length ind) a) as [k|] eqn:E; [|apply steps_raise].
        apply IH; [exact Hi|]. rewrite app_length, firstn_length. cbn [List.length]. rewrite skipn_length. 
        assert (k < length ind). { unfold py_index in E. cbv zeta in E. destruct (_ && _) eqn:Q in E; [|discriminate E]. injection E as <-. lia. } lia. }
    apply G; [exact Hi|]. rewrite repeat_length. exact Hax.
  Qed.
End Indices.
Print Assumptions C84_indices.
Print Assumptions C84_axes_refuted.

(** Even widths: the column that is its own opposite is averaged twice.  A 3x4 plane, values 1 and 7 at the two wave vectors of index 1 in the sector: their mean is 4, the viewer shows 3. *)
Definition plane34 : mat Z := table 0%Z [[0; 2; 5; 2]; [3; 7; 1; 6]; [3; 6; 1; 7]]%Z.
Definition half34 : mat Z := table 0%Z [[0; 2; 5]; [3; 7; 1]; [3; 6; 1]]%Z.
Definition zmean (l : list Z) : Z := (zsum_list l / Z.of_nat (length l))%Z.
Definition shown34 (x : mat Z) c shape k angle sector kstep : res (Z * bool) :=
  let* v0 := set_data (viewer_init QcO Z shape c) (Full x) in
  let* (v, ok) := set_mask pi7 qfloor maxnorm octant (fun _ _ => false) v0 k angle sector kstep in
  let* d := get_data (fun z => z) zmean v in Ok (d, ok).
Definition index34 h w shape angle sector kstep : res (mat Z) :=
  let* (kmap, anglemap) := fft2_kangle QcO maxnorm octant (Some h) (Some w) shape in fft2_sector_indexmap QcO pi7 qfloor kmap anglemap angle sector kstep.
Lemma hermitian_cells A (cj : A -> A) (F : mat A) : 1 <= mh F -> 1 <= mw F -> (forall p, In p (cells (mh F) (mw F)) -> at2 F (opposite (mh F) (mw F) p) = cj (at2 F p)) -> hermitian cj F.
Proof.
  intros Hh Hw H ki kj. specialize (H (freq (mh F) ki, freq (mw F) kj)). unfold at_freq. unfold at2, opposite in H. cbn [fst snd] in H.
  assert (Q : forall n k, 1 <= n -> freq n (- Z.of_nat (freq n k)) = freq n (- k)).
  { clear. intros n k Hn. unfold freq. f_equal. pose proof (Z.mod_pos_bound k (Z.of_nat n)). rewrite Z2Nat.id by lia. apply (f_equal (fun x => x)). rewrite <- (Zminus_mod_idemp_r 0 k). reflexivity. }
  rewrite !Q in H by assumption. apply H. apply in_cells. cbn [fst snd]. split; apply freq_lt; assumption.
Qed.
Theorem C84_nyquist_refuted : hermitian (fun z => z) plane34 /\ half_of plane34 half34 /\
  as_fft2_shape (Some 3%Z) (Some 3%Z) (Some (3, 4)%Z) = Ok (3, 4)%Z /\
  match index34 3 4 (Some (3, 4)%Z) (q 135) (q 60) (q 2) with Ok z => Some (in_view z None 1, zmean (map (at2 plane34) (in_view z None 1))) | Raise _ => None end = Some ([(2, 2); (2, 3)], 4%Z) /\
  shown34 half34 None (Some (3, 4)%Z) 1 (q 135) (q 60) (q 2) = Ok (3%Z, true).
Proof.
  split; [|split; [|split; [|split]]].
  - apply hermitian_cells; [cbn; lia|cbn; lia|]. intros p Hp. cbn in Hp. repeat (destruct Hp as [<-|Hp]; [reflexivity|]). destruct Hp.
  - split; [reflexivity|]. split; [reflexivity|]. intros i j Hi Hj. cbn in Hi, Hj. destruct i as [|[|[|i]]]; [| | |lia]; (destruct j as [|[|[|j]]]; [reflexivity|reflexivity|reflexivity|lia]).
  - reflexivity.
  - vm_compute. reflexivity.
  - vm_compute. reflexivity.
Qed.
Print Assumptions C84_nyquist_refuted.

(** A 3x3 plane with a mask; the video of a generator; a slider for each of two axes. *)
Definition plane33h : mat Z := table 0%Z [[0; 2; 2]; [3; 7; 6]; [3; 6; 7]]%Z.
Definition half32 : mat Z := table 0%Z [[0; 2]; [3; 7]; [3; 6]]%Z.
Definition computed32 : mat bool := table false [[true; true]; [true; true]; [true; false]].
Example C84_example : hermitian (fun z => z) plane33h /\ half_of plane33h half32 /\ mask_fits half32 (Some computed32) /\ as_fft2_shape (Some 3%Z) (Some 2%Z) None = Ok (3, 3)%Z /\
  right_parameters QcO (q 0) (q 180) (q 1) None /\
  (match index34 3 3 None (q 0) (q 180) (q 1) with Ok z => Some (entries z, in_view z (Some computed32) 1, in_view z None 1) | Raise _ => None end =
     Some ([[0; 1; -1]; [1; 1; -1]; [-1; 1; -1]]%Z, [(0, 1); (1, 0); (1, 1)], [(0, 1); (1, 0); (1, 1); (2, 1)])) /\
  shown34 half32 None None 1 (q 0) (q 180) (q 1) = Ok (4%Z, true) /\ shown34 half32 (Some computed32) None 1 (q 0) (q 180) (q 1) = Ok (4%Z, true) /\ shown34 half32 (Some computed32) None 1 (q 110) (q 10) (q 1) = Ok (0%Z, false) /\
  fold_left (@update_generator Z) [2; 1; 9; 0]%Z ([11; 12; 13]%Z, 0%Z, Some 10%Z) = ([], 3%Z, Some 13%Z) /\ fold_left (@update_generator Z) [2; 1]%Z ([11; 12; 13]%Z, 0%Z, Some 10%Z) = ([13]%Z, 2%Z, Some 12%Z) /\
  set_indices [1; 0]%Z ["a"; "b"] = Ok [Some "b"; Some "a"] /\ set_indices [1]%Z ["a"] = Raise IndexError /\ lower (strip " Phase ") = "phase".
Proof.
  split; [|split; [|split; [split; reflexivity|split; [reflexivity|split; [|split]]]]].
  - apply hermitian_cells; [cbn; lia|cbn; lia|]. intros p Hp. cbn in Hp. repeat (destruct Hp as [<-|Hp]; [reflexivity|]). destruct Hp.
  - split; [reflexivity|]. split; [reflexivity|]. intros i j Hi Hj. cbn in Hi, Hj. destruct i as [|[|[|i]]]; [| | |lia]; (destruct j as [|[|j]]; [reflexivity|reflexivity|lia]).
  - repeat split; vm_compute; reflexivity.
  - vm_compute. reflexivity.
  - repeat split; vm_compute; reflexivity.
Qed.
