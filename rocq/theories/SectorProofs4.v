(** k_select. *)
From Coq Require Import ZifyBool ZifyNat.
From Verif Require Import Base KernelProofs Ordered MapModel MapProofs SectorModel SectorProofs SectorProofs2 SectorProofs3.
Set Implicit Arguments.
Ltac Zify.zify_post_hook ::= Z.div_mod_to_equations.

Section S.
  Variable K : OFld.
  Variable A : Type.
  Variable cj : A -> A.
  Variable mean : list A -> A.
  Variable kmean : list K -> K.

  (** The cells with index [k]; those of them inside a mask *)
  Definition where_index (z : mat Z) (k : Z) : list (nat * nat) := filter (fun p => (at2 z p =? k)%Z) (cells (mh z) (mw z)).
  Definition inside_mask (c : option (mat bool)) (p : nat * nat) : bool := match c with None => true | Some c => at2 c p end.
  (** What is to be returned for [k]: mean length and mean data of the selected cells, nothing if there are none *)
  Definition average (x : mat A) (kmap : mat K) (sel : list (nat * nat)) : option (K * A) :=
    match sel with [] => None | _ => Some (kmean (map (at2 kmap) sel), mean (map (at2 x) sel)) end.
  Definition same_size {B C} (x : mat B) (y : mat C) : Prop := mh x = mh y /\ mw x = mw y.

  Lemma filter_ext_cells (f g : nat * nat -> bool) h w : (forall p, In p (cells h w) -> f p = g p) -> filter f (cells h w) = filter g (cells h w).
  Proof using. intros H. apply filter_ext_in. exact H. Qed.
  Lemma filter_and B (f g : B -> bool) l : filter f (filter g l) = filter (fun b => g b && f b) l.
  Proof using. induction l as [|b l IH]; [reflexivity|]. cbn [filter]. destruct (g b); cbn [filter andb]; [destruct (f b); rewrite IH; reflexivity|exact IH]. Qed.

  Lemma complex_full x k z kmap c : same_size x z -> same_size kmap z -> match c with None => True | Some c => same_size c z end ->
    _k_select_complex K mean kmean (Full x) k z kmap c false = Ok (average x kmap (filter (inside_mask c) (where_index z k))).
  Proof using.
    intros [X1 X2] [K1 K2] C. unfold _k_select_complex. set (mask := Mat (mh z) (mw z) (fun i j => (mat_at z i j =? k)%Z)).
    assert (Q : exists mk, match c with Some c => mat_and mask c | None => Ok mask end = Ok mk /\ mh mk = mh z /\ mw mk = mw z /\
      filter (at2 mk) (cells (mh mk) (mw mk)) = filter (inside_mask c) (where_index z k)).
    { destruct c as [c|].
      - destruct C as [C1 C2]. destruct (@mat_and_ok mask c) as (mk & E & M1 & M2 & M3); [symmetry; exact C1|symmetry; exact C2|]. exists mk. split; [exact E|]. split; [exact M1|]. split; [exact M2|].
        rewrite M1, M2. unfold where_index. rewrite filter_and. apply filter_ext_cells. intros p Hp. apply M3. exact Hp.
      - exists mask. split; [reflexivity|]. split; [reflexivity|]. split; [reflexivity|]. unfold where_index. rewrite filter_and. apply filter_ext_cells. intros p _. cbn [inside_mask]. rewrite andb_true_r. reflexivity. }
    destruct Q as (mk & -> & M1 & M2 & M3). cbn [bind]. rewrite mat_select_ok by congruence. rewrite M3. cbn [bind]. unfold average.
    destruct (filter (inside_mask c) (where_index z k)) as [|p l] eqn:E; [reflexivity|]. cbn [map]. unfold data_select. rewrite mat_select_ok by congruence. rewrite M3. cbn [bind map]. reflexivity.
  Qed.

  (** Data of the masked pixels only, in row order *)
  Definition masked (x : mat A) (c : mat bool) : list A := map (at2 x) (filter (at2 c) (cells (mh c) (mw c))).
  Lemma complex_masked x k z kmap c : same_size x z -> same_size kmap z -> same_size c z ->
    _k_select_complex K mean kmean (Masked (masked x c)) k z kmap (Some c) true = Ok (average x kmap (filter (at2 c) (where_index z k))).
  Proof using.
    intros [X1 X2] [K1 K2] [C1 C2]. unfold _k_select_complex. set (mask := Mat (mh z) (mw z) (fun i j => (mat_at z i j =? k)%Z)).
    destruct (@mat_and_ok mask c) as (mk & -> & M1 & M2 & M3); [symmetry; exact C1|symmetry; exact C2|]. cbn [bind]. cbn in M1, M2.
    assert (F : filter (at2 mk) (cells (mh mk) (mw mk)) = filter (at2 c) (where_index z k)).
    { rewrite M1, M2. unfold where_index. rewrite filter_and. apply filter_ext_cells. intros p Hp. apply M3. exact Hp. }
    rewrite mat_select_ok by congruence. rewrite F. cbn [bind]. rewrite (mat_select_ok mk c) by congruence. cbn [bind]. unfold average.
    destruct (filter (at2 c) (where_index z k)) as [|p l] eqn:E; [reflexivity|]. cbn [map].
    unfold data_select. rewrite (mat_select_ok mk c) by congruence. cbn [bind]. unfold masked. rewrite list_select_map. cbn [bind].
    rewrite filter_and. rewrite (@filter_ext_cells _ (at2 mk)).
    - rewrite C1, C2, <- M1, <- M2, F. reflexivity.
    - intros p' Hp. rewrite C1, C2 in Hp. rewrite M3 by exact Hp. destruct (at2 c p'), (at2 mask p'); reflexivity.
  Qed.

  Lemma collect_ok (f : Z -> res (option (K * A))) g l : (forall k, In k l -> f k = Ok (g k)) ->
    collect K f l = Ok (flat_map (fun k => match g k with Some d => [d] | None => [] end) l).
  Proof using.
    induction l as [|k l IH]; intros H; [reflexivity|]. cbn [collect flat_map]. rewrite (H k (or_introl eq_refl)). cbn [bind]. rewrite IH by (intros; apply H; right; assumption). cbn [bind]. destruct (g k); reflexivity.
  Qed.
  Lemma collect_fail (f : Z -> res (option (K * A))) e l : (forall k, In k l -> f k = Raise e \/ f k = Ok None) -> (exists k, In k l /\ f k = Raise e) -> collect K f l = Raise e.
  Proof using.
    induction l as [|k l IH]; intros H (k' & Hk & E); [destruct Hk|]. cbn [collect]. destruct (H k (or_introl eq_refl)) as [-> | F]; [reflexivity|].
    rewrite F. cbn [bind]. rewrite IH; [reflexivity|intros; apply H; right; assumption|]. exists k'. split; [|exact E]. destruct Hk as [<-|Hk]; [congruence|exact Hk].
  Qed.

  (** * Half-plane data: the mask of the conjugate half plane has another width. *)
  Lemma rfft2_mask_ok z k : (1 <= mh z)%nat -> (1 <= mw z)%nat -> exists m, as_rfft2_mask (Mat (mh z) (mw z) (fun i j => (mat_at z i j =? k)%Z)) = Ok m /\ mh m = mh z /\ mw m = (mw z / 2 + 1)%nat.
  Proof using.
    intros H1 H2. unfold as_rfft2_mask. set (mask := Mat (mh z) (mw z) (fun i j => (mat_at z i j =? k)%Z)).
    destruct (@as_rfft2_data_ok bool mask H2) as (m1 & -> & A1 & A2 & _). cbn [bind].
    destruct (@as_rfft2_conj_ok bool false mask H1 H2) as (m2 & -> & _). cbn [bind]. eexists. split; [reflexivity|]. cbn [mh mw]. split; [exact A1|exact A2].
  Qed.
  Lemma real_full x k z kmap : (1 <= mh z)%nat -> (1 <= mw z)%nat -> mw x = (mw z / 2 + 1)%nat -> (3 <= mw x)%nat -> same_size kmap z ->
    _k_select_real K cj mean kmean (Full x) k z kmap None false = match where_index z k with [] => Ok None | _ => Raise IndexError end.
  Proof using.
    intros Z1 Z2 X X3 [K1 K2]. unfold _k_select_real. rewrite mat_select_ok by assumption. cbn [bind].
    destruct (rfft2_mask_ok z k Z1 Z2) as (m & -> & M1 & M2). cbn [bind].
    destruct (@as_rfft2_conj_ok bool false m ltac:(lia) ltac:(lia)) as (cm & -> & N1 & N2 & _). cbn [bind].
    match goal with |- context [filter ?f (cells ?a ?b)] => change (filter f (cells a b)) with (where_index z k) end.
    destruct (where_index z k) as [|p l]; [reflexivity|]. cbn [map].
    rewrite mat_select_bad; [reflexivity|]. right. lia.
  Qed.
  Lemma real_masked d k z kmap c b : (1 <= mh z)%nat -> (1 <= mw z)%nat -> mh c = mh z -> mw c = (mw z / 2 + 1)%nat -> (3 <= mw c)%nat -> same_size kmap z ->
    _k_select_real K cj mean kmean d k z kmap (Some c) b = Raise ValueError.
  Proof using.
    intros Z1 Z2 X0 X X3 [K1 K2]. unfold _k_select_real. rewrite mat_select_ok by assumption. cbn [bind].
    destruct (rfft2_mask_ok z k Z1 Z2) as (m & -> & M1 & M2). cbn [bind].
    destruct (@as_rfft2_conj_ok bool false m ltac:(lia) ltac:(lia)) as (cm & -> & N1 & N2 & _). cbn [bind].
    destruct (@mat_and_ok m c) as (mk & -> & _); [lia|lia|]. cbn [bind]. rewrite mat_and_bad by lia. reflexivity.
  Qed.

  Lemma where_in z k : where_index z k <> [] <-> exists i j, (i < mh z)%nat /\ (j < mw z)%nat /\ mat_at z i j = k.
  Proof using.
    unfold where_index. split.
    - intros H. destruct (filter _ _) as [|[i j] l] eqn:E; [congruence|]. assert (P : In (i, j) ((i, j) :: l)) by (left; reflexivity). rewrite <- E in P.
      apply filter_In in P. destruct P as [P1 P2]. apply in_cells in P1. cbn [fst snd] in P1. exists i, j. unfold at2 in P2. cbn [fst snd] in P2. split; [lia|]. split; lia.
    - intros (i & j & Hi & Hj & E) F. assert (P : In (i, j) (filter (fun p => (at2 z p =? k)%Z) (cells (mh z) (mw z)))).
      { apply filter_In. split; [apply in_cells; auto|]. unfold at2. cbn [fst snd]. lia. }
      rewrite F in P. exact P.
  Qed.
  Lemma fold_zmax l : forall a, (a <= fold_left Z.max l a)%Z /\ forall v, In v l -> (v <= fold_left Z.max l a)%Z.
  Proof using.
    induction l as [|u l IH]; intros a; cbn [fold_left]; [split; [lia|intros v []]|]. destruct (IH (Z.max a u)) as [H1 H2]. split; [lia|]. intros v [<-|Hv]; [lia|apply H2; exact Hv].
  Qed.
End S.
