(** The multiple-tau algorithm on arrays: reshaping before and after the calculation. *)
From Coq Require Import String ZifyBool ZifyNat.
From Verif Require Import Base Kernels KernelProofs CoreModel CoreProofs CoreApi VecModel VecProofs FftModel NormModel CorrModel NormArrayModel NormArrayProofs AxisModel AxisProofs AxisProofs2 AxisProofs3
  MultiModel LevelArrayModel LevelArrayProofs MultiArrayModel MultiArrayProofs MultiArrayProofs2.
Open Scope string_scope.
Open Scope nat_scope.
Open Scope list_scope.
Local Notation length := List.length.
Set Implicit Arguments.

(** * Places in memory *)
Lemma flat_app s1 s2 p1 p2 : length p1 = length s1 -> length p2 = length s2 -> flat_index (s1 ++ s2) (p1 ++ p2) = flat_index s1 p1 * size_of s2 + flat_index s2 p2.
Proof.
  intros H1. revert p2. induction s2 as [|d s2 IH] using rev_ind; intros p2 H2.
  - destruct p2; [|discriminate]. rewrite !app_nil_r. cbn. lia.
  - destruct (@split_last _ p2 (length s2)) as (q & i & -> & Hq). { rewrite app_length in H2. cbn [length] in H2. lia. }
    rewrite !app_assoc, !flat_last by (rewrite ?app_length; lia). rewrite IH by lia. rewrite size_app. cbn [size_of fold_right]. nia.
Qed.
Lemma valid_app p q s t : valid p s -> valid q t -> valid (p ++ q) (s ++ t).
Proof. apply Forall2_app. Qed.
Lemma valid_split q s t : valid q (s ++ t) -> exists q1 q2, q = q1 ++ q2 /\ valid q1 s /\ valid q2 t.
Proof. intros H. apply Forall2_app_inv_r in H. destruct H as (q1 & q2 & H1 & H2 & E). exists q1, q2. auto. Qed.
Lemma flat_lt s : forall p, valid p s -> flat_index s p < size_of s.
Proof.
  induction s as [|d s IH] using rev_ind; intros p H; [inversion H; cbn; lia|].
  destruct (valid_split _ _ H) as (q & r & -> & Hq & Hr). destruct (valid_line Hr) as (i & -> & Hi). rewrite flat_last by (exact (valid_length Hq)). rewrite size_app. cbn [size_of fold_right]. specialize (IH q Hq). nia.
Qed.
Lemma of_flat_ok s : forall i, i < size_of s -> valid (of_flat s i) s /\ flat_index s (of_flat s i) = i.
Proof.
  induction s as [|d s IH] using rev_ind; intros i Hi; [cbn in *; split; [constructor|cbn; lia]|].
  rewrite size_app in Hi. cbn [size_of fold_right] in Hi. rewrite Nat.mul_1_r in Hi. assert (Hd : d <> 0) by nia.
  destruct (IH (i / d)) as (V & F). { apply Nat.div_lt_upper_bound; [exact Hd|]. rewrite Nat.mul_comm. exact Hi. }
  rewrite of_flat_last. split; [apply valid_app; [exact V|constructor; [apply Nat.mod_upper_bound; exact Hd|constructor]]|].
  rewrite flat_last by (exact (valid_length V)). rewrite F. pose proof (Nat.div_mod i d Hd). lia.
Qed.
(** The pixel of a frame of shape [k] at the place that pixel [q] has in a frame of shape [k'] *)
Definition unravel (k k' q : list nat) : list nat := of_flat k (flat_index k' q).
Lemma unravel_valid k k' q : size_of k = size_of k' -> valid q k' -> valid (unravel k k' q) k /\ flat_index k (unravel k k' q) = flat_index k' q.
Proof. intros E H. apply of_flat_ok. rewrite E. apply flat_lt. exact H. Qed.
Lemma unravel_id k q : valid q k -> unravel k k q = q.
Proof. apply of_flat_index. Qed.
Lemma unravel_trans k k' k2 q : size_of k' = size_of k2 -> valid q k2 -> unravel k k' (unravel k' k2 q) = unravel k k2 q.
Proof. intros E H. unfold unravel at 1 3. f_equal. apply unravel_valid; assumption. Qed.
Lemma unravel_one k q : valid q k -> unravel k (1 :: k) (0 :: q) = q.
Proof.
  intros H. unfold unravel. change (1 :: k) with ([1] ++ k). change (0 :: q) with ([0] ++ q). rewrite flat_app by (try reflexivity; exact (valid_length H)). cbn [flat_index combine fold_left fst snd]. apply of_flat_index. exact H.
Qed.

(** * Reshaped arrays *)
Lemma reshape_mid A (x : nd A) lead k k' tail : shape x = lead ++ k ++ tail -> size_of k = size_of k' ->
  exists y, reshape_to x (lead ++ k' ++ tail) = Ok y /\ shape y = lead ++ k' ++ tail /\
    forall u q v, valid u lead -> valid q k' -> valid v tail -> at_ y (u ++ q ++ v) = at_ x (u ++ unravel k k' q ++ v).
Proof.
  intros E Es. unfold reshape_to. rewrite E. rewrite !size_app, Es, Nat.eqb_refl. eexists. split; [reflexivity|]. split; [reflexivity|]. intros u q v Hu Hq Hv. cbn [at_]. f_equal.
  destruct (unravel_valid k Es Hq) as (V & F). rewrite <- (@of_flat_index (lead ++ k ++ tail) (u ++ unravel k k' q ++ v)) by (repeat apply valid_app; assumption). f_equal.
  pose proof (valid_length Hu). pose proof (valid_length Hq). pose proof (valid_length Hv). pose proof (valid_length V). rewrite !flat_app by (rewrite ?app_length; lia). rewrite !size_app, F, Es. reflexivity.
Qed.
Lemma existsb_of_nat l : existsb (fun d => (d <? 0)%Z) (map Z.of_nat l) = false.
Proof. induction l as [|x l IH]; [reflexivity|]. cbn [map existsb]. rewrite IH. destruct (Z.ltb_spec (Z.of_nat x) 0); [lia|reflexivity]. Qed.
Lemma map_nat_Z l : map Z.to_nat (map Z.of_nat l) = l.
Proof. rewrite map_map. rewrite (map_ext _ (fun x => x)) by (intros x; apply Nat2Z.id). apply map_id. Qed.
Lemma map_ins A B (f : A -> B) a v l : map f (ins a v l) = ins a (f v) (map f l).
Proof. unfold ins. rewrite map_app. cbn [map]. rewrite firstn_map, skipn_map. reflexivity. Qed.
Lemma valid_ins a t n p s : t < n -> valid p s -> valid (ins a t p) (ins a n s).
Proof.
  intros Ht H. revert a. unfold valid in *. induction H as [|x d p s Hx H IH]; intros a.
  - unfold ins. rewrite !firstn_nil, !skipn_nil. repeat constructor. exact Ht.
  - destruct a as [|a]; [unfold ins; cbn [firstn skipn app]; repeat constructor; assumption|]. constructor; [exact Hx|apply (IH a)].
Qed.
(** reshape_input without a mask: the frames [k] become frames [k'] *)
Lemma input_pixels A (f : nd A) axis a divisor k' : norm_axis (rank f) axis = Ok a ->
  ReshapeModel.thread_frame_shape (del a (shape f)) divisor true = Ok (map Z.of_nat k') -> size_of k' = size_of (del a (shape f)) -> a = 0 \/ k' = del a (shape f) -> a <= length k' ->
  exists g, reshape_input_nd f axis divisor None = Ok (g, del a (shape f)) /\ shape g = ins a (nth a (shape f) 0) k' /\ forall p, valid p k' -> series g a p = series f a (unravel (del a (shape f)) k' p).
Proof.
  intros Ea Et Es Ha La'. pose proof (axis_lt _ _ Ea) as La. unfold rank in La. unfold reshape_input_nd. rewrite Ea. cbn [bind]. rewrite Et. cbn [bind]. unfold reshape_to_Z. rewrite <- map_ins, existsb_of_nat, map_nat_Z.
  set (n := nth a (shape f) 0) in *. set (k := del a (shape f)) in *. assert (Sf : shape f = ins a n k) by (symmetry; apply ins_del; exact La).
  assert (NS : forall x : nd A, shape x = ins a n k' -> nth a (shape x) 0 = n) by (intros x ->; apply nth_ins; exact La').
  destruct Ha as [E0|Ek].
  - subst a. change (ins 0 n k') with ([n] ++ k'). change (ins 0 n k) with ([n] ++ k) in Sf.
    destruct (@reshape_mid A f [n] k k' []) as (y & Ey & Sy & Py); [rewrite app_nil_r; exact Sf|symmetry; exact Es|]. rewrite !app_nil_r in *. rewrite Ey. cbn [bind]. exists y. split; [reflexivity|]. split; [exact Sy|].
    intros p Hp. unfold series. rewrite (NS y Sy). fold n. apply map_ext_in. intros t Ht. apply in_seq in Ht. specialize (Py [t] p [] (Forall2_cons _ _ (proj2 Ht) (Forall2_nil _)) Hp (Forall2_nil _)). rewrite !app_nil_r in Py. exact Py.
  - rewrite Ek in *. destruct (@reshape_mid A f [] (ins a n k) (ins a n k) []) as (y & Ey & Sy & Py); [rewrite app_nil_r; exact Sf|reflexivity|]. cbn [app] in Ey, Sy. rewrite !app_nil_r in Ey, Sy. rewrite Ey. cbn [bind]. exists y. split; [reflexivity|]. split; [exact Sy|].
    intros p Hp. rewrite (unravel_id Hp). unfold series. rewrite (NS y Sy). fold n. apply map_ext_in. intros t Ht. apply in_seq in Ht. assert (V : valid (ins a t p) (ins a n k)) by (apply valid_ins; [lia|exact Hp]).
    specialize (Py [] _ [] (Forall2_nil _) V (Forall2_nil _)). cbn [app] in Py. rewrite !app_nil_r, (unravel_id V) in Py. exact Py.
Qed.

(** reshape_output of a tuple with arrays of one shape *)
Definition all_shaped (K : Fld) (V : Type) (data : ndata K V) (s : list nat) : Prop :=
  match data with
  | NCorr d _ sq s1 s2 => shape d = s /\ oshape sq s /\ oshape s1 s /\ oshape s2 s
  | NDiff d _ s1 s2 => shape d = s /\ oshape s1 s /\ oshape s2 s
  | NBad _ _ => False
  end.
Section Output.
  Variables (K : Fld) (V : Type) (nanv : V) (nank : K) (nanc : Cx K).
  Variable rel : forall A : Type, A -> nd A -> nd A -> Prop.
  Definition orel (A : Type) (nan : A) (x y : option (nd A)) : Prop := match x, y with Some x, Some y => rel nan x y | None, None => True | _, _ => False end.
  Definition data_rel (data out : ndata K V) : Prop :=
    match data, out with
    | NCorr d c sq s1 s2, NCorr d' c' sq' s1' s2' => c' = c /\ rel nanv d d' /\ orel nank sq sq' /\ orel nanc s1 s1' /\ orel nanc s2 s2'
    | NDiff d c s1 s2, NDiff d' c' s1' s2' => c' = c /\ rel nanv d d' /\ orel nanc s1 s1' /\ orel nanc s2 s2'
    | _, _ => False
    end.
  Lemma output_rel data s s' k mask sh : all_shaped data s -> output_shape_nd k mask s = Ok sh ->
    (forall A (nan : A) (x : nd A), shape x = s -> exists y, reshape_one_nd nan sh mask x = Ok y /\ shape y = s' /\ rel nan x y) ->
    exists out, reshape_output_nd nanv nank nanc data k mask = Ok out /\ all_shaped out s' /\ data_rel data out.
  Proof.
    intros HS EO HR.
    assert (HO : forall A (nan : A) (x : option (nd A)), oshape x s -> exists y, opt_res (reshape_one_nd nan sh mask) x = Ok y /\ oshape y s' /\ orel nan x y).
    { intros A nan [x|] Hx; [|exists None; repeat split; constructor]. destruct (HR A nan x Hx) as (y & E & S & Q). exists (Some y). cbn [opt_res]. rewrite E. cbn [bind]. repeat split; assumption. }
    destruct data as [d c sq s1 s2|d c s1 s2|]; cbn [all_shaped reshape_output_nd] in *; [| |contradiction].
    - destruct HS as (H0 & H1 & H2 & H3). rewrite H0, EO. cbn [bind]. destruct (HR _ nanv d H0) as (y & -> & S & Q). destruct (HO _ nank sq H1) as (y1 & -> & S1 & Q1). destruct (HO _ nanc s1 H2) as (y2 & -> & S2 & Q2). destruct (HO _ nanc s2 H3) as (y3 & -> & S3 & Q3). cbn [bind].
      eexists. split; [reflexivity|]. cbn [all_shaped data_rel]. repeat split; assumption.
    - destruct HS as (H0 & H2 & H3). rewrite H0, EO. cbn [bind]. destruct (HR _ nanv d H0) as (y & -> & S & Q). destruct (HO _ nanc s1 H2) as (y2 & -> & S2 & Q2). destruct (HO _ nanc s2 H3) as (y3 & -> & S3 & Q3). cbn [bind].
      eexists. split; [reflexivity|]. cbn [all_shaped data_rel]. repeat split; assumption.
  Qed.
End Output.
(** The rows of [y] are rows of [x] *)
Definition rows_at (P : list nat -> list nat -> Prop) (A : Type) (_ : A) (x y : nd A) : Prop := forall p q, P p q -> row y p = row x q.
Lemma pix_rows K V nanv nank nanc P (data out : ndata K V) p q : data_rel nanv nank nanc (rows_at P) data out -> P p q -> pix out p = pix data q.
Proof.
  assert (HO : forall A (nan : A) x y, orel (rows_at P) nan x y -> P p q -> option_map (fun x => row x p) y = option_map (fun x => row x q) x).
  { intros A nan [x|] [y|]; cbn [orel option_map]; try contradiction; [|reflexivity]. intros H HP. rewrite (H p q HP). reflexivity. }
  intros H HP. destruct data as [d c sq s1 s2|d c s1 s2|], out as [d' c' sq' s1' s2'|d' c' s1' s2'|]; cbn [data_rel] in H; try contradiction.
  - destruct H as (-> & H0 & H1 & H2 & H3). cbn [pix]. rewrite (H0 p q HP), (HO _ _ _ _ H1 HP), (HO _ _ _ _ H2 HP), (HO _ _ _ _ H3 HP). reflexivity.
  - destruct H as (-> & H0 & H2 & H3). cbn [pix]. rewrite (H0 p q HP), (HO _ _ _ _ H2 HP), (HO _ _ _ _ H3 HP). reflexivity.
Qed.
Lemma row_item A (x : nd A) L s m l p : shape x = L :: s ++ [m] -> row (item x l) p = row x (l :: p).
Proof. intros E. assert (E' : shape x = (L :: s) ++ [m]) by exact E. rewrite (row_map (l :: p) E'). assert (E2 : shape (item x l) = s ++ [m]) by (cbn [item shape]; rewrite E; reflexivity). rewrite (row_map p E2). reflexivity. Qed.
Lemma pix_level_rows K V nanv nank nanc P (data out : ndata K V) L s m s' l p q : all_shaped data (L :: s ++ [m]) -> all_shaped out (L :: s' ++ [m]) -> data_rel nanv nank nanc (rows_at P) data out -> P (l :: p) (l :: q) ->
  pix (level_data out l) p = pix (level_data data l) q.
Proof.
  intros S1 S2 H HP.
  assert (HR : forall A (nan : A) x y, shape x = L :: s ++ [m] -> shape y = L :: s' ++ [m] -> rows_at P nan x y -> row (item y l) p = row (item x l) q).
  { intros A nan x y Ex Ey R. rewrite (@row_item _ _ _ _ _ l p Ey), (@row_item _ _ _ _ _ l q Ex). apply R. exact HP. }
  assert (HO : forall A (nan : A) x y, oshape x (L :: s ++ [m]) -> oshape y (L :: s' ++ [m]) -> orel (rows_at P) nan x y -> option_map (fun x => row x p) (option_map (fun x => item x l) y) = option_map (fun x => row x q) (option_map (fun x => item x l) x)).
  { intros A nan [x|] [y|] Ex Ey; cbn [orel option_map]; try contradiction; [|reflexivity]. intros R. f_equal. exact (HR A nan x y Ex Ey R). }
  destruct data as [d c sq s1 s2|d c s1 s2|], out as [d' c' sq' s1' s2'|d' c' s1' s2'|]; cbn [data_rel all_shaped] in *; try contradiction.
  - destruct H as (-> & H0 & H1 & H2 & H3), S1 as (A0 & A1 & A2 & A3), S2 as (B0 & B1 & B2 & B3). cbn [pix level_data].
    rewrite (HR _ _ _ _ A0 B0 H0), (HO _ _ _ _ A1 B1 H1), (HO _ _ _ _ A2 B2 H2), (HO _ _ _ _ A3 B3 H3). reflexivity.
  - destruct H as (-> & H0 & H2 & H3), S1 as (A0 & A2 & A3), S2 as (B0 & B2 & B3). cbn [pix level_data].
    rewrite (HR _ _ _ _ A0 B0 H0), (HO _ _ _ _ A2 B2 H2), (HO _ _ _ _ A3 B3 H3). reflexivity.
Qed.
(** reshape_output without a mask: frames [k'] become frames [k2], the given shape [k] behind axes that are left *)
Definition out_frame (k k' : list nat) : list nat := firstn (length k' - length k) k' ++ k.
Lemma output_pixels K V nanv nank nanc (data : ndata K V) lead k k' m : all_shaped data (lead ++ k' ++ [m]) -> length k <= length k' -> size_of k' = size_of (out_frame k k') ->
  exists out, reshape_output_nd nanv nank nanc data k None = Ok out /\ all_shaped out (lead ++ out_frame k k' ++ [m]) /\
    data_rel nanv nank nanc (rows_at (fun p q => exists u r, p = u ++ r /\ q = u ++ unravel k' (out_frame k k') r /\ valid u lead /\ valid r (out_frame k k'))) data out.
Proof.
  intros HS HL Es. eapply output_rel; [exact HS| |].
  - unfold output_shape_nd. instantiate (1 := lead ++ out_frame k k' ++ [m]). replace (last (lead ++ k' ++ [m]) 0) with m by (rewrite app_assoc, last_last; reflexivity).
    destruct (lead ++ k' ++ [m]) as [|z l] eqn:EZ; [destruct lead; destruct k'; discriminate|]. rewrite <- EZ. f_equal. unfold out_frame, ReshapeModel.slice_neg. destruct (Nat.eqb_spec (length k + 1) 0); [lia|].
    rewrite !app_length. cbn [length]. replace (length lead + (length k' + 1) - (length k + 1)) with (length lead + (length k' - length k)) by lia. rewrite firstn_app_2, firstn_app. replace (length k' - length k - length k') with 0 by lia. rewrite app_nil_r, <- !app_assoc. reflexivity.
  - intros A nan x Ex. unfold reshape_one_nd. destruct (@reshape_mid A x lead k' (out_frame k k') [m] Ex Es) as (y & -> & Sy & Py). cbn [bind]. exists y. split; [reflexivity|]. split; [exact Sy|].
    intros p q (u & r & -> & -> & Hu & Hr). assert (Sy' : shape y = (lead ++ out_frame k k') ++ [m]) by (rewrite <- app_assoc; exact Sy). assert (Ex' : shape x = (lead ++ k') ++ [m]) by (rewrite <- app_assoc; exact Ex).
    rewrite (row_map _ Sy'), (row_map _ Ex'). apply map_ext_in. intros t Ht. apply in_seq in Ht. rewrite <- !app_assoc. apply Py; [exact Hu|exact Hr|]. constructor; [lia|constructor].
Qed.
Lemma wf_shaped K V (d : ndata K V) s m : wf d s m -> d <> NBad _ _ -> all_shaped d (s ++ [m]).
Proof. destruct d; cbn [wf all_shaped]; intros H N; [destruct H as (? & _ & ?)|destruct H as (? & _ & ?)|contradiction]; split; assumption. Qed.
Lemma form_shaped K V cross cor nm s cs (d : ndata K V) : tuple_form cross cor nm s cs d -> all_shaped d s.
Proof.
  assert (X : forall A flag (o : option (nd A)), form s flag o -> oshape o s) by (intros A [] o; cbn [form]; [intros (x & -> & E); exact E|intros ->; exact Logic.I]).
  destruct d; cbn [tuple_form all_shaped]; [intros (_ & H0 & _ & H1 & H2 & H3)|intros (_ & H0 & _ & H2 & H3)|auto]; (split; [exact H0|]); repeat split; eapply X; eassumption.
Qed.
Lemma pw_reindex fr fr' (phi : list nat -> list nat) X Y (proj : X -> list nat -> Y) good one r : (forall q, valid q fr' -> valid (phi q) fr) -> (forall p, valid p fr -> exists q, valid q fr' /\ phi q = p) ->
  pixelwise fr proj good one r -> pixelwise fr' (fun d q => proj d (phi q)) good (fun q => one (phi q)) r.
Proof.
  intros H1 H2 H. destruct r as [x|e]; cbn in *.
  - destruct H as (G & H). split; [exact G|]. intros q Hq. apply H, H1, Hq.
  - intros (q & Hq) Al. apply H; [exists (phi q); apply H1; exact Hq|]. intros p Hp. destruct (H2 p Hp) as (q' & Hq' & <-). apply Al. exact Hq'.
Qed.
