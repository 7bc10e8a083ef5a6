(** Proofs about the model of video.py (VideoModel.v). *)
From Coq Require Import ZifyBool ZifyNat.
From Verif Require Import Base KernelProofs RegularProofs VideoModel.
Set Implicit Arguments.

(** * Generators *)
Lemma gen_each_ok A B (body : A -> res B) (g : A -> B) l e : (forall x, In x l -> body x = Ok (g x)) -> gen_each body l e = Gen (map g l) e.
Proof.
  induction l as [|x l IH]; intros H; [reflexivity|]. cbn [gen_each map]. rewrite H by (left; reflexivity). rewrite IH by (intros; apply H; right; assumption). reflexivity.
Qed.
Lemma gen_each_fail A B (body : A -> res B) (g : A -> B) l x l' e e' : (forall y, In y l -> body y = Ok (g y)) -> body x = Raise e' -> gen_each body (l ++ x :: l') e = Gen (map g l) (Some e').
Proof.
  induction l as [|y l IH]; intros H Hx; cbn [app gen_each]; [rewrite Hx; reflexivity|]. rewrite H by (left; reflexivity). rewrite IH by (try assumption; intros; apply H; right; assumption). reflexivity.
Qed.
Lemma gen_zip_yields A B (x : list A) ex (y : list B) ey : yields (gen_zip x ex y ey) = combine x y.
Proof. revert y. induction x as [|a x IH]; intros [|b y]; try reflexivity. cbn [gen_zip combine yields]. rewrite IH. reflexivity. Qed.
Lemma gen_zip_ending A B (x : list A) ex (y : list B) ey : ending (gen_zip x ex y ey) = if length x <=? length y then ex else ey.
Proof. revert y. induction x as [|a x IH]; intros [|b y]; try reflexivity. cbn [gen_zip ending length Nat.leb]. apply IH. Qed.
Lemma map_res_v_ok A B (f : A -> res B) (g : A -> B) l : (forall x, In x l -> f x = Ok (g x)) -> map_res_v f l = Ok (map g l).
Proof. induction l as [|x l IH]; intros H; [reflexivity|]. cbn [map_res_v map]. rewrite H by (left; reflexivity). rewrite IH by (intros; apply H; right; assumption). reflexivity. Qed.

Lemma skipn_nth A j (l : list A) d : j < length l -> skipn j l = nth j l d :: skipn (S j) l.
Proof. revert j. induction l as [|x l IH]; intros j H; [cbn in H; lia|]. destruct j as [|j]; [reflexivity|]. cbn [skipn nth]. rewrite IH by (cbn in H; lia). reflexivity. Qed.
(** * Arrays *)
Section Arrays.
  Variable F : Type.
  Variable d : F.
  Variable store : F -> F -> res F.
  Lemma load_rows_ok protos count j : j < count -> forall frames i out, i + length frames = length out -> (forall k, k < length frames -> store (nth (i + k) protos (nth k frames d)) (nth k frames d) = Ok (nth k frames d)) ->
    exists out', load_rows store protos count j i frames out = Ok out' /\ length out' = length out /\
      forall k, k < length out -> nth k out' [] = if k <? i then nth k out [] else upd (nth k out []) j (nth (k - i) frames d).
  Proof.
    intros Hj. induction frames as [|f frames IH]; intros i out HL HS.
    - exists out. split; [reflexivity|split; [reflexivity|]]. intros k Hk. cbn [length] in HL. replace (k <? i) with true by lia. reflexivity.
    - cbn [load_rows]. unfold load_row. cbn [length] in HL. replace (i <? length out) with true by lia. replace (j <? count) with true by lia.
      pose proof (HS 0 ltac:(cbn; lia)) as H0. rewrite Nat.add_0_r in H0. cbn [nth] in H0. rewrite H0. cbn [bind].
      destruct (IH (S i) (upd out i (upd (nth i out []) j f))) as (out' & E & L & N).
      + rewrite upd_length. lia.
      + intros k Hk. specialize (HS (S k) ltac:(cbn; lia)). cbn [nth] in HS. rewrite <- Nat.add_succ_comm in HS. exact HS.
      + rewrite upd_length in *. exists out'. split; [exact E|split; [exact L|]]. intros k Hk. rewrite N by exact Hk. rewrite nth_upd.
        destruct (Nat.lt_trichotomy k i) as [C|[C|C]].
        * replace (k <? S i) with true by lia. replace (k <? i) with true by lia. replace (k =? i) with false by lia. reflexivity.
        * subst k. replace (i <? S i) with true by lia. replace (i <? i) with false by lia. replace (i =? i) with true by lia. replace (i <? length out) with true by lia. rewrite Nat.sub_diag. reflexivity.
        * replace (k <? S i) with false by lia. replace (k <? i) with false by lia. replace (k =? i) with false by lia. cbn [andb]. replace (k - i) with (S (k - S i)) by lia. reflexivity.
  Qed.
  Lemma load_rows_late protos count j frames i out : count <= j -> frames <> [] -> load_rows store protos count j i frames out = Raise IndexError.
  Proof. intros Hj Hf. destruct frames as [|f frames]; [destruct (Hf eq_refl)|]. cbn [load_rows]. unfold load_row. destruct (i <? length out); [|reflexivity]. replace (j <? count) with false by lia. reflexivity. Qed.
  (** The arrays after [j] of the multi-frames [l] have been stored *)
  Definition table (junk : nat -> nat -> F) (m count : nat) (l : list (list F)) (j : nat) : list (list F) :=
    map (fun i => map (fun k => if k <? j then nth i (nth k l []) d else junk i k) (seq 0 count)) (seq 0 m).
  Lemma table_step junk m count l j out' : j < count -> length out' = m ->
    (forall k, k < m -> nth k out' [] = upd (nth k (table junk m count l j) []) j (nth k (nth j l []) d)) -> out' = table junk m count l (S j).
  Proof.
    intros Hj HL H. apply list_nth_ext with (d := []); [unfold table; rewrite map_length, seq_length; exact HL|]. rewrite HL. intros k Hk. rewrite H by exact Hk. unfold table. rewrite !nth_map_seq by exact Hk.
    apply list_nth_ext with (d := d); rewrite upd_length, !map_length, ?seq_length; [reflexivity|]. intros p Hp. rewrite nth_upd, map_length, seq_length. rewrite !nth_map_seq by exact Hp.
    destruct (Nat.eqb_spec p j) as [->|C].
    - replace (j <? count) with true by lia. replace (j <? S j) with true by lia. reflexivity.
    - cbn [andb]. replace (p <? S j) with (p <? j) by lia. reflexivity.
  Qed.
  Lemma table_length junk m count l j : length (table junk m count l j) = m.
  Proof. unfold table. rewrite map_length, seq_length. reflexivity. Qed.
  Lemma load_all_ok junk protos m count l e : (forall k, k < length l -> length (nth k l []) = m) ->
    (forall k i, k < length l -> i < m -> store (nth i protos (nth i (nth k l []) d)) (nth i (nth k l []) d) = Ok (nth i (nth k l []) d)) -> length l <= count ->
    forall n j, j + n = length l -> load_all store protos count j (skipn j l) e (table junk m count l j) = match e with None => Ok (table junk m count l (length l)) | Some e => Raise e end.
  Proof.
    intros HM HS HC. induction n as [|n IH]; intros j Hj.
    - rewrite skipn_all2 by lia. replace j with (length l) by lia. reflexivity.
    - rewrite (@skipn_nth _ j l []) by lia. cbn [load_all].
      destruct (@load_rows_ok protos count j ltac:(lia) (nth j l []) 0 (table junk m count l j)) as (out' & -> & L & N).
      + rewrite table_length. apply HM. lia.
      + intros k Hk. apply HS; [lia|]. rewrite HM in Hk by lia. exact Hk.
      + cbn [bind]. rewrite table_length in *. rewrite (@table_step junk m count l j out'); [apply IH; lia|lia|exact L|]. intros k Hk. rewrite N by exact Hk. replace (k <? 0) with false by lia. rewrite Nat.sub_0_r. reflexivity.
  Qed.
  Lemma load_all_late junk protos m count l e : (forall k, k < length l -> length (nth k l []) = m) -> 0 < m ->
    (forall k i, k < length l -> i < m -> store (nth i protos (nth i (nth k l []) d)) (nth i (nth k l []) d) = Ok (nth i (nth k l []) d)) -> count < length l ->
    forall n j, j + n = count -> load_all store protos count j (skipn j l) e (table junk m count l j) = Raise IndexError.
  Proof.
    intros HM Hm HS HC. induction n as [|n IH]; intros j Hj.
    - rewrite (@skipn_nth _ j l []) by lia. cbn [load_all]. rewrite load_rows_late; [reflexivity|lia|]. intros E. specialize (HM j ltac:(lia)). rewrite E in HM. cbn in HM. lia.
    - rewrite (@skipn_nth _ j l []) by lia. cbn [load_all].
      destruct (@load_rows_ok protos count j ltac:(lia) (nth j l []) 0 (table junk m count l j)) as (out' & -> & L & N).
      + rewrite table_length. apply HM. lia.
      + intros k Hk. apply HS; [lia|]. rewrite HM in Hk by lia. exact Hk.
      + cbn [bind]. rewrite table_length in *. rewrite (@table_step junk m count l j out'); [apply IH; lia|lia|exact L|]. intros k Hk. rewrite N by exact Hk. replace (k <? 0) with false by lia. rewrite Nat.sub_0_r. reflexivity.
  Qed.
  (** Everything that can happen for a non-empty video with multi-frames of one length *)
  Lemma load_arrays_spec junk l e m count : l <> [] -> 0 < m -> (forall frames, In frames l -> length frames = m) ->
    (forall k i, k < length l -> i < m -> store (nth i (nth 0 l []) d) (nth i (nth k l []) d) = Ok (nth i (nth k l []) d)) ->
    load_arrays store junk (Gen l e) count =
      if (count <? 0)%Z then Raise ValueError
      else if Z.to_nat count <? length l then Raise IndexError
      else match e with None => Ok (table junk m (Z.to_nat count) l (length l)) | Some e => Raise e end.
  Proof.
    intros H0 Hm HM HS. unfold load_arrays. cbn [yields ending]. destruct l as [|frames l]; [destruct (H0 eq_refl)|]. pose proof (HM frames (or_introl eq_refl)) as HF.
    destruct (Z.ltb_spec count 0) as [C|C]; [destruct frames; [cbn in HF; lia|reflexivity]|]. set (L := frames :: l) in *. set (n := Z.to_nat count).
    assert (HM' : forall k, k < length L -> length (nth k L []) = m) by (intros k Hk; apply HM, nth_In; exact Hk).
    assert (HS' : forall k i, k < length L -> i < m -> store (nth i frames (nth i (nth k L []) d)) (nth i (nth k L []) d) = Ok (nth i (nth k L []) d)).
    { intros k i Hk Hi. rewrite (nth_indep frames _ d) by lia. apply (HS k i Hk Hi). }
    assert (ET : map (fun i => map (junk i) (seq 0 n)) (seq 0 (length frames)) = table junk m n L 0).
    { unfold table. rewrite HF. apply map_ext. intros i. apply map_ext. intros k. reflexivity. }
    rewrite ET. change (load_rows store frames n 0 0 frames (table junk m n L 0)) with (load_rows store frames n 0 0 (nth 0 L []) (table junk m n L 0)).
    assert (X : (let* out := load_rows store frames n 0 0 (nth 0 L []) (table junk m n L 0) in load_all store frames n 1 l e out) = load_all store frames n 0 (skipn 0 L) e (table junk m n L 0)) by reflexivity.
    rewrite X. destruct (Nat.ltb_spec n (length L)) as [D|D].
    - apply (@load_all_late junk frames m n L e HM' Hm HS' D n 0). reflexivity.
    - apply (@load_all_ok junk frames m n L e HM' HS' D (length L) 0). reflexivity.
  Qed.
  (** zip of equally long arrays *)
  Lemma zip_all_ok arrays n : arrays <> [] -> (forall a, In a arrays -> length a = n) -> zip_all arrays n = map (fun j => map (fun a => nth j a d) arrays) (seq 0 n).
  Proof.
    revert arrays. induction n as [|n IH]; intros arrays H0 HL; [reflexivity|]. cbn [zip_all]. destruct arrays as [|a0 arr] eqn:EA; [destruct (H0 eq_refl)|]. rewrite <- EA in *. clear EA a0 arr.
    assert (FB : forallb (fun a : list F => negb (match a with [] => true | _ => false end)) arrays = true). { apply forallb_forall. intros a Ha. specialize (HL a Ha). destruct a; [discriminate|reflexivity]. }
    rewrite FB. cbn [seq map]. f_equal.
    - clear IH FB H0. induction arrays as [|a arr IHa]; [reflexivity|]. cbn [flat_map map]. rewrite IHa by (intros; apply HL; right; assumption). specialize (HL a (or_introl eq_refl)). destruct a; [discriminate|reflexivity].
    - rewrite IH; [|intros E; apply map_eq_nil in E; contradiction|intros a Ha; apply in_map_iff in Ha; destruct Ha as (b & <- & Hb); specialize (HL b Hb); destruct b; [discriminate|cbn in *; lia]].
      rewrite <- seq_shift, map_map. apply map_ext_in. intros j Hj. rewrite map_map. apply map_ext_in. intros a Ha. specialize (HL a Ha). destruct a; [discriminate|reflexivity].
  Qed.
End Arrays.

(** * Frames *)
Section Frames.
  Variable V : Type.
  Lemma shape_eqb_spec (x y : frame V) : shape_eqb x y = true <-> map (@length V) x = map (@length V) y.
  Proof.
    unfold shape_eqb. revert y. induction x as [|r x IH]; intros [|s y]; cbn [length combine forallb map fst snd Nat.eqb]; try (split; [reflexivity|reflexivity]); try (split; intros; discriminate).
    specialize (IH y). rewrite !Bool.andb_true_iff in *. rewrite Nat.eqb_eq in *. split.
    - intros (A & B & C). apply Nat.eqb_eq in B. f_equal; [exact B|]. apply IH. split; assumption.
    - intros E. injection E as E1 E2. apply IH in E2. apply Nat.eqb_eq in E1. tauto.
  Qed.
  Lemma map2_length (op : V -> V -> V) (a b : list V) : length a = length b -> length (map (fun ab => op (fst ab) (snd ab)) (combine a b)) = length a.
  Proof. intros H. rewrite map_length, combine_length. lia. Qed.
  Lemma pointwise_ok op (x y : frame V) : map (@length V) x = map (@length V) y -> exists r, pointwise op x y = Ok r /\ map (@length V) r = map (@length V) x.
  Proof.
    intros H. unfold pointwise. rewrite (proj2 (shape_eqb_spec x y) H). eexists. split; [reflexivity|]. revert y H. induction x as [|r x IH]; intros [|s y] H; try discriminate; [reflexivity|]. cbn [map] in H. injection H as H1 H2.
    cbn [combine map fst snd]. rewrite map2_length by exact H1. f_equal. apply IH. exact H2.
  Qed.
  Lemma pointwise_inverse op inv (x y : frame V) r : (forall row a b, In row x -> In a row -> inv (op a b) b = a) -> pointwise op x y = Ok r -> pointwise inv r y = Ok x.
  Proof.
    intros HI H. destruct (shape_eqb x y) eqn:E; [|unfold pointwise in H; rewrite E in H; discriminate]. apply shape_eqb_spec in E. destruct (pointwise_ok op _ _ E) as (r' & Hr & HS). rewrite H in Hr. injection Hr as <-.
    unfold pointwise in *. rewrite (proj2 (shape_eqb_spec x y) E) in H. injection H as <-. rewrite (proj2 (shape_eqb_spec _ y)) by (rewrite HS; exact E). f_equal. clear HS.
    revert y E. induction x as [|a x IH]; intros [|b y] E; try discriminate; [reflexivity|]. cbn [map] in E. injection E as E1 E2. cbn [combine map fst snd]. f_equal; [|apply IH; [intros row u v Hr; apply (HI row); right; exact Hr|exact E2]].
    assert (HA : forall u v, In u a -> inv (op u v) v = u) by (intros u v; apply HI; left; reflexivity). clear - HA E1. revert b E1. induction a as [|u a IH]; intros [|v b] E; try discriminate; [reflexivity|]. cbn [combine map fst snd]. rewrite HA by (left; reflexivity). f_equal. apply IH; [intros; apply HA; right; assumption|cbn in E; lia].
  Qed.
  Lemma pointwise_nth op (x y r : frame V) d i j : pointwise op x y = Ok r -> i < length x -> j < length (nth i x []) -> nth j (nth i r []) d = op (nth j (nth i x []) d) (nth j (nth i y []) d).
  Proof.
    intros H. destruct (shape_eqb x y) eqn:E; [|unfold pointwise in H; rewrite E in H; discriminate]. unfold pointwise in H. rewrite E in H. injection H as <-. apply shape_eqb_spec in E.
    revert y i E. induction x as [|a x IH]; intros [|b y] i E Hi Hj; try discriminate; [cbn in Hi; lia|]. cbn [map] in E. injection E as E1 E2. cbn [combine map fst snd]. destruct i as [|i]; cbn [nth] in *; [|apply IH; [exact E2|cbn in Hi; lia|exact Hj]].
    clear - E1 Hj. revert b j E1 Hj. induction a as [|u a IH]; intros [|v b] j E Hj; try discriminate; [cbn in Hj; lia|]. cbn [combine map fst snd]. destruct j as [|j]; [reflexivity|]. cbn [nth]. apply IH; cbn in *; lia.
  Qed.
End Frames.

(** * normalize_video *)
Section Normalized.
  Variable K : Fld.
  Add Field Kvn : (flaw K).
  Lemma div_mul_cancel (x y : K) : y <> f0 K -> fmul K (fdiv K x y) y = x.
  Proof. intros H. field. exact H. Qed.
  Lemma concat_map' (g : K -> K) (f : frame K) : concat (map (map g) f) = map g (concat f).
  Proof. induction f as [|r f IH]; [reflexivity|]. cbn [map concat]. rewrite map_app, IH. reflexivity. Qed.
  Lemma Sum_div (l : list K) (y : K) : y <> f0 K -> Sum (fmon K) (map (fun x => fdiv K x y) l) (fun x => x) = fdiv K (Sum (fmon K) l (fun x => x)) y.
  Proof.
    intros H. induction l as [|x l IH]; [change (f0 K = fdiv K (f0 K) y); field; exact H|]. 
    change (fadd K (fdiv K x y) (Sum (fmon K) (map (fun x => fdiv K x y) l) (fun x => x)) = fdiv K (fadd K x (Sum (fmon K) l (fun x => x))) y). etransitivity; [apply (f_equal (fadd K (fdiv K x y))); exact IH|].
    change (fadd K (fdiv K x y) (fdiv K (Sum (fmon K) l (fun x => x)) y) = fdiv K (fadd K x (Sum (fmon K) l (fun x => x))) y). field. exact H.
  Qed.
  Lemma normalized_mean (f : frame K) : concat f <> [] -> frame_mean K f <> f0 K -> frame_mean K (map (map (fun x => fdiv K x (frame_mean K f))) f) = f1 K.
  Proof.
    intros Hf H. unfold frame_mean at 1. rewrite concat_map', map_length. etransitivity; [apply (f_equal (fun z => fdiv K z (fnat K (length (concat f))))), Sum_div; exact H|]. unfold frame_mean in *. destruct (concat f) as [|x l] eqn:E; [destruct (Hf eq_refl)|]. rewrite <- E in *. clear E.
    set (S := Sum (fmon K) (concat f) (fun x => x)) in *. assert (N : fnat K (length (concat f)) <> f0 K) by (destruct (concat f); [destruct (Hf eq_refl)|apply fnat_neq0; cbn; lia]).
    set (n := fnat K (length (concat f))) in *. clearbody S n. assert (HS : S <> f0 K) by (intros ->; apply H; change (fdiv K (f0 K) n = f0 K); field; exact N).
    change (fcar K) in S. field. split; assumption.
  Qed.
End Normalized.
