(** Which calls of ccorr and acorr are accepted. *)
From Verif Require Import Base Kernels PairSpec KernelProofs PairLemmas CoreModel CoreProofs CoreProofs3 NormModel NormSpec
  FftModel CorrModel CorrSpec CorrProofs CorrProofs2 NormProofs NormProofs2 NormApi NormAuto NormMap.
From Coq Require Import String Field ZifyBool ZifyNat.
Open Scope string_scope.
Open Scope nat_scope.
Local Notation length := List.length.
Set Implicit Arguments.

(** The documented combinations of norm and method. *)
Definition allowed (cross complex : bool) (norm : option Z) (method : option string) : Prop :=
  (match method with None => True | Some m => m = "corr" \/ m = "fft" end /\
   match norm with None => True | Some z => In z [1; 2; 3; 5; 6; 7]%Z end) \/
  (method = Some "diff" /\ (cross = true -> complex = false) /\
   match norm with None => True | Some z => z = 2%Z \/ (cross = true /\ z = 6%Z) end).

(** What the arguments are checked to before anything is computed. *)
Lemma checks_reject cross complex norm method n : ~ allowed cross complex norm method ->
  (exists e, _default_method method n = Raise e /\ e = ValueError) \/
  (exists m, _default_method method n = Ok m /\
    (_default_norm norm m cross = Raise ValueError \/
     (exists z, _default_norm norm m cross = Ok z) /\ m = "diff" /\ cross = true /\ complex = true)).
Proof.
  intros HA. unfold allowed in HA. destruct method as [m|].
  - unfold _default_method. destruct (String.eqb_spec m "corr") as [->|N1].
    { right. exists "corr". split; [reflexivity|]. left. unfold _default_norm. cbn [String.eqb Ascii.eqb Bool.eqb].
      destruct norm as [z|]; [|exfalso; apply HA; auto].
      destruct (in_list z [1; 2; 3; 5; 6; 7]%Z) eqn:E; [|reflexivity]. apply in_list_In in E. exfalso. apply HA. auto. }
    destruct (String.eqb_spec m "fft") as [->|N2].
    { right. exists "fft". split; [reflexivity|]. left. unfold _default_norm. cbn [String.eqb Ascii.eqb Bool.eqb].
      destruct norm as [z|]; [|exfalso; apply HA; auto].
      destruct (in_list z [1; 2; 3; 5; 6; 7]%Z) eqn:E; [|reflexivity]. apply in_list_In in E. exfalso. apply HA. auto. }
    destruct (String.eqb_spec m "diff") as [->|N3].
    2: { left. exists ValueError. auto. }
    right. exists "diff". split; [reflexivity|]. unfold _default_norm. cbn [String.eqb Ascii.eqb Bool.eqb].
    destruct cross.
    + destruct norm as [z|].
      * destruct (in_list z _) eqn:E; [|left; reflexivity]. right. split; [eexists; reflexivity|]. split; [reflexivity|]. split; [reflexivity|].
        destruct complex; [reflexivity|]. exfalso. apply HA. right. split; [reflexivity|]. split; [reflexivity|].
        apply in_list_In in E. cbn in E. destruct E as [E|[E|[]]]; subst z; auto.
      * right. split; [eexists; reflexivity|]. split; [reflexivity|]. split; [reflexivity|].
        destruct complex; [reflexivity|]. exfalso. apply HA. right. auto.
    + destruct norm as [z|]; [|exfalso; apply HA; right; repeat split; discriminate].
      destruct (in_list z _) eqn:E; [|left; reflexivity]. exfalso. apply HA. right. repeat split; try discriminate.
      apply in_list_In in E. cbn in E. destruct E as [E|[]]; subst z; auto.
  - right. exists (match n with None => "fft" | Some _ => "corr" end). split; [reflexivity|]. left.
    destruct norm as [z|]; [|exfalso; apply HA; auto].
    destruct (in_list z [1; 2; 3; 5; 6; 7]%Z) eqn:E.
    + apply in_list_In in E. exfalso. apply HA. auto.
    + unfold _default_norm. destruct n; cbn [String.eqb Ascii.eqb Bool.eqb]; rewrite E; reflexivity.
Qed.

Section Reject.
  Variable K : Fld.
  Notation C := (Cx K).
  Variable W : nat -> C.
  Lemma ccorr_rejects aligned (f1 f2 : list C) t1 t2 n norm method f1s f2s aout : ~ allowed true false norm method ->
    ccorr W aligned f1 f2 t1 t2 n norm method f1s f2s aout = Raise ValueError.
  Proof.
    intros HA. unfold ccorr, ccorr_gen. destruct (checks_reject n HA) as [(e & -> & ->)|(m & -> & H)]; [reflexivity|]. cbn [bind].
    destruct H as [->|(_ & _ & _ & H)]; [reflexivity|discriminate].
  Qed.
  Lemma ccorr_complex_rejects aligned (f1 f2 : list C) t1 t2 n norm method f1s f2s aout : ~ allowed true true norm method ->
    ccorr_complex W aligned f1 f2 t1 t2 n norm method f1s f2s aout = Raise ValueError.
  Proof.
    intros HA. unfold ccorr_complex, ccorr_gen. destruct (checks_reject n HA) as [(e & -> & ->)|(m & -> & H)]; [reflexivity|]. cbn [bind].
    destruct H as [->|((z & ->) & -> & _ & H)]; reflexivity.
  Qed.
  Lemma acorr_rejects aligned (f : list C) t fs n norm method aout c : ~ allowed false c norm method ->
    acorr W aligned f t fs n norm method aout = Raise ValueError.
  Proof.
    intros HA. unfold acorr, acorr_gen. destruct (checks_reject n HA) as [(e & -> & ->)|(m & -> & H)]; [reflexivity|]. cbn [bind].
    destruct H as [->|(_ & _ & H & _)]; [reflexivity|discriminate].
  Qed.
  Lemma acorr_complex_rejects aligned (f : list C) t fs n norm method aout c : ~ allowed false c norm method ->
    acorr_complex W aligned f t fs n norm method aout = Raise ValueError.
  Proof.
    intros HA. unfold acorr_complex, acorr_gen. destruct (checks_reject n HA) as [(e & -> & ->)|(m & -> & H)]; [reflexivity|]. cbn [bind].
    destruct H as [->|(_ & _ & H & _)]; [reflexivity|discriminate].
  Qed.

  (** An optional array is present exactly if [flag] is set, and has [N] cells. *)
  Definition present {A} (x : option (list A)) (flag : bool) (N : nat) : Prop :=
    match x with Some l => flag = true /\ length l = N | None => flag = false end.
  Lemma bit1 nm : has_flag nm NORM_STRUCTURED = Z.testbit nm 1.
  Proof.
    unfold has_flag, NORM_STRUCTURED. change 2%Z with (2 ^ 1)%Z.
    destruct (Z.testbit nm 1) eqn:E.
    - destruct (Z.eqb_spec (Z.land nm (2 ^ 1)) 0) as [H|]; [|reflexivity].
      apply (f_equal (fun z => Z.testbit z 1)) in H. rewrite Z.land_spec, E in H. discriminate.
    - destruct (Z.eqb_spec (Z.land nm (2 ^ 1)) 0) as [|H]; [reflexivity|]. exfalso. apply H.
      apply Z.bits_inj'. intros i Hi. rewrite Z.land_spec, Z.bits_0, Z.pow2_bits_eqb by lia.
      destruct (Z.eqb_spec 1 i) as [<-|]; [rewrite E|rewrite andb_false_r]; reflexivity.
  Qed.
  Lemma bit2 nm : has_flag nm NORM_SUBTRACTED = Z.testbit nm 2.
  Proof.
    unfold has_flag, NORM_SUBTRACTED. change 4%Z with (2 ^ 2)%Z.
    destruct (Z.testbit nm 2) eqn:E.
    - destruct (Z.eqb_spec (Z.land nm (2 ^ 2)) 0) as [H|]; [|reflexivity].
      apply (f_equal (fun z => Z.testbit z 2)) in H. rewrite Z.land_spec, E in H. discriminate.
    - destruct (Z.eqb_spec (Z.land nm (2 ^ 2)) 0) as [|H]; [reflexivity|]. exfalso. apply H.
      apply Z.bits_inj'. intros i Hi. rewrite Z.land_spec, Z.bits_0, Z.pow2_bits_eqb by lia.
      destruct (Z.eqb_spec 2 i) as [<-|]; [rewrite E|rewrite andb_false_r]; reflexivity.
  Qed.

  Ltac shape := rewrite ?bit1, ?bit2; repeat split; try exact I;
    rewrite ?(@len_fresh (fmon K)), ?(@len_fresh (cmon K)), ?(@len_fresh natmon); try reflexivity;
    try exact (@len_fresh (fmon K) _ _); try exact (@len_fresh (cmon K) _ _); try exact (@len_fresh natmon _ _);
    unfold present;
    match goal with |- context [if ?b then _ else _] => destruct b; cbn [start]; [split; [reflexivity|]|reflexivity] end;
    first [apply (@len_fresh (fmon K))|apply (@len_fresh (cmon K))].

  Definition corr_shape {V} (data : cdata K V) (nm : Z) (cross : bool) (N : nat) : Prop :=
    match data with
    | DCorr d c sq s1 s2 => length d = N /\ length c = N /\ present sq (Z.testbit nm 1) N /\
        present s1 (Z.testbit nm 2) N /\ (if cross then present s2 (Z.testbit nm 2) N else s2 = None)
    | _ => False
    end.
  Definition diff_shape {V} (data : cdata K V) (nm : Z) (cross : bool) (N : nat) : Prop :=
    match data with
    | DDiff d c s1 s2 => length d = N /\ length c = N /\
        (if cross then present s1 (Z.testbit nm 2) N /\ present s2 (Z.testbit nm 2) N else s1 = None /\ s2 = None)
    | _ => False
    end.
  Lemma real_shape P N nm : corr_shape (@cross_real_data K P N nm) nm true N.
  Proof. clear W. unfold corr_shape, cross_real_data, corr_tuple. shape. Qed.
  Lemma complex_shape P N nm : corr_shape (@cross_complex_data K P N nm) nm true N.
  Proof. clear W. unfold corr_shape, cross_complex_data, corr_tuple. shape. Qed.
  Lemma cdiff_shape P N nm : diff_shape (@cross_diff_data K P N nm) nm true N.
  Proof. clear W. unfold diff_shape, cross_diff_data. shape. Qed.
  Lemma auto_shape P N nm : corr_shape (@auto_real_data K P N nm) nm false N.
  Proof. clear W. unfold corr_shape, auto_real_data, acorr_tuple. shape. Qed.
  Lemma auto_complex_shape P N nm : corr_shape (@auto_complex_data K P N nm) nm false N.
  Proof. clear W. unfold corr_shape, auto_complex_data, acorr_tuple. shape. Qed.
  Lemma adiff_shape P N nm : diff_shape (@auto_diff_data K P N) nm false N.
  Proof. clear W. unfold diff_shape, auto_diff_data. shape. Qed.

  (** bg gives the backgrounds b1 and b2 *)
  Definition background (bg : statarg C) (b1 b2 : C) : Prop := bg = STwo b1 b2 \/ (bg = SOne b1 /\ b2 = b1).

  (** The cell by cell quotient of correlation and count. *)
  Definition divided {V} (z : V) (ov : V -> nat -> fval V) (data : res (cdata K V)) : res (list (fval V)) :=
    match data with
    | Ok (DCorr d c _ _ _) => Ok (map (fun k => ov (nth k d z) (nth k c 0)) (seq 0 (length d)))
    | Ok _ => Raise ValueError
    | Raise e => Raise e
    end.
  Lemma divided_real P N nm : divided (f0 K) (over K) (Ok (@cross_real_data K P N nm)) =
    Ok (at_delays N P (fun Q => mean Q (@re_prod K))).
  Proof.
    clear W.
    unfold divided, cross_real_data, corr_tuple. rewrite (@len_fresh (fmon K)). f_equal. unfold at_delays.
    apply map_ext_in. intros k Hk. apply in_seq in Hk. cbn [start].
    rewrite (@nth_fresh (fmon K)), (@nth_fresh natmon) by lia.
    destruct (P k); reflexivity.
  Qed.
  Lemma divided_complex P N nm : divided (c0 K) (@cover K) (Ok (@cross_complex_data K P N nm)) =
    Ok (at_delays N P (fun Q => cmean Q (@cx_prod K))).
  Proof.
    clear W.
    unfold divided, cross_complex_data, corr_tuple. rewrite (@len_fresh (cmon K)). f_equal. unfold at_delays.
    apply map_ext_in. intros k Hk. apply in_seq in Hk. cbn [start].
    rewrite (@nth_fresh (cmon K)), (@nth_fresh natmon) by lia.
    destruct (P k) eqn:E; [reflexivity|]. rewrite <- E. apply mean_cover. rewrite E. discriminate.
  Qed.
  Lemma divided_auto P N nm : divided (f0 K) (over K) (Ok (@auto_real_data K P N nm)) =
    Ok (at_delays N P (fun Q => mean Q (@re_prod K))).
  Proof.
    clear W.
    unfold divided, auto_real_data, acorr_tuple. rewrite (@len_fresh (fmon K)). f_equal. unfold at_delays.
    apply map_ext_in. intros k Hk. apply in_seq in Hk. cbn [start].
    rewrite (@nth_fresh (fmon K)), (@nth_fresh natmon) by lia.
    destruct (P k); reflexivity.
  Qed.
End Reject.
