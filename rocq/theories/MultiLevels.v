(** What the in-memory multiple-tau algorithm correlates at every level. *)
From Verif Require Import Base Kernels PairSpec CoreModel NormModel CorrModel MultiModel MultiSpec MultiProofs.
From Coq Require Import String.
Open Scope string_scope.
Open Scope nat_scope.
Open Scope list_scope.
Local Notation length := List.length.
Set Implicit Arguments.

Lemma opt_map_map A B C (f : A -> B) (g : B -> C) o : option_map g (option_map f o) = option_map (fun x => g (f x)) o.
Proof. destruct o; reflexivity. Qed.
Lemma bind_ok A B (x : res A) (f : A -> res B) b : bind x f = Ok b -> exists a, x = Ok a /\ f a = Ok b.
Proof. destruct x; [eauto|discriminate]. Qed.

Section Levels.
  Variable K : Fld.
  Notation C := (Cx K).
  Variable V : Type.
  Variable zero : V.
  Variable complex : bool.
  Variable cc : bool -> list C -> list C -> option (list Z) -> option (list Z) -> option nat ->
    option Z -> option string -> option (list K) -> option (list K) -> option (cdata K V) -> res (cdata K V).
  Variable ac : bool -> list C -> option (list Z) -> option (list K) -> option nat ->
    option Z -> option string -> option (cdata K V) -> res (cdata K V).
  Variable aligned : nat -> bool.
  Variable rs : nat -> nat -> bool.
  (** The binned signals of level [l] for a binning for which one step leads to the next
      level. *)
  Variable bin : Z.
  Variable lev : forall G : QGrp, nat -> list G -> list G.
  Hypothesis lev0 : forall (G : QGrp) f, lev G 0 f = f.
  Hypothesis levS : forall (G : QGrp) l r f, bin_data G bin r (lev G l f) = lev G (S l) f.

  Lemma levels_cross todo : forall i norm method n f1 f2 f1s f2s rows,
    multi_levels zero complex cc aligned rs todo i bin norm method n (lev (cgrp K) i f1) (lev (cgrp K) i f2)
      (option_map (lev (fgrp K) i) f1s) (option_map (lev (fgrp K) i) f2s) = Ok rows ->
    length rows = todo /\ forall l, l < todo ->
      cc (aligned (S (i + l))) (lev (cgrp K) (S (i + l)) f1) (lev (cgrp K) (S (i + l)) f2) None None (Some n) (Some norm) (Some method)
        (option_map (lev (fgrp K) (S (i + l))) f1s) (option_map (lev (fgrp K) (S (i + l))) f2s)
        (Some (slow_row K zero complex true (negb (String.eqb method "diff")) norm n)) = Ok (nth l rows DBad).
  Proof.
    clear ac.
    induction todo as [|todo IH]; intros i norm method n f1 f2 f1s f2s rows H; cbn [multi_levels] in H.
    - injection H as <-. split; [reflexivity|lia].
    - rewrite !opt_map_map in H. rewrite !levS in H.
      assert (E : forall o r, option_map (fun x => bin_data (fgrp K) bin r (lev (fgrp K) i x)) o = option_map (lev (fgrp K) (S i)) o)
        by (intros [o|] r; cbn; [rewrite levS|]; reflexivity).
      rewrite !E in H. apply bind_ok in H. destruct H as (row & HR & H). apply bind_ok in H. destruct H as (rest & HT & H).
      injection H as <-. destruct (IH _ _ _ _ _ _ _ _ _ HT) as [HL HN]. split; [cbn; rewrite HL; reflexivity|].
      intros [|l] Hl; [rewrite Nat.add_0_r; exact HR|]. rewrite Nat.add_succ_r. apply HN. lia.
  Qed.
  Lemma levels_auto todo : forall i norm method n f fs rows,
    multi_levels_auto zero complex ac aligned rs todo i bin norm method n (lev (cgrp K) i f) (option_map (lev (fgrp K) i) fs) = Ok rows ->
    length rows = todo /\ forall l, l < todo ->
      ac (aligned (S (i + l))) (lev (cgrp K) (S (i + l)) f) None (option_map (lev (fgrp K) (S (i + l))) fs) (Some n) (Some norm) (Some method)
        (Some (slow_row K zero complex false (negb (String.eqb method "diff")) norm n)) = Ok (nth l rows DBad).
  Proof.
    clear cc.
    induction todo as [|todo IH]; intros i norm method n f fs rows H; cbn [multi_levels_auto] in H.
    - injection H as <-. split; [reflexivity|lia].
    - rewrite !opt_map_map in H. rewrite !levS in H.
      assert (E : forall o r, option_map (fun x => bin_data (fgrp K) bin r (lev (fgrp K) i x)) o = option_map (lev (fgrp K) (S i)) o)
        by (intros [o|] r; cbn; [rewrite levS|]; reflexivity).
      rewrite !E in H. apply bind_ok in H. destruct H as (row & HR & H). apply bind_ok in H. destruct H as (rest & HT & H).
      injection H as <-. destruct (IH _ _ _ _ _ _ _ HT) as [HL HN]. split; [cbn; rewrite HL; reflexivity|].
      intros [|l] Hl; [rewrite Nat.add_0_r; exact HR|]. rewrite Nat.add_succ_r. apply HN. lia.
  Qed.

  (** The squares of level 0, if the norm needs them *)
  Definition squares_arg (nm : Z) (method : string) (f : list C) : option (list K) :=
    if (has_flag nm NORM_STRUCTURED && negb (String.eqb method "diff"))%bool then Some (map (@cnorm2 K) f) else None.

  Lemma lev0_opt o : option_map (lev (fgrp K) 0) o = o.
  Proof. destruct o; cbn; [rewrite lev0|]; reflexivity. Qed.
  Lemma correlate_eq method binning m b : _default_method_and_binning method binning = Ok (m, b) ->
    (String.eqb m "corr" || String.eqb m "fft")%bool = negb (String.eqb m "diff").
  Proof.
    unfold _default_method_and_binning. set (m' := match method with None => "corr" | Some m => m end).
    destruct (String.eqb_spec m' "corr") as [E|].
    - intros H. cbn [orb bind] in H. destruct (in_list _ _); [|discriminate]. injection H as <- _. rewrite E. reflexivity.
    - destruct (String.eqb_spec m' "fft") as [E|].
      + intros H. cbn [orb bind] in H. destruct (in_list _ _); [|discriminate]. injection H as <- _. rewrite E. reflexivity.
      + destruct (String.eqb_spec m' "diff") as [E|]; intros H; cbn [orb bind] in H; [|discriminate].
        destruct (in_list _ _); [|discriminate]. injection H as <- _. rewrite E. reflexivity.
  Qed.

  Lemma multi_cross_levels f1 f2 t1 t2 period level_size binning nlevel norm method m nm fast slow :
    multi_cross zero complex cc aligned rs f1 f2 t1 t2 period level_size binning nlevel norm method = Ok (fast, slow) ->
    _default_method_and_binning method binning = Ok (m, bin) -> _default_norm norm m true = Ok nm ->
    forall l, l < length slow ->
      cc (aligned (S l)) (lev (cgrp K) (S l) f1) (lev (cgrp K) (S l) f2) None None (Some level_size) (Some nm) (Some m)
        (option_map (lev (fgrp K) (S l)) (squares_arg nm m f1)) (option_map (lev (fgrp K) (S l)) (squares_arg nm m f2))
        (Some (slow_row K zero complex true (negb (String.eqb m "diff")) nm level_size)) = Ok (nth l slow DBad).
  Proof.
    clear ac.
    intros H HM HN. unfold multi_cross in H. rewrite HM in H. cbn [bind] in H. rewrite HN in H. cbn [bind] in H.
    rewrite (correlate_eq _ _ HM) in H.
    apply bind_ok in H. destruct H as ([ts n] & HI & H).
    assert (n = level_size).
    { unfold _inspect_cross_arguments in HI. destruct t1, t2; cbn [bind] in HI; try discriminate;
        destruct (negb (length f1 =? length f2)); try discriminate; cbn [bind] in HI; [|congruence].
      destruct (_shift_cross l l0); [|discriminate]. cbn [bind] in HI. congruence. }
    subst n. apply bind_ok in H. destruct H as ([[nf ns] nl] & HD & H).
    assert (ns = level_size).
    { unfold _determine_lengths in HD. destruct (level_size <=? 4); [discriminate|].
      match type of HD with (if ?c then _ else _) = _ => destruct c end; [discriminate|]. congruence. }
    subst ns. apply bind_ok in H. destruct H as (df & HF & H). apply bind_ok in H. destruct H as (ds & HS & H). injection H as <- <-.
    fold (squares_arg nm m f1) in HS. fold (squares_arg nm m f2) in HS.
    pose proof (@levels_cross nl 0 nm m level_size f1 f2 (squares_arg nm m f1) (squares_arg nm m f2) ds) as HL.
    rewrite !lev0, !lev0_opt in HL. destruct (HL HS) as [HE HR]. rewrite HE. exact HR.
  Qed.
  Lemma multi_auto_levels f t period level_size binning nlevel norm method m nm fast slow :
    multi_auto zero complex ac aligned rs f t period level_size binning nlevel norm method = Ok (fast, slow) ->
    _default_method_and_binning method binning = Ok (m, bin) -> _default_norm norm m false = Ok nm ->
    forall l, l < length slow ->
      ac (aligned (S l)) (lev (cgrp K) (S l) f) None (option_map (lev (fgrp K) (S l)) (squares_arg nm m f)) (Some level_size) (Some nm) (Some m)
        (Some (slow_row K zero complex false (negb (String.eqb m "diff")) nm level_size)) = Ok (nth l slow DBad).
  Proof.
    clear cc.
    intros H HM HN. unfold multi_auto in H. rewrite HM in H. cbn [bind] in H. rewrite HN in H. cbn [bind] in H.
    rewrite (correlate_eq _ _ HM) in H.
    apply bind_ok in H. destruct H as ([ts n] & HI & H).
    assert (n = level_size).
    { unfold _inspect_auto_arguments in HI. cbn [bind] in HI. destruct t as [t|]; cbn [bind] in HI; [|congruence].
      destruct (zmin_list t); cbn [bind] in HI; congruence. }
    subst n. apply bind_ok in H. destruct H as ([[nf ns] nl] & HD & H).
    assert (ns = level_size).
    { unfold _determine_lengths in HD. destruct (level_size <=? 4); [discriminate|].
      match type of HD with (if ?c then _ else _) = _ => destruct c end; [discriminate|]. congruence. }
    subst ns. apply bind_ok in H. destruct H as (df & HF & H). apply bind_ok in H. destruct H as (ds & HS & H). injection H as <- <-.
    fold (squares_arg nm m f) in HS.
    pose proof (@levels_auto nl 0 nm m level_size f (squares_arg nm m f) ds) as HL.
    rewrite !lev0, !lev0_opt in HL. destruct (HL HS) as [HE HR]. rewrite HE. exact HR.
  Qed.
End Levels.

(** Binning with means or first samples leads from one level to the next. *)
Lemma mean_levels (G : QGrp) l r (f : list G) : bin_data G BINNING_MEAN r (block_means G l f) = block_means G (S l) f.
Proof. apply mean_data_blocks. Qed.
Lemma first_levels (G : QGrp) l r (f : list G) : bin_data G BINNING_FIRST r (block_firsts G l f) = block_firsts G (S l) f.
Proof. apply slice_data_firsts. Qed.

(** The number of levels that the in-memory functions return *)
Lemma levels_length K V zero complex cc aligned rs todo : forall i bin norm method n f1 f2 f1s f2s rows,
  @multi_levels K V zero complex cc aligned rs todo i bin norm method n f1 f2 f1s f2s = Ok rows -> length rows = todo.
Proof.
  induction todo as [|todo IH]; intros i bin norm method n f1 f2 f1s f2s rows H; cbn [multi_levels] in H.
  - injection H as <-. reflexivity.
  - apply bind_ok in H. destruct H as (row & _ & H). apply bind_ok in H. destruct H as (rest & HT & H).
    injection H as <-. cbn. f_equal. eapply IH. exact HT.
Qed.
Lemma levels_auto_length K V zero complex ac aligned rs todo : forall i bin norm method n f fs rows,
  @multi_levels_auto K V zero complex ac aligned rs todo i bin norm method n f fs = Ok rows -> length rows = todo.
Proof.
  induction todo as [|todo IH]; intros i bin norm method n f fs rows H; cbn [multi_levels_auto] in H.
  - injection H as <-. reflexivity.
  - apply bind_ok in H. destruct H as (row & _ & H). apply bind_ok in H. destruct H as (rest & HT & H).
    injection H as <-. cbn. f_equal. eapply IH. exact HT.
Qed.
Lemma determine_lengths_inv len n period nf ns nl : _determine_lengths len n period None = Ok (nf, ns, nl) ->
  4 < n <= len /\ n <= len / 2 ^ nl /\ len / 2 ^ S nl < n.
Proof.
  intros H. assert (HN : 4 < n <= len).
  { unfold _determine_lengths in H. destruct (Nat.leb_spec n 4) as [|H4]; [discriminate|].
    split; [exact H4|]. destruct (Nat.le_gt_cases n len) as [|HL]; [assumption|exfalso].
    assert (H0 : 0 < n) by lia. pose proof (proj1 (count_levels_spec len H0 0)) as HC. cbn [Nat.pow] in HC. rewrite Nat.div_1_r in HC.
    destruct (count_levels (S len) len n 0); [discriminate|]. specialize (HC ltac:(lia)). lia. }
  split; [exact HN|]. destruct (determine_lengths_ok period HN) as (nl' & E & H1 & H2). rewrite E in H. injection H as _ _ <-. auto.
Qed.
Lemma multi_cross_nlevel K V zero complex cc aligned rs f1 f2 t1 t2 period n binning norm method fast slow :
  @multi_cross K V zero complex cc aligned rs f1 f2 t1 t2 period n binning None norm method = Ok (fast, slow) ->
  4 < n <= length f1 /\ n <= length f1 / 2 ^ length slow /\ length f1 / 2 ^ S (length slow) < n.
Proof.
  intros H. unfold multi_cross in H. apply bind_ok in H. destruct H as ([m b] & _ & H). apply bind_ok in H. destruct H as (nm & _ & H).
  apply bind_ok in H. destruct H as ([ts n'] & HI & H).
  assert (n' = n).
  { unfold _inspect_cross_arguments in HI. destruct t1, t2; cbn [bind] in HI; try discriminate;
      destruct (negb (length f1 =? length f2)); try discriminate; cbn [bind] in HI; [|congruence].
    destruct (_shift_cross l l0); [|discriminate]. cbn [bind] in HI. congruence. }
  subst n'. apply bind_ok in H. destruct H as ([[nf ns] nl] & HD & H). apply bind_ok in H. destruct H as (df & _ & H).
  apply bind_ok in H. destruct H as (ds & HS & H). injection H as _ <-. apply levels_length in HS. rewrite HS.
  eapply determine_lengths_inv. exact HD.
Qed.
Lemma multi_auto_nlevel K V zero complex ac aligned rs f t period n binning norm method fast slow :
  @multi_auto K V zero complex ac aligned rs f t period n binning None norm method = Ok (fast, slow) ->
  4 < n <= length f /\ n <= length f / 2 ^ length slow /\ length f / 2 ^ S (length slow) < n.
Proof.
  intros H. unfold multi_auto in H. apply bind_ok in H. destruct H as ([m b] & _ & H). apply bind_ok in H. destruct H as (nm & _ & H).
  apply bind_ok in H. destruct H as ([ts n'] & HI & H).
  assert (n' = n).
  { unfold _inspect_auto_arguments in HI. cbn [bind] in HI. destruct t as [t|]; cbn [bind] in HI; [|congruence].
    destruct (zmin_list t); cbn [bind] in HI; congruence. }
  subst n'. apply bind_ok in H. destruct H as ([[nf ns] nl] & HD & H). apply bind_ok in H. destruct H as (df & _ & H).
  apply bind_ok in H. destruct H as (ds & HS & H). injection H as _ <-. apply levels_auto_length in HS. rewrite HS.
  eapply determine_lengths_inv. exact HD.
Qed.
