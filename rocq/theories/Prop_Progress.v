(** C99: Messages, progress bars and frame rates. *)
From Coq Require Import String Ascii ZArith Lia ZifyBool ZifyNat.
From Verif Require Import Base ConfModel VideoModel ProgressModel.
Open Scope string_scope.
Open Scope nat_scope.
Open Scope list_scope.
Local Notation length := List.length.
Set Implicit Arguments.

Lemma String_length_app a b : String.length (a ++ b)%string = String.length a + String.length b.
Proof. induction a as [|c a IH]; [reflexivity|]. cbn. rewrite IH. reflexivity. Qed.
Lemma times_length s n : String.length (times_str s n) = n * String.length s.
Proof. induction n as [|n IH]; [reflexivity|]. cbn [times_str]. rewrite String_length_app, IH. lia. Qed.
Lemma filled_range it total len : (0 < total)%Z -> (0 <= it <= total)%Z -> (0 <= len)%Z -> (0 <= len * it / total <= len)%Z.
Proof. intros H1 H2 H3. split; [apply Z.div_pos; nia|]. apply Z.div_le_upper_bound; nia. Qed.

(** The bar of a step between 0 and the total is as long as asked for, whatever the step; it starts with the filled part, of
    the length in proportion to the step rounded down. *)
Theorem C99_bar (it total len : Z) fill : (0 < total)%Z -> (0 <= it <= total)%Z -> (0 <= len)%Z -> String.length fill = 1 ->
  String.length (bar it total len fill) = Z.to_nat len /\
  exists k, (Z.of_nat k * total <= len * it < (Z.of_nat k + 1) * total)%Z /\ (Z.of_nat k <= len)%Z /\
    bar it total len fill = (times_str fill k ++ times_str "-" (Z.to_nat len - k))%string.
Proof.
  intros H1 H2 H3 H4. pose proof (filled_range H1 H2 H3) as R. unfold bar, str_times. set (q := (len * it / total)%Z) in *.
  assert (Q : (q * total <= len * it < (q + 1) * total)%Z) by (unfold q; pose proof (Z.div_mod (len * it) total ltac:(lia)); pose proof (Z.mod_pos_bound (len * it) total H1); nia).
  split; [rewrite String_length_app, !times_length, H4; cbn [String.length]; lia|].
  exists (Z.to_nat q). rewrite !Z2Nat.id by lia. split; [exact Q|]. split; [lia|]. f_equal. f_equal. lia.
Qed.
Print Assumptions C99_bar.
(** A later step has at least as much filled; the bar is full at the total only, and empty as long as the share is below one
    character. *)
Theorem C99_bar_grows (it it' total len : Z) : (0 < total)%Z -> (0 <= it <= it')%Z -> (it' <= total)%Z -> (0 < len)%Z ->
  (len * it / total <= len * it' / total)%Z /\ ((len * it / total = len)%Z <-> it = total) /\ ((len * it / total = 0)%Z <-> (len * it < total)%Z).
Proof.
  intros H1 H2 H3 H4. split; [apply Z.div_le_mono; nia|]. split.
  - split; [|intros ->; apply Z.div_mul; lia]. intros E. pose proof (Z.div_mod (len * it) total ltac:(lia)) as D. pose proof (Z.mod_pos_bound (len * it) total H1). rewrite E in D. nia.
  - split; [|intros H; apply Z.div_small; nia]. intros E. pose proof (Z.div_mod (len * it) total ltac:(lia)) as D. pose proof (Z.mod_pos_bound (len * it) total H1). rewrite E in D. lia.
Qed.
Print Assumptions C99_bar_grows.

(** print_progress prints nothing below level 1; otherwise one line, followed by a line feed at the last step only; the only
    exception is that of a total of zero. *)
Theorem C99_progress percent verbose it total prefix suffix decimals len fill :
  let r := print_progress percent verbose it total prefix suffix decimals len fill in
  ((verbose < 1)%Z -> r = ([], Ok tt)) /\
  ((1 <= verbose)%Z -> total = 0%Z -> r = ([], Raise ZeroDivisionError)) /\
  ((1 <= verbose)%Z -> total <> 0%Z -> exists line, r = (line :: (if (it =? total)%Z then [LF] else []), Ok tt) /\
     line = (CR ++ prefix ++ " |" ++ bar it total len fill ++ "| " ++ percent decimals it total ++ "% " ++ suffix ++ CR)%string).
Proof.
  cbv zeta. unfold print_progress. split; [|split].
  - intros H. replace (1 <=? verbose)%Z with false by lia. reflexivity.
  - intros H ->. replace (1 <=? verbose)%Z with true by lia. reflexivity.
  - intros H H'. replace (1 <=? verbose)%Z with true by lia. replace (total =? 0)%Z with false by lia. eexists. split; [|reflexivity]. destruct (it =? total)%Z; reflexivity.
Qed.
Print Assumptions C99_progress.
(** print_frame_rate prints at level 2, and fails there if the clock has not moved. *)
Theorem C99_frame_rate rate verbose n t0 t1 now message :
  let r := print_frame_rate rate verbose n t0 t1 now message in
  ((verbose < 2)%Z -> r = ([], Ok tt)) /\
  ((2 <= verbose)%Z -> match t1 with Some t1 => t1 | None => now end = t0 -> r = ([], Raise ZeroDivisionError)) /\
  ((2 <= verbose)%Z -> match t1 with Some t1 => t1 | None => now end <> t0 -> snd r = Ok tt /\ length (fst r) = 1).
Proof.
  cbv zeta. unfold print_frame_rate. split; [|split].
  - intros H. replace (2 <=? verbose)%Z with false by lia. reflexivity.
  - intros H H'. replace (2 <=? verbose)%Z with true by lia. rewrite H'. replace (t0 - t0 =? 0)%Z with true by lia. reflexivity.
  - intros H H'. replace (2 <=? verbose)%Z with true by lia. replace (_ - t0 =? 0)%Z with false by lia. split; reflexivity.
Qed.
Print Assumptions C99_frame_rate.
(** The rate is that of the frames over the time from t0 to t1, or to the present when t1 is not given. *)
Theorem C99_rate_of rate verbose n t0 t1 now message : (2 <= verbose)%Z -> (match t1 with Some t => t | None => now end <> t0) ->
  print_frame_rate rate verbose n t0 t1 now message = ([(message ++ rate n (match t1 with Some t => t | None => now end - t0)%Z ++ LF)%string], Ok tt).
Proof.
  intros H1 H2. unfold print_frame_rate. replace (2 <=? verbose)%Z with true by lia. destruct t1 as [t|]; [replace (t - t0 =? 0)%Z with false by lia|replace (now - t0 =? 0)%Z with false by lia]; reflexivity.
Qed.
Print Assumptions C99_rate_of.

Section Loading.
  Variable percent : Z -> Z -> Z -> string.
  Variable F : Type.
  Variable store : F -> F -> res F.
  Lemma snd_bind A B (x : talk A) (f : A -> talk B) : snd (talk_bind x f) = let* a := snd x in snd (f a).
  Proof. unfold talk_bind. destruct (snd x); reflexivity. Qed.
  Lemma bind_says A B (x : talk A) (f : A -> talk B) o a o' r : x = (o, Ok a) -> f a = (o', r) -> talk_bind x f = (o ++ o', r).
  Proof. intros -> E. unfold talk_bind. cbn [snd fst]. rewrite E. reflexivity. Qed.
  Lemma progress_ok verbose it count : (verbose < 1)%Z \/ count <> 0%Z -> snd (progress percent verbose it count) = Ok tt.
  Proof.
    intros H. unfold progress, print_progress. destruct (Z.leb_spec 1 verbose); [|reflexivity]. replace (count =? 0)%Z with false by lia. destruct (it =? count)%Z; reflexivity.
  Qed.
  Lemma load_all_snd verbose count (protos : list F) n j l e out : (verbose < 1)%Z \/ count <> 0%Z ->
    snd (load_all_talk percent store verbose count protos n j l e out) = load_all store protos n j l e out.
  Proof.
    intros H. revert j out. induction l as [|fs l IH]; intros j out; [reflexivity|]. cbn [load_all_talk load_all].
    rewrite snd_bind, progress_ok by exact H. cbn [bind]. rewrite snd_bind. cbn [say_nothing snd]. destruct (load_rows store protos n j 0 fs out); cbn [bind]; [apply IH|reflexivity].
  Qed.
  Lemma load_arrays_snd verbose junk (video : gen (list F)) count : (verbose < 1)%Z \/ count <> 0%Z ->
    snd (load_arrays_talk percent store verbose junk video count) = load_arrays store junk video count.
  Proof.
    intros H. unfold load_arrays_talk, load_arrays. rewrite snd_bind, progress_ok by exact H. cbn [bind]. destruct (yields video) as [|fs l]; [reflexivity|].
    assert (T : forall (x : talk (list (list F))) r, snd x = r ->
      snd (talk_bind x (fun out => talk_bind (progress percent verbose count count) (fun _ => say_nothing (Ok out)))) = r).
    { intros x r <-. rewrite snd_bind. destruct (snd x) as [o|]; [|reflexivity]. cbn [bind]. rewrite snd_bind, progress_ok by exact H. reflexivity. }
    apply T. destruct (count <? 0)%Z.
    - destruct fs; [apply load_all_snd; exact H|reflexivity].
    - cbv zeta. rewrite snd_bind. cbn [say_nothing snd]. destruct (load_rows store fs _ 0 0 fs _); cbn [bind]; [apply load_all_snd; exact H|reflexivity].
  Qed.
End Loading.

(** The messages do not change what asarrays and asmemmaps return, unless the video has count 0 while bars are printed, or
    the clock stands still while frame rates are printed. *)
Theorem C99_result percent rate F (store : F -> F -> res F) verbose t0 t1 junk video count c :
  the_count video count = Ok c -> (verbose < 1)%Z \/ c <> 0%Z ->
  snd (asmemmaps_talk percent store verbose junk video count) = asmemmaps store junk video count /\
  ((verbose < 2)%Z \/ t1 <> t0 -> snd (asarrays_talk percent rate store verbose t0 t1 junk video count) = asarrays store junk video count) /\
  ((2 <= verbose)%Z -> t1 = t0 -> snd (asarrays_talk percent rate store verbose t0 t1 junk video count) =
     match asarrays store junk video count with Ok _ => Raise ZeroDivisionError | Raise e => Raise e end).
Proof.
  intros HC H. split; [|split].
  - unfold asmemmaps_talk, asmemmaps. rewrite snd_bind. cbn [say_nothing snd]. fold (the_count video count). rewrite HC. cbn [bind]. rewrite snd_bind. cbn [message snd bind].
    destruct (v_iterator video); [apply load_arrays_snd; exact H|]. rewrite snd_bind, progress_ok by exact H. reflexivity.
  - intros H'. unfold asarrays_talk, asarrays. rewrite snd_bind. cbn [message snd bind]. rewrite snd_bind. cbn [say_nothing snd]. fold (the_count video count). rewrite HC. cbn [bind].
    rewrite snd_bind, load_arrays_snd by exact H. destruct (load_arrays store junk (v_gen video) c) as [out|]; [|reflexivity]. cbn [bind]. rewrite snd_bind.
    unfold print_frame_rate. destruct (Z.leb_spec 2 verbose); [|reflexivity]. replace (t1 - t0 =? 0)%Z with false by lia. reflexivity.
  - intros H' ->. unfold asarrays_talk, asarrays. rewrite snd_bind. cbn [message snd bind]. rewrite snd_bind. cbn [say_nothing snd]. fold (the_count video count). rewrite HC. cbn [bind].
    rewrite snd_bind, load_arrays_snd by exact H. destruct (load_arrays store junk (v_gen video) c) as [out|]; [|reflexivity]. cbn [bind]. rewrite snd_bind.
    unfold print_frame_rate. replace (2 <=? verbose)%Z with true by lia. replace (t0 - t0 =? 0)%Z with true by lia. reflexivity.
Qed.
Print Assumptions C99_result.
(** Without a count the exception is the same. *)
Theorem C99_no_count percent rate F (store : F -> F -> res F) verbose t0 t1 junk video count e : the_count video count = Raise e ->
  snd (asarrays_talk percent rate store verbose t0 t1 junk video count) = Raise e /\ asarrays store junk video count = Raise e /\
  snd (asmemmaps_talk percent store verbose junk video count) = Raise e /\ asmemmaps store junk video count = Raise e.
Proof.
  intros HC. unfold asarrays_talk, asarrays, asmemmaps_talk, asmemmaps. rewrite !snd_bind. cbn [message snd bind]. rewrite ?snd_bind. cbn [say_nothing snd]. fold (the_count video count). rewrite HC. auto.
Qed.
Print Assumptions C99_no_count.
(** That messages never change a result is false: a fast load of a video at level 2 fails. *)
Theorem C99_messages_harmless_refuted : ~ (forall percent rate F (store : F -> F -> res F) verbose t0 t1 junk video count, (t0 <= t1)%Z ->
  snd (asarrays_talk percent rate store verbose t0 t1 junk video count) = asarrays store junk video count).
Proof.
  intros H. specialize (H (fun _ _ _ => "") (fun _ _ => "") nat (fun _ x => Ok x) 2%Z 5%Z 5%Z (fun _ _ => 0) (VideoLike (Gen [[7]] None) None true) (Some 1%Z) ltac:(lia)).
  vm_compute in H. discriminate.
Qed.
Print Assumptions C99_messages_harmless_refuted.

(** What asarrays prints at level 1 while it loads a video of m multi-frames with a count of at least m: the message, a bar for
    0, 1, ..., m-1 of count, the bar for count of count and a line feed. *)
Theorem C99_printed percent rate F (store : F -> F -> res F) t0 t1 junk (video : gen (list F)) len it frames l c out :
  yields video = frames :: l -> ending video = None -> S (length l) <= c -> asarrays store junk (VideoLike video len it) (Some (Z.of_nat c)) = Ok out ->
  let line j := (CR ++ " |" ++ bar (Z.of_nat j) (Z.of_nat c) 50 "=" ++ "| " ++ percent 1%Z (Z.of_nat j) (Z.of_nat c) ++ "% " ++ CR)%string in
  fst (asarrays_talk percent rate store 1 t0 t1 junk (VideoLike video len it) (Some (Z.of_nat c))) =
  ("Loading array..." ++ LF)%string :: map line (seq 0 (S (length l))) ++ [line c; LF].
Proof.
  intros HY HE HC HO line.
  assert (P : forall j, j < c -> progress percent 1 (Z.of_nat j) (Z.of_nat c) = ([line j], Ok tt)).
  { intros j Hj. unfold progress, print_progress. cbn [Z.leb Z.compare Pos.compare Pos.compare_cont]. replace (Z.of_nat c =? 0)%Z with false by lia. replace (Z.of_nat j =? Z.of_nat c)%Z with false by lia. reflexivity. }
  assert (P' : progress percent 1 (Z.of_nat c) (Z.of_nat c) = ([line c; LF], Ok tt)).
  { unfold progress, print_progress. cbn [Z.leb Z.compare Pos.compare Pos.compare_cont]. replace (Z.of_nat c =? 0)%Z with false by lia. rewrite Z.eqb_refl. reflexivity. }
  assert (L : forall l j o o', j + length l <= c -> load_all store frames c j l None o = Ok o' ->
    load_all_talk percent store 1 (Z.of_nat c) frames c j l None o = (map line (seq j (length l)), Ok o')).
  { clear HO HC HY. induction l0 as [|fs l0 IH]; intros j o o' Hj HL; cbn [load_all_talk load_all length] in *; [rewrite HL; reflexivity|].
    destruct (load_rows store frames c j 0 fs o) as [o1|] eqn:E; cbn [bind] in HL; [|discriminate].
    change (map line (seq j (S (length l0)))) with ([line j] ++ [] ++ map line (seq (S j) (length l0))). eapply bind_says; [apply P; lia|].
    eapply bind_says; [reflexivity|]. apply IH; [lia|exact HL]. }
  unfold asarrays in HO. cbn [v_len v_gen bind] in HO. unfold load_arrays in HO. rewrite HY, HE in HO. replace (Z.of_nat c <? 0)%Z with false in HO by lia. rewrite Nat2Z.id in HO.
  destruct (load_rows store frames c 0 0 frames _) as [o|] eqn:E in HO; cbn [bind] in HO; [|discriminate].
  pose proof (P 0 ltac:(lia)) as P0. change (Z.of_nat 0) with 0%Z in P0.
  pose proof (L l 1 o out ltac:(lia) HO) as L'.
  assert (LA : load_arrays_talk percent store 1 junk video (Z.of_nat c) = ([line 0] ++ ([] ++ map line (seq 1 (length l))) ++ [line c; LF] ++ [], Ok out)).
  { unfold load_arrays_talk. eapply bind_says; [exact P0|]. rewrite HY, HE. replace (Z.of_nat c <? 0)%Z with false by lia. rewrite Nat2Z.id. cbv zeta.
    eapply bind_says; [|eapply bind_says; [exact P'|reflexivity]]. rewrite E. eapply bind_says; [reflexivity|]. exact L'. }
  assert (G : asarrays_talk percent rate store 1 t0 t1 junk (VideoLike video len it) (Some (Z.of_nat c)) =
    ([("Loading array..." ++ LF)%string] ++ [] ++ ([line 0] ++ ([] ++ map line (seq 1 (length l))) ++ [line c; LF] ++ []) ++ [] ++ [], Ok out)).
  { unfold asarrays_talk. eapply bind_says; [reflexivity|]. eapply bind_says; [reflexivity|]. cbn [v_gen]. eapply bind_says; [exact LA|]. eapply bind_says; reflexivity. }
  rewrite G. cbn [fst app seq map]. rewrite !app_nil_r. reflexivity.
Qed.
Print Assumptions C99_printed.

Lemma ints_bound n : forall k p, (1 <= k)%nat -> (p + 100 / 2 ^ (Z.of_nat k - 1) <= 100)%Z -> (0 <= p < 100)%Z ->
  forall l1 x l2, progress_ints k n p = l1 ++ x :: l2 -> (p <= x < 100)%Z /\ forall y, In y l2 -> (x <= y < 100)%Z.
Proof.
  induction n as [|n IH]; intros k p Hk Hp H0 l1 x l2 E; [destruct l1; discriminate|]. cbn [progress_ints] in E.
  assert (Q : (0 <= 2 * (100 / 2 ^ Z.of_nat k) <= 100 / 2 ^ (Z.of_nat k - 1))%Z).
  { assert (B : (0 < 2 ^ (Z.of_nat k - 1))%Z) by (apply Z.pow_pos_nonneg; lia). replace (2 ^ Z.of_nat k)%Z with (2 ^ (Z.of_nat k - 1) * 2)%Z by (replace (Z.of_nat k) with (Z.succ (Z.of_nat k - 1)) at 2 by lia; rewrite Z.pow_succ_r by lia; lia).
    rewrite <- Z.div_div by lia. pose proof (Z.div_pos 100 (2 ^ (Z.of_nat k - 1)) ltac:(lia) B). pose proof (Z.mul_div_le (100 / 2 ^ (Z.of_nat k - 1)) 2 ltac:(lia)). pose proof (Z.div_pos (100 / 2 ^ (Z.of_nat k - 1)) 2 ltac:(lia) ltac:(lia)). lia. }
  set (p' := (p + 100 / 2 ^ Z.of_nat k)%Z) in *.
  assert (I : forall l1 x l2, progress_ints (S k) n p' = l1 ++ x :: l2 -> (p' <= x < 100)%Z /\ forall y, In y l2 -> (x <= y < 100)%Z).
  { apply IH; [lia| |unfold p'; lia]. replace (Z.of_nat (S k) - 1)%Z with (Z.of_nat k) by lia. unfold p'. lia. }
  assert (L : (p <= p' < 100)%Z) by (unfold p'; lia).
  destruct l1 as [|a l1]; cbn [app] in E; injection E as E1 E2; subst.
  - split; [exact L|]. intros y Hy. apply in_split in Hy. destruct Hy as (m1 & m2 & Hy). apply I in Hy. lia.
  - apply I in E2. split; [lia|apply E2].
Qed.
(** The steps of the multiple-tau algorithm: 0, then at least 50 and never less than before, below 100 until the last one. *)
Theorem C99_multi_steps nlevel l1 x l2 : multi_progress nlevel = l1 ++ x :: l2 -> (0 <= x <= 100)%Z /\ (forall y, In y l2 -> (x <= y)%Z) /\ (x = 100%Z <-> l2 = []).
Proof.
  assert (B : forall l1 x l2, progress_ints 2 nlevel 50 = l1 ++ x :: l2 -> (50 <= x < 100)%Z /\ forall y, In y l2 -> (x <= y < 100)%Z) by (apply ints_bound; [lia|reflexivity|lia]).
  assert (A : forall y, In y (progress_ints 2 nlevel 50) -> (50 <= y < 100)%Z) by (intros y Hy; apply in_split in Hy; destruct Hy as (m1 & m2 & Hy); apply B in Hy; lia).
  unfold multi_progress. cbn [app]. intros E.
  destruct l1 as [|a1 l1]; cbn [app] in E; injection E as E1 E; subst.
  { split; [lia|]. split; [|split; [lia|discriminate]]. intros y [<-|Hy]; [lia|]. apply in_app_or in Hy. destruct Hy as [Hy|[<-|[]]]; [apply A in Hy|]; lia. }
  destruct l1 as [|a2 l1]; cbn [app] in E; injection E as E1 E; subst.
  { split; [lia|]. split; [|split; [lia|intros X; destruct (progress_ints 2 nlevel 50); discriminate]]. intros y Hy. apply in_app_or in Hy. destruct Hy as [Hy|[<-|[]]]; [apply A in Hy|]; lia. }
  destruct (list_eq_dec Z.eq_dec l2 []) as [->|NE].
  - apply app_inj_tail in E. destruct E as [_ <-]. split; [lia|]. split; [intros y []|]. split; reflexivity.
  - destruct (exists_last NE) as (l2' & z & ->). rewrite app_comm_cons, app_assoc in E. apply app_inj_tail in E. destruct E as [E <-]. apply B in E. destruct E as [E1 E2].
    split; [lia|]. split; [|split; [lia|intros X; destruct l2'; discriminate]]. intros y Hy. apply in_app_or in Hy. destruct Hy as [Hy|[<-|[]]]; [apply E2 in Hy|]; lia.
Qed.
Print Assumptions C99_multi_steps.
(** The bars of the multiple-tau algorithm never fail; at level 1 there is a line for each of the nlevel + 3 steps, and a single
    line feed, which is the last thing printed. *)
Theorem C99_multi_bars percent verbose nlevel :
  snd (multi_bars percent verbose nlevel) = Ok tt /\ ((verbose < 1)%Z -> fst (multi_bars percent verbose nlevel) = []) /\
  ((1 <= verbose)%Z -> exists lines, fst (multi_bars percent verbose nlevel) = lines ++ [LF] /\ length lines = nlevel + 3 /\ ~ In LF lines).
Proof.
  assert (P : forall l, snd (all_talk (map (fun i => progress percent verbose i 100) l)) = Ok tt).
  { induction l as [|i l IH]; [reflexivity|]. cbn [map all_talk]. rewrite snd_bind, progress_ok by (right; lia). exact IH. }
  split; [apply P|]. split.
  - intros H. unfold multi_bars. assert (E : forall l, all_talk (map (fun i => progress percent verbose i 100) l) = ([], Ok tt)).
    { induction l as [|i l IH]; [reflexivity|]. cbn [map all_talk]. unfold talk_bind. unfold progress at 1 2, print_progress. replace (1 <=? verbose)%Z with false by lia. cbn [say_nothing snd fst]. rewrite IH. reflexivity. }
    rewrite E. reflexivity.
  - intros H.
    assert (S1 : forall i, (i <> 100)%Z -> exists s, s <> LF /\ progress percent verbose i 100 = ([s], Ok tt)).
    { intros i Hi. unfold progress, print_progress. replace (1 <=? verbose)%Z with true by lia. cbn [Z.eqb]. replace (i =? 100)%Z with false by lia. eexists. split; [|reflexivity]. discriminate. }
    assert (E : forall l, ~ In 100%Z l -> exists lines, length lines = length l /\ ~ In LF lines /\ all_talk (map (fun i => progress percent verbose i 100) l) = (lines, Ok tt)).
    { induction l as [|i l IH]; intros N; [exists []; cbn; auto|]. destruct (S1 i ltac:(intros ->; apply N; left; reflexivity)) as (s & Hs & Es).
      destruct IH as (lines & L1 & L2 & L3); [intros X; apply N; right; exact X|]. exists (s :: lines). cbn [map all_talk]. unfold talk_bind. rewrite Es, L3. cbn. split; [lia|]. split; [intros [X|X]; [apply Hs; exact X|exact (L2 X)]|reflexivity]. }
    destruct (E ([0; 50]%Z ++ progress_ints 2 nlevel 50)) as (lines & L1 & L2 & L3).
    { intros X. apply in_split in X. destruct X as (m1 & m2 & X). assert (Y : multi_progress nlevel = m1 ++ 100%Z :: (m2 ++ [100%Z])) by (unfold multi_progress; rewrite app_assoc, X, <- app_assoc; reflexivity).
      apply C99_multi_steps in Y. destruct Y as (_ & _ & [Y _]). specialize (Y eq_refl). destruct m2; discriminate. }
    unfold multi_bars, multi_progress. rewrite app_assoc, map_app.
    assert (AT : forall l l' lines, all_talk (map (fun i => progress percent verbose i 100) l) = (lines, Ok tt) ->
       fst (all_talk (map (fun i => progress percent verbose i 100) l ++ l')) = lines ++ fst (all_talk l')).
    { clear. induction l as [|i l IH]; intros l' lines X; cbn [map all_talk app] in *; [injection X as <-; reflexivity|]. unfold talk_bind in *. destruct (progress percent verbose i 100) as [o [[]|]]; cbn [snd fst] in *; [|discriminate].
      destruct (all_talk (map (fun i0 => progress percent verbose i0 100) l)) as [o' r'] eqn:Y. cbn [fst snd] in X. injection X as <- ->. rewrite (IH l' o' eq_refl). apply app_assoc. }
    rewrite (AT _ _ _ L3). cbn [map all_talk]. unfold talk_bind. unfold progress, print_progress. replace (1 <=? verbose)%Z with true by lia. cbn [Z.eqb Pos.eqb snd fst say_nothing app].
    eexists (lines ++ [_]). rewrite <- app_assoc. split; [reflexivity|]. split.
    + rewrite app_length, L1. cbn [app length]. assert (LL : forall n k p, length (progress_ints k n p) = n) by (clear; induction n; intros; cbn; [reflexivity|rewrite IHn; reflexivity]). rewrite LL. lia.
    + intros X. apply in_app_or in X. destruct X as [X|[X|[]]]; [exact (L2 X)|discriminate].
Qed.
Print Assumptions C99_multi_bars.

(** A bar of ten characters, one that is too long (the step is beyond the total), the printed bars of a video of two
    multi-frames, and the steps of four levels. *)
Example C99_example : bar 3 8 10 "=" = "===-------" /\ bar 9 8 8 "=" = "=========" /\
  asarrays_talk (fun _ _ _ => "?") (fun _ _ => "!") (fun _ x : nat => Ok x) 1 0 0 (fun _ _ => 0) (VideoLike (Gen [[7]; [8]] None) None true) (Some 2%Z) =
    ([("Loading array..." ++ LF)%string; (CR ++ " |--------------------------------------------------| ?% " ++ CR)%string;
      (CR ++ " |=========================-------------------------| ?% " ++ CR)%string; (CR ++ " |==================================================| ?% " ++ CR)%string; LF], Ok [[7; 8]]) /\
  snd (asarrays_talk (fun _ _ _ => "?") (fun _ _ => "!") (fun _ x : nat => Ok x) 1 0 0 (fun _ _ => 0) (VideoLike (Gen [] None) None true) (Some 0%Z)) = Raise ZeroDivisionError /\
  asarrays (fun _ x : nat => Ok x) (fun _ _ => 0) (VideoLike (Gen [] None) None true) (Some 0%Z) = Raise StopIteration /\
  multi_progress 4 = [0; 50; 75; 87; 93; 96; 100]%Z.
Proof. vm_compute. repeat split. Qed.
