(** C102: In-place operations on videos, the memory they change and the types of the pixels. *)
From Coq Require Import Field ZifyBool ZifyNat.
From Verif Require Import Base Ordered Kernels VideoModel VideoProofs Prop_Video InplaceModel Examples.
Open Scope nat_scope.
Open Scope list_scope.
Local Notation length := List.length.
Set Implicit Arguments.

Lemma NoDup_app_left A (l l' : list A) : NoDup (l ++ l') -> NoDup l.
Proof. induction l as [|x l IH]; intros H; [constructor|]. cbn in H. apply NoDup_cons_iff in H. destruct H as [A1 B]. constructor; [intros X; apply A1; apply in_or_app; left; exact X|apply IH; exact B]. Qed.
Lemma NoDup_app_right A (l l' : list A) : NoDup (l ++ l') -> NoDup l'.
Proof. induction l as [|x l IH]; intros H; [exact H|]. cbn in H. apply NoDup_cons_iff in H. apply IH, H. Qed.
(** The pairs (frame, other frame) of two videos, in order *)
Definition all_pairs (l : list (list nat * list nat)) : list (nat * nat) := flat_map (fun p => combine (fst p) (snd p)) l.

Section Inplace.
  Variable K : Fld.
  Variable op : operation K.
  Notation arr := (arr K).
  Notation heap := (heap K).

  Lemma do_frames_ok (h : heap) (v : nat -> nat -> arr) l : NoDup (map fst l) -> (forall f w, In (f, w) l -> ~ In w (map fst l)) -> (forall f w, In (f, w) l -> ufunc_into op (h f) (h w) = Ok (v f w)) ->
    exists h', do_frames op h l = (h', None) /\ (forall f w, In (f, w) l -> h' f = v f w) /\ (forall a, ~ In a (map fst l) -> h' a = h a).
  Proof.
    revert h. induction l as [|[f w] l IH]; intros h ND HD HV; [exists h; split; [reflexivity|split; [intros ? ? []|reflexivity]]|].
    cbn [do_frames]. rewrite (HV f w) by (left; reflexivity). cbn [map fst] in ND. apply NoDup_cons_iff in ND. destruct ND as [NI ND].
    assert (O : forall a, a <> f -> store h f (v f w) a = h a) by (intros a Ha; unfold store; replace (a =? f) with false by (symmetry; apply Nat.eqb_neq; exact Ha); reflexivity).
    destruct (IH (store h f (v f w)) ND) as (h' & E & A & B).
    - intros g u I X. apply (HD g u); [right; exact I|right; exact X].
    - intros g u I. rewrite !O; [apply HV; right; exact I| |].
      + intros ->. apply (HD g f); [right; exact I|left; reflexivity].
      + intros ->. apply NI. apply in_map_iff. exists (f, u). split; [reflexivity|exact I].
    - exists h'. split; [exact E|]. split.
      + intros g u [X|I]; [injection X as <- <-|apply A; exact I]. rewrite B by exact NI. unfold store. rewrite Nat.eqb_refl. reflexivity.
      + intros a Ha. rewrite B by (intros X; apply Ha; right; exact X). apply O. intros ->. apply Ha. left. reflexivity.
  Qed.
  Lemma run_ok (h : heap) (v : nat -> nat -> arr) l : (forall p, In p l -> length (fst p) = length (snd p)) -> NoDup (map fst (all_pairs l)) -> (forall f w, In (f, w) (all_pairs l) -> ~ In w (map fst (all_pairs l))) ->
    (forall f w, In (f, w) (all_pairs l) -> ufunc_into op (h f) (h w) = Ok (v f w)) ->
    exists h', run_inplace op h l = (map (fun p => map (fun fw => v (fst fw) (snd fw)) (combine (fst p) (snd p))) l, h', None) /\
      (forall f w, In (f, w) (all_pairs l) -> h' f = v f w) /\ (forall a, ~ In a (map fst (all_pairs l)) -> h' a = h a).
  Proof.
    revert h. induction l as [|[fs ws] l IH]; intros h HL ND HD HV; [exists h; split; [reflexivity|split; [intros ? ? []|reflexivity]]|].
    cbn [run_inplace]. pose proof (HL (fs, ws) (or_introl eq_refl)) as L. cbn [fst snd] in L. rewrite L, Nat.eqb_refl. cbn [negb].
    cbn [all_pairs flat_map fst snd] in ND, HD, HV. fold (all_pairs l) in ND, HD, HV. rewrite map_app in ND, HD.
    assert (N1 : NoDup (map fst (combine fs ws))) by (exact (NoDup_app_left _ _ ND)). assert (N2 : NoDup (map fst (all_pairs l))) by (exact (NoDup_app_right _ _ ND)).
    assert (SEP : forall a, In a (map fst (combine fs ws)) -> ~ In a (map fst (all_pairs l))).
    { clear -ND. induction (map fst (combine fs ws)) as [|x xs IHx]; intros a []; cbn in ND; apply NoDup_cons_iff in ND; destruct ND as [A B]; [subst; intros X; apply A; apply in_or_app; right; exact X|apply IHx; assumption]. }
    destruct (@do_frames_ok h v (combine fs ws) N1) as (h1 & E1 & A1 & B1).
    { intros f w I X. apply (HD f w); apply in_or_app; left; assumption. }
    { intros f w I. apply HV. apply in_or_app. left. exact I. }
    rewrite E1. destruct (IH h1) as (h' & E & A & B).
    - intros p Hp. apply HL. right. exact Hp.
    - exact N2.
    - intros f w I X. apply (HD f w); apply in_or_app; right; assumption.
    - intros f w I. rewrite !B1; [apply HV; apply in_or_app; right; exact I| |].
      + intros X. apply (HD f w); [apply in_or_app; right; exact I|apply in_or_app; left; exact X].
      + intros X. apply (SEP f X). apply in_map_iff. exists (f, w). split; [reflexivity|exact I].
    - rewrite E. exists h'. split; [|split].
      + cbn [map fst snd]. f_equal. f_equal. f_equal.
        transitivity (map h1 (map fst (combine fs ws))).
        { f_equal. clear -L. revert ws L. induction fs as [|f fs IHf]; intros [|w ws] L; try discriminate; [reflexivity|]. cbn [combine map fst]. f_equal. apply IHf. cbn in L. lia. }
        rewrite map_map. apply map_ext_in. intros [f w] I. cbn [fst snd]. apply A1. exact I.
      + intros f w I. cbn [all_pairs flat_map fst snd] in I. apply in_app_or in I. destruct I as [I|I]; [|apply A; exact I]. rewrite B; [apply A1; exact I|]. apply SEP. apply in_map_iff. exists (f, w). split; [reflexivity|exact I].
      + intros a Ha. cbn [all_pairs flat_map fst snd] in Ha. rewrite map_app in Ha. rewrite B, B1; [reflexivity| |]; intros X; apply Ha; apply in_or_app; [left|right]; exact X.
  Qed.

  (** Frames of the first video that are stored at different places, none of which is read as a frame of the second video: the yielded
      frames hold the values of the operation on the original frames; a list of the yielded frames holds the same at the end; the
      frames of the first video are overwritten with them, and nothing else. *)
  Theorem C102_values (h : heap) x y (v : nat -> nat -> arr) : (forall fs ws, In (fs, ws) (combine x y) -> length fs = length ws) ->
    NoDup (map fst (all_pairs (combine x y))) -> (forall f w, In (f, w) (all_pairs (combine x y)) -> ~ In w (map fst (all_pairs (combine x y)))) ->
    (forall f w, In (f, w) (all_pairs (combine x y)) -> ufunc_into op (h f) (h w) = Ok (v f w)) ->
    exists h', inplace_videos op h x y = (map (fun p => map (fun fw => v (fst fw) (snd fw)) (combine (fst p) (snd p))) (combine x y), h', None) /\
      (forall f w, In (f, w) (all_pairs (combine x y)) -> h' f = v f w) /\ (forall a, ~ In a (map fst (all_pairs (combine x y))) -> h' a = h a).
  Proof. intros HL. apply run_ok. intros [fs ws] I. apply HL. exact I. Qed.

  (** A second pass over the same videos works on the results of the first one. *)
  Theorem C102_second_pass (h : heap) x y (v v2 : nat -> nat -> arr) : (forall fs ws, In (fs, ws) (combine x y) -> length fs = length ws) ->
    NoDup (map fst (all_pairs (combine x y))) -> (forall f w, In (f, w) (all_pairs (combine x y)) -> ~ In w (map fst (all_pairs (combine x y)))) ->
    (forall f w, In (f, w) (all_pairs (combine x y)) -> ufunc_into op (h f) (h w) = Ok (v f w) /\ ufunc_into op (v f w) (h w) = Ok (v2 f w)) ->
    exists h' h2, inplace_videos op h x y = (map (fun p => map (fun fw => v (fst fw) (snd fw)) (combine (fst p) (snd p))) (combine x y), h', None) /\
      inplace_videos op h' x y = (map (fun p => map (fun fw => v2 (fst fw) (snd fw)) (combine (fst p) (snd p))) (combine x y), h2, None).
  Proof.
    intros HL ND HD HV. destruct (@C102_values h x y v HL ND HD (fun f w I => proj1 (HV f w I))) as (h' & E & A & B). exists h'.
    destruct (@C102_values h' x y v2 HL ND HD) as (h2 & E2 & _); [|exists h2; split; assumption]. intros f w I. rewrite (A f w I), B by (apply (HD f w I)). apply HV. exact I.
  Qed.

  (** The error of one frame: the multi-frame is not yielded; the frames yielded before are complete. *)
  Theorem C102_error (h : heap) x1 y1 fs ws x2 y2 (v : nat -> nat -> arr) f w f' w' e : length x1 = length y1 ->
    (forall fs ws, In (fs, ws) (combine x1 y1) -> length fs = length ws) -> length fs = length ws ->
    NoDup (map fst (all_pairs (combine x1 y1))) -> (forall f w, In (f, w) (all_pairs (combine x1 y1)) -> ~ In w (map fst (all_pairs (combine x1 y1)))) ->
    (forall f w, In (f, w) (all_pairs (combine x1 y1)) -> ufunc_into op (h f) (h w) = Ok (v f w)) ->
    fs = f :: f' -> ws = w :: w' -> ~ In f (map fst (all_pairs (combine x1 y1))) -> ~ In w (map fst (all_pairs (combine x1 y1))) -> ufunc_into op (h f) (h w) = Raise e ->
    exists h', inplace_videos op h (x1 ++ fs :: x2) (y1 ++ ws :: y2) = (map (fun p => map (fun fw => v (fst fw) (snd fw)) (combine (fst p) (snd p))) (combine x1 y1), h', Some e) /\
      (forall a, ~ In a (map fst (all_pairs (combine x1 y1))) -> h' a = h a).
  Proof.
    intros L1 HL L ND HD HV -> -> NF NW HE. unfold inplace_videos.
    assert (EC : combine (x1 ++ (f :: f') :: x2) (y1 ++ (w :: w') :: y2) = combine x1 y1 ++ (f :: f', w :: w') :: combine x2 y2).
    { clear -L1. revert y1 L1. induction x1 as [|a x1 IH]; intros [|b y1] L1; try discriminate; [reflexivity|]. cbn [app combine]. rewrite IH by (cbn in L1; lia). reflexivity. }
    rewrite EC. destruct (@C102_values h x1 y1 v HL ND HD HV) as (h1 & E1 & A1 & B1). unfold inplace_videos in E1. exists h1. split; [|exact B1].
    assert (G : forall l h ys h1 rest, run_inplace op h l = (ys, h1, None) -> run_inplace op h (l ++ rest) = let '(zs, h2, e) := run_inplace op h1 rest in (ys ++ zs, h2, e)).
    { clear. induction l as [|[fs ws] l IH]; intros h ys h1 rest E; [cbn in E; injection E as <- <-; cbn; destruct (run_inplace op h rest) as [[? ?] ?]; reflexivity|].
      cbn [run_inplace app] in *. destruct (negb (length fs =? length ws)); [discriminate|]. destruct (do_frames op h (combine fs ws)) as [h0 [e|]]; [discriminate|].
      destruct (run_inplace op h0 l) as [[ys0 h2] e] eqn:E0. injection E as <- <- ->. rewrite (IH _ _ _ rest E0). destruct (run_inplace op h2 rest) as [[? ?] ?]. reflexivity. }
    rewrite (G _ _ _ _ _ E1). cbn [run_inplace]. rewrite L, Nat.eqb_refl. cbn [negb combine do_frames]. rewrite !B1 by assumption. rewrite HE. rewrite app_nil_r. reflexivity.
  Qed.
End Inplace.
Print Assumptions C102_values.
Print Assumptions C102_second_pass.
Print Assumptions C102_error.

Section Types.
  Variable K : Fld.
  Add Field TYfield : (flaw K).
  Variable trunc : K -> Z.
  Ltac fr := match goal with |- @eq _ ?a ?b => change (@eq (fcar K) a b) end.

  Lemma wrap_wrap a b z : b <= a -> wrap b (wrap a z) = wrap b z.
  Proof.
    intros H. unfold wrap. replace (2 ^ Z.of_nat a)%Z with (2 ^ Z.of_nat b * 2 ^ Z.of_nat (a - b))%Z by (rewrite <- Z.pow_add_r by lia; f_equal; lia).
    rewrite Z.rem_mul_r by lia. rewrite (Z.mul_comm (2 ^ Z.of_nat b)%Z (_ mod _)%Z), Z.mod_add by lia. apply Z.mod_mod. lia.
  Qed.
  (** The same values as without inplace, unless the type of the second video is the larger one (then: the result cut to the type of the first). *)
  Theorem C102_same_as_copy (op : operation K) (x w : arr K) r : ufunc_into op x w = Ok r ->
    match x, w with
    | AInt a _, AInt b _ => copy_op trunc op (Some (DInt a)) x w = Ok r /\ (b <= a -> copy_op trunc op None x w = Ok r)
    | _, _ => copy_op trunc op None x w = Ok r
    end.
  Proof.
    destruct x as [a x|x], w as [b w|w]; cbn [ufunc_into]; [| discriminate| |].
    - unfold copy_op. cbn [ufunc]. unfold pointwise. destruct (shape_eqb x w); [|discriminate]. cbn [bind write cast]. intros E. injection E as <-. split; [reflexivity|].
      intros H. rewrite Nat.max_l by exact H. do 2 f_equal. rewrite map_map. apply map_ext. intros p. rewrite map_map. apply map_ext. intros q'. symmetry. apply wrap_wrap. lia.
    - unfold copy_op. destruct (ufunc op (AFlt x) (AInt b w)) as [r'|e] eqn:E; [|discriminate]. cbn [bind cast]. cbn [ufunc] in E. destruct (pointwise _ _ _) in E; [|discriminate]. cbn [bind] in E. injection E as <-. cbn. congruence.
    - unfold copy_op. destruct (ufunc op (AFlt x) (AFlt w)) as [r'|e] eqn:E; [|discriminate]. cbn [bind cast]. cbn [ufunc] in E. destruct (pointwise _ _ _) in E; [|discriminate]. cbn [bind] in E. injection E as <-. cbn. congruence.
  Qed.
  (** Frames of integers and a second video of numbers (a window, a mean background): not in place *)
  Theorem C102_types (op : operation K) bits x w : ufunc_into op (AInt bits x) (AFlt w) = Raise TypeError /\ @divide_into K (AInt bits x) = Raise TypeError.
  Proof. split; reflexivity. Qed.
  (** Without inplace, such frames are calculated with numbers: no value is lost. *)
  Theorem C102_numbers (op : operation K) d bits x w : map (@length Z) x = map (@length K) w ->
    (d = None \/ d = Some DFlt) -> exists r, copy_op trunc op d (AInt bits x) (AFlt w) = Ok (AFlt r) /\
      forall i j dz, i < length x -> j < length (nth i x []) -> nth j (nth i r []) (of_Z K dz) = op_num op (of_Z K (nth j (nth i x []) dz)) (nth j (nth i w []) (of_Z K dz)).
  Proof.
    intros L Hd. assert (L' : map (@length K) (map (map (of_Z K)) x) = map (@length K) w) by (rewrite map_map, <- L; apply map_ext; intros r; apply map_length).
    destruct (pointwise_ok (op_num op) (map (map (of_Z K)) x) w L') as (r & E & _). exists r. split.
    - unfold copy_op. cbn [ufunc as_float]. rewrite E. cbn [bind]. destruct Hd as [-> | ->]; reflexivity.
    - intros i j dz Hi Hj. assert (R : nth i (map (map (of_Z K)) x) [] = map (of_Z K) (nth i x [])) by (change (@nil K) with (map (of_Z K) []) at 1; apply map_nth).
      rewrite (@pointwise_nth K (op_num op) _ _ _ (of_Z K dz) i j E); [|rewrite map_length; exact Hi|rewrite R, map_length; exact Hj]. rewrite R, map_nth. reflexivity.
  Qed.
  (** Unsigned integers are exact as long as the exact values fit; the type given as dtype does not help (it is applied to the wrapped values). *)
  Theorem C102_integers (op : operation K) a b x w : map (@length Z) x = map (@length Z) w ->
    exists r, ufunc op (AInt a x) (AInt b w) = Ok (AInt (Nat.max a b) r) /\
      (forall i j dz, i < length x -> j < length (nth i x []) -> nth j (nth i r []) dz = wrap (Nat.max a b) (op_int op (nth j (nth i x []) dz) (nth j (nth i w []) dz)) /\
        ((0 <= op_int op (nth j (nth i x []) dz) (nth j (nth i w []) dz) < 2 ^ Z.of_nat (Nat.max a b))%Z -> nth j (nth i r []) dz = op_int op (nth j (nth i x []) dz) (nth j (nth i w []) dz))) /\
      copy_op trunc op (Some (DFlt)) (AInt a x) (AInt b w) = Ok (AFlt (map (map (of_Z K)) r)).
  Proof.
    intros L. destruct (pointwise_ok (fun u v => wrap (Nat.max a b) (op_int op u v)) x w L) as (r & E & _). exists r. split; [cbn [ufunc]; rewrite E; reflexivity|]. split.
    - intros i j dz Hi Hj. rewrite (@pointwise_nth Z _ _ _ _ dz i j E Hi Hj). split; [reflexivity|]. intros H. unfold wrap. apply Z.mod_small. exact H.
    - unfold copy_op. cbn [ufunc]. rewrite E. reflexivity.
  Qed.

  (** normalize_video in place: what every frame holds, and a second pass changes nothing. *)
  Lemma norm_frames_ok (h : heap K) (v : nat -> frame K) l : NoDup l -> (forall f, In f l -> h f = AFlt (v f)) ->
    exists h', norm_frames h l = (h', None) /\ (forall f, In f l -> h' f = AFlt (map (map (fun u => fdiv K u (frame_mean K (v f)))) (v f))) /\ (forall a, ~ In a l -> h' a = h a).
  Proof.
    revert h. induction l as [|f l IH]; intros h ND HV; [exists h; split; [reflexivity|split; [intros ? []|reflexivity]]|].
    apply NoDup_cons_iff in ND. destruct ND as [NI ND]. cbn [norm_frames]. rewrite (HV f) by (left; reflexivity). cbn [divide_into].
    set (r := AFlt _). assert (O : forall a, a <> f -> store h f r a = h a) by (intros a Ha; unfold store; replace (a =? f) with false by (symmetry; apply Nat.eqb_neq; exact Ha); reflexivity).
    destruct (IH (store h f r) ND) as (h' & E & A & B).
    - intros g I. rewrite O by (intros ->; contradiction). apply HV. right. exact I.
    - exists h'. split; [exact E|]. split.
      + intros g [<-|I]; [rewrite B by exact NI; unfold store; rewrite Nat.eqb_refl; reflexivity|apply A; exact I].
      + intros a Ha. rewrite B by (intros X; apply Ha; right; exact X). apply O. intros ->. apply Ha. left. reflexivity.
  Qed.
  Lemma run_normalize_ok (h : heap K) (v : nat -> frame K) l : NoDup (concat l) -> (forall f, In f (concat l) -> h f = AFlt (v f)) ->
    exists h', run_normalize h l = (map (map (fun f => AFlt (map (map (fun u => fdiv K u (frame_mean K (v f)))) (v f)))) l, h', None) /\
      (forall f, In f (concat l) -> h' f = AFlt (map (map (fun u => fdiv K u (frame_mean K (v f)))) (v f))) /\ (forall a, ~ In a (concat l) -> h' a = h a).
  Proof.
    revert h. induction l as [|fs l IH]; intros h ND HV; [exists h; split; [reflexivity|split; [intros ? []|reflexivity]]|].
    cbn [concat] in ND, HV. cbn [run_normalize].
    destruct (@norm_frames_ok h v fs (NoDup_app_left _ _ ND)) as (h1 & E1 & A1 & B1); [intros f I; apply HV; apply in_or_app; left; exact I|]. rewrite E1.
    assert (SEP : forall a, In a fs -> ~ In a (concat l)).
    { clear -ND. induction fs as [|x xs IHx]; intros a []; cbn in ND; apply NoDup_cons_iff in ND; destruct ND as [A B]; [subst; intros X; apply A; apply in_or_app; right; exact X|apply IHx; assumption]. }
    destruct (IH h1 (NoDup_app_right _ _ ND)) as (h' & E & A & B).
    - intros f I. rewrite B1 by (intros X; exact (SEP f X I)). apply HV. apply in_or_app. right. exact I.
    - rewrite E. exists h'. split; [|split].
      + cbn [map]. f_equal. f_equal. f_equal. apply map_ext_in. intros f I. apply A1. exact I.
      + intros f I. cbn [concat] in I. apply in_app_or in I. destruct I as [I|I]; [rewrite B by (apply SEP; exact I); apply A1; exact I|apply A; exact I].
      + intros a Ha. cbn [concat] in Ha. rewrite B, B1; [reflexivity| |]; intros X; apply Ha; apply in_or_app; [left|right]; exact X.
  Qed.
  Theorem C102_normalize (h : heap K) (v : nat -> frame K) l : NoDup (concat l) -> (forall f, In f (concat l) -> h f = AFlt (v f) /\ concat (v f) <> [] /\ frame_mean K (v f) <> f0 K) ->
    exists h', run_normalize h l = (map (map (fun f => AFlt (map (map (fun u => fdiv K u (frame_mean K (v f)))) (v f)))) l, h', None) /\
      (forall a, ~ In a (concat l) -> h' a = h a) /\ exists h2, run_normalize h' l = (map (map h') l, h2, None) /\ forall a, h2 a = h' a.
  Proof.
    intros ND HV. destruct (@run_normalize_ok h v l ND (fun f I => proj1 (HV f I))) as (h' & E & A & B). exists h'. split; [exact E|]. split; [exact B|].
    set (v' := fun f => map (map (fun u => fdiv K u (frame_mean K (v f)))) (v f)).
    destruct (@run_normalize_ok h' v' l ND A) as (h2 & E2 & A2 & B2). exists h2.
    assert (U : forall f, In f (concat l) -> AFlt (map (map (fun u => fdiv K u (frame_mean K (v' f)))) (v' f)) = h' f).
    { intros f I. rewrite (A f I). destruct (HV f I) as (_ & NE & NM). assert (M : frame_mean K (v' f) = f1 K) by (apply normalized_mean; assumption). rewrite M. f_equal. fold (v' f). rewrite <- (map_id (v' f)) at 2. apply map_ext. intros r. rewrite <- (map_id r) at 2. apply map_ext. intros u. fr. field. apply (F_1_neq_0 (flaw K)). }
    split; [|intros a; destruct (in_dec Nat.eq_dec a (concat l)) as [I|I]; [rewrite (A2 a I); apply U; exact I|apply B2; exact I]].
    rewrite E2. f_equal. f_equal. apply map_ext_in. intros fs I. apply map_ext_in. intros f I'. apply U. apply in_concat. exists fs. split; assumption.
  Qed.
End Types.
Print Assumptions C102_same_as_copy.
Print Assumptions C102_types.
Print Assumptions C102_numbers.
Print Assumptions C102_integers.
Print Assumptions C102_normalize.

(** Documented: "inplace: Whether tranformation is performed inplace or not", for all videos.  Frames that are stored once and read twice:
    the difference of each frame and the one before it; a frame that occurs twice in the video; a second pass over the video. *)
Definition num (z : Z) : arr QcF := AFlt [[q z]].
Definition shown_num (x : arr QcF) : list (list Z) := match x with AInt _ x => x | AFlt x => map (map (fun v : QcF => QArith_base.Qnum (Qcanon.this v))) x end.
Definition shown_run (r : list (list (arr QcF)) * heap QcF * option pyexc) := (map (map shown_num) (fst (fst r)), snd r).
Definition mem (l : list Z) : heap QcF := fun a => num (nth a l 0%Z).
Definition copies (h : heap QcF) (x y : list (list nat)) : list (list (res (list (list Z)))) :=
  map (fun p => map (fun fw => let* r := copy_op (fun _ => 0%Z) (op_sub QcF) None (h (fst fw)) (h (snd fw)) in Ok (shown_num r)) (combine (fst p) (snd p))) (combine x y).
Theorem C102_aliased_refuted :
  (exists h x y, copies h x y = [[Ok [[2]]]; [Ok [[3]]]; [Ok [[4]]]]%Z /\ shown_run (inplace_videos (op_sub QcF) h x y) = ([[[[2]]]; [[[4]]]; [[[6]]]], None)%Z) /\
  (exists h x y, copies h x y = [[Ok [[5]]]; [Ok [[5]]]]%Z /\ shown_run (inplace_videos (op_sub QcF) h x y) = ([[[[5]]]; [[[3]]]], None)%Z) /\
  (exists h x y, copies h x y = [[Ok [[5]]]]%Z /\ shown_run (inplace_videos (op_sub QcF) h x y) = ([[[[5]]]], None)%Z /\
    shown_run (inplace_videos (op_sub QcF) (snd (fst (inplace_videos (op_sub QcF) h x y))) x y) = ([[[[3]]]], None)%Z).
Proof.
  split; [|split].
  - exists (mem [1; 3; 6; 10]%Z), [[1]; [2]; [3]], [[0]; [1]; [2]]. vm_compute. split; reflexivity.
  - exists (mem [7; 2]%Z), [[0]; [0]], [[1]; [1]]. vm_compute. split; reflexivity.
  - exists (mem [7; 2]%Z), [[0]], [[1]]. vm_compute. repeat split.
Qed.
Print Assumptions C102_aliased_refuted.
(** Documented: "dtype: If specifed, determines output dtype": the difference of 5 and 10 in a video of bytes is 251, also as a number.
    Two bytes 200 and 100 add up to 44, and a byte minus 16 bits gives 65531. *)
Theorem C102_dtype_refuted : exists (x w w16 : arr QcF), x = AInt 8 [[5; 200]]%Z /\ w = AInt 8 [[10; 100]]%Z /\ w16 = AInt 16 [[10; 100]]%Z /\
  (let* r := copy_op (fun _ => 0%Z) (op_sub QcF) (Some DFlt) x w in Ok (shown_num r)) = Ok [[251; 100]]%Z /\
  (let* r := copy_op (fun _ => 0%Z) (op_add QcF) (Some DFlt) x w in Ok (shown_num r)) = Ok [[15; 44]]%Z /\
  (let* r := copy_op (fun _ => 0%Z) (op_sub QcF) None x w16 in Ok (shown_num r)) = Ok [[65531; 100]]%Z /\
  (let* r := ufunc_into (op_sub QcF) x w16 in Ok (shown_num r)) = Ok [[251; 100]]%Z.
Proof. do 3 eexists. split; [reflexivity|]. split; [reflexivity|]. split; [reflexivity|]. vm_compute. repeat split. Qed.
Print Assumptions C102_dtype_refuted.
(** An error in the second camera: the frame of the first camera is already changed, and a second attempt changes it again. *)
Theorem C102_half_done_refuted : exists h x y, let r := inplace_videos (op_sub QcF) h x y in
  shown_num (h 0) = [[7]]%Z /\ shown_run r = ([], Some TypeError) /\ shown_num (snd (fst r) 0) = [[5]]%Z /\ shown_num (snd (fst (inplace_videos (op_sub QcF) (snd (fst r)) x y)) 0) = [[3]]%Z.
Proof. exists (store (mem [7; 2; 0; 2]%Z) 2 (AInt 8 [[7]]%Z)), [[0; 2]], [[1; 3]]. vm_compute. repeat split. Qed.
Print Assumptions C102_half_done_refuted.

(** The three operations: differences, sums and products, of integers and of numbers. *)
Theorem C102_operations (K : Fld) (u v : Z) (x y : K) : op_int (op_sub K) u v = (u - v)%Z /\ op_num (op_sub K) x y = fsub K x y /\
  op_int (op_add K) u v = (u + v)%Z /\ op_num (op_add K) x y = fadd K x y /\ op_int (op_mul K) u v = (u * v)%Z /\ op_num (op_mul K) x y = fmul K x y.
Proof. repeat split. Qed.
Print Assumptions C102_operations.

(** Two cameras, two multi-frames and one background for all: the hypotheses of C102_values *)
Example C102_example :
  let h := mem [7; 8; 9; 10; 1; 2]%Z in let x := [[0; 1]; [2; 3]] in let y := [[4; 5]; [4; 5]] in
  (forall fs ws, In (fs, ws) (combine x y) -> length fs = length ws) /\ NoDup (map fst (all_pairs (combine x y))) /\ (forall f w, In (f, w) (all_pairs (combine x y)) -> ~ In w (map fst (all_pairs (combine x y)))) /\
  (forall f w, In (f, w) (all_pairs (combine x y)) -> exists v, ufunc_into (op_sub QcF) (h f) (h w) = Ok v) /\
  shown_run (inplace_videos (op_sub QcF) h x y) = ([[[[6]]; [[6]]]; [[[8]]; [[8]]]], None)%Z /\
  shown_run (run_normalize (mem [7; 8]%Z) [[0]; [1]]) = ([[[[1]]]; [[[1]]]], None)%Z.
Proof.
  cbv zeta. split; [intros fs ws [E|[E|[]]]; injection E as <- <-; reflexivity|]. split; [cbn; repeat constructor; cbn; intuition discriminate|].
  split; [intros f w [E|[E|[E|[E|[]]]]]; injection E as <- <-; cbn; intuition discriminate|].
  split; [intros f w [E|[E|[E|[E|[]]]]]; injection E as <- <-; eexists; reflexivity|]. vm_compute. split; reflexivity.
Qed.
