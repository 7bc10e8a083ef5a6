(** C63, C64: configuration and messages. *)
From Coq Require Import String ZifyBool.
From Verif Require Import Base ConfModel.
Set Implicit Arguments.
Open Scope string_scope.
Open Scope list_scope.

(* ------------------------------------------------------------------ *)
(** * C63 *)
(** The names a user may give, and the name stored *)
Definition stored (name : string) : option string :=
  match name with
  | "mkl_fft" => Some "mkl_fft" | "scipy" => Some "scipy" | "scipy.fftpack" => Some "scipy"
  | "numpy" => Some "numpy" | "numpy.fft" => Some "numpy" | "pyfftw" => Some "pyfftw"
  | _ => None
  end.
Definition present (inst : installed) (name : string) : bool :=
  match name with
  | "mkl_fft" => has_mkl_fft inst | "scipy" => has_scipy inst | "numpy" => true | "pyfftw" => has_pyfftw inst
  | "matplotlib" => true | "cv2" => has_cv2 inst | "pyqtgraph" => has_pyqtgraph inst
  | _ => false
  end.
Definition fft_names : list string := ["mkl_fft"; "scipy"; "numpy"; "pyfftw"].
Definition show_names : list string := ["matplotlib"; "cv2"; "pyqtgraph"].
(** Everything selected is supported and installed. *)
Definition sound (inst : installed) (c : config) : Prop :=
  (In (fftlib c) fft_names /\ present inst (fftlib c) = true) /\
  (In (rfft2lib c) fft_names /\ present inst (rfft2lib c) = true) /\
  (In (showlib c) show_names /\ present inst (showlib c) = true) /\ (0 <= verbose c)%Z.

Lemma stored_names name s : stored name = Some s <->
  (name = "mkl_fft" /\ s = "mkl_fft") \/ ((name = "scipy" \/ name = "scipy.fftpack") /\ s = "scipy") \/ ((name = "numpy" \/ name = "numpy.fft") /\ s = "numpy") \/ (name = "pyfftw" /\ s = "pyfftw").
Proof.
  split.
  - intros H. destruct (string_dec name "mkl_fft") as [->|N1]; [injection H as <-; tauto|]. destruct (string_dec name "scipy") as [->|N2]; [injection H as <-; tauto|].
    destruct (string_dec name "scipy.fftpack") as [->|N3]; [injection H as <-; tauto|]. destruct (string_dec name "numpy") as [->|N4]; [injection H as <-; tauto|].
    destruct (string_dec name "numpy.fft") as [->|N5]; [injection H as <-; tauto|]. destruct (string_dec name "pyfftw") as [->|N6]; [injection H as <-; tauto|].
    exfalso. unfold stored in H. repeat match type of H with match ?x with _ => _ end = _ => is_var x; destruct x; try discriminate end; congruence.
  - intros [[-> ->]|[[[-> | ->] ->]|[[[-> | ->] ->]|[-> ->]]]]; reflexivity.
Qed.

(** What a call of set_fftlib does, for any name: a supported and installed library is selected; a supported one that is missing gives a warning and
    changes nothing; any other name is a ValueError and changes nothing.  The result is the previous setting. *)
Theorem C63_set_fftlib inst c name : set_fftlib inst c name =
  match stored name with
  | None => Outcome c (Raise ValueError) false
  | Some s => if present inst s then Outcome (with_fftlib c s) (Ok (fftlib c)) false else Outcome c (Ok (fftlib c)) true
  end.
Proof.
  destruct (stored name) as [s|] eqn:E.
  - apply stored_names in E. destruct E as [[-> ->]|[[[-> | ->] ->]|[[[-> | ->] ->]|[-> ->]]]]; reflexivity.
  - unfold set_fftlib. repeat match goal with |- context [name =? ?t] => destruct (String.eqb_spec name t) as [->|?]; [discriminate E|] end. reflexivity.
Qed.
Print Assumptions C63_set_fftlib.
Theorem C63_set_rfft2lib inst c name : set_rfft2lib inst c name =
  match stored name with
  | None => Outcome c (Raise ValueError) false
  | Some s => if present inst s then Outcome (with_rfft2lib c s) (Ok (rfft2lib c)) false else Outcome c (Ok (rfft2lib c)) true
  end.
Proof.
  destruct (stored name) as [s|] eqn:E.
  - apply stored_names in E. destruct E as [[-> ->]|[[[-> | ->] ->]|[[[-> | ->] ->]|[-> ->]]]]; reflexivity.
  - unfold set_rfft2lib. repeat match goal with |- context [name =? ?t] => destruct (String.eqb_spec name t) as [->|?]; [discriminate E|] end. reflexivity.
Qed.
Print Assumptions C63_set_rfft2lib.
Theorem C63_set_showlib inst c name :
  (In name show_names -> set_showlib inst c name = if present inst name then Outcome (with_showlib c name) (Ok (showlib c)) false else Outcome c (Ok (showlib c)) true) /\
  (~ In name show_names -> set_showlib inst c name = Outcome c (Raise ValueError) false).
Proof.
  split.
  - unfold show_names. intros [<-|[<-|[<-|[]]]]; unfold set_showlib, present; cbn; [reflexivity| |]; destruct inst as [a b [] [] e]; reflexivity.
  - intros N. unfold set_showlib. repeat match goal with |- context [name =? ?t] => destruct (String.eqb_spec name t) as [->|?]; [exfalso; apply N; cbn; tauto|] end. reflexivity.
Qed.
Print Assumptions C63_set_showlib.

(** After any sequence of calls with any names the selection is sound, and all functions of fft.py find a library that can be used. *)
Theorem C63_sound inst l : let c := do_calls inst initial l in
  sound inst c /\
  (exists lib, fft_with c = Some lib /\ usable inst lib = true) /\ (exists lib, rfft2_with c = Ok lib /\ usable inst lib = true).
Proof.
  assert (S : forall l c, sound inst c -> sound inst (do_calls inst c l)).
  { clear l. induction l as [|k l IH]; intros c H; [exact H|]. apply IH. destruct H as (H1 & H2 & H3 & H4). destruct k as [lev|s|s|s|n]; cbn [do_call].
    - repeat split; try tauto. cbn. lia.
    - destruct (C63_set_showlib inst c s) as [P1 P2]. destruct (in_dec string_dec s show_names) as [I0|I0].
      + rewrite (P1 I0). destruct (present inst s) eqn:E; cbn [after]; [|repeat split; tauto]. repeat split; try tauto; cbn; assumption.
      + rewrite (P2 I0). repeat split; tauto.
    - rewrite C63_set_fftlib. destruct (stored s) as [t|] eqn:E; [|repeat split; tauto]. destruct (present inst t) eqn:E2; cbn [after]; [|repeat split; tauto].
      apply stored_names in E. repeat split; try tauto; try exact E2. cbn. destruct E as [[_ ->]|[[_ ->]|[[_ ->]|[_ ->]]]]; tauto.
    - rewrite C63_set_rfft2lib. destruct (stored s) as [t|] eqn:E; [|repeat split; tauto]. destruct (present inst t) eqn:E2; cbn [after]; [|repeat split; tauto].
      apply stored_names in E. repeat split; try tauto; try exact E2. cbn. destruct E as [[_ ->]|[[_ ->]|[[_ ->]|[_ ->]]]]; tauto.
    - repeat split; tauto. }
  intros c. assert (H : sound inst c). { apply S. repeat split; cbn; try tauto. lia. }
  split; [exact H|]. destruct H as ((F1 & F2) & (R1 & R2) & _).
  assert (B : forall s, In s fft_names -> present inst s = true -> exists lib, branch s = Some lib /\ usable inst lib = true).
  { intros s Hs P. unfold fft_names in Hs. destruct Hs as [<-|[<-|[<-|[<-|[]]]]]; eexists; (split; [reflexivity|]); exact P. }
  split; [exact (B _ F1 F2)|]. destruct (B _ R1 R2) as (lib & E & U). exists lib. unfold rfft2_with. rewrite E. auto.
Qed.
Print Assumptions C63_sound.
(** The verbosity: never negative, and the previous value is returned. *)
Theorem C63_set_verbose c level : value (set_verbose c level) = Ok (verbose c) /\ verbose (after (set_verbose c level)) = Z.max 0 level /\
  fftlib (after (set_verbose c level)) = fftlib c /\ rfft2lib (after (set_verbose c level)) = rfft2lib c /\ showlib (after (set_verbose c level)) = showlib c.
Proof. repeat split. Qed.
Print Assumptions C63_set_verbose.
Example C63_example : let inst := Installed false true false false false in
  let c := do_calls inst initial [SetFftlib "scipy.fftpack"; SetFftlib "mkl_fft"; SetShowlib "cv2"; SetRfft2lib "fftw"; SetVerbose (-3)] in
  fftlib c = "scipy" /\ rfft2lib c = "numpy" /\ showlib c = "matplotlib" /\ verbose c = 0%Z /\ fft_with c = Some Scipy /\
  warned (set_fftlib inst c "mkl_fft") = true /\ value (set_fftlib inst c "numpy") = Ok "scipy" /\ value (set_fftlib inst c "fftw") = Raise ValueError.
Proof. repeat split. Qed.

(* ------------------------------------------------------------------ *)
(** * C64 *)
Open Scope Z_scope.
(** Sequences in which every Disable is followed by its Enable *)
Inductive balanced : list action -> Prop :=
| bal_nil : balanced []
| bal_say1 l : balanced l -> balanced (Say1 :: l)
| bal_say2 l : balanced l -> balanced (Say2 :: l)
| bal_pair l1 level l2 : balanced l1 -> balanced l2 -> balanced (Disable :: l1 ++ Enable level :: l2).

Lemma run_from l : forall v out, fold_left act l (v, out) = (fst (run v l), out ++ snd (run v l)).
Proof.
  induction l as [|a l IH]; intros v out; [cbn; rewrite app_nil_r; reflexivity|]. unfold run. cbn [fold_left].
  destruct a; cbn [act fst]; try (rewrite IH; reflexivity).
  - destruct (print1 v); cbn [app]; rewrite (IH v), (IH v [true]) || rewrite (IH v); cbn [fst snd]; try (rewrite <- app_assoc); reflexivity.
  - destruct (print2 v); cbn [app]; rewrite (IH v), (IH v [false]) || rewrite (IH v); cbn [fst snd]; try (rewrite <- app_assoc); reflexivity.
Qed.
Lemma run_abs l : forall v, Z.abs (fst (run v l)) = Z.abs v.
Proof.
  induction l as [|a l IH]; intros v; [reflexivity|]. unfold run. cbn [fold_left]. destruct a; cbn [act fst disable_prints enable_prints]; rewrite run_from; cbn [fst]; rewrite IH; lia.
Qed.
(** After a balanced sequence the verbosity is what it was (if it was not negative, as set_verbose leaves it). *)
Theorem C64_restored l v : balanced l -> 0 <= v -> fst (run v l) = v.
Proof.
  intros B. revert v. assert (P : forall v, v <= fst (run v l) /\ Z.abs (fst (run v l)) = Z.abs v).
  { induction B as [|l B IH|l B IH|l1 level l2 B1 IH1 B2 IH2]; intros v; (split; [|apply run_abs]).
    - cbn. lia.
    - unfold run. cbn [fold_left act]. rewrite run_from. cbn [fst]. apply IH.
    - unfold run. cbn [fold_left act]. rewrite run_from. cbn [fst]. apply IH.
    - unfold run. cbn [fold_left act disable_prints fst]. rewrite fold_left_app. cbn [fold_left]. rewrite (run_from l1). cbn [act enable_prints fst]. rewrite run_from. cbn [fst].
      pose proof (run_abs l1 (- Z.abs v)). destruct (IH2 (Z.abs (fst (run (- Z.abs v) l1)))) as [Q _]. lia. }
  intros v H. destruct (P v) as [P1 P2]. lia.
Qed.
Print Assumptions C64_restored.
(** Inside a region without inner pairs nothing is printed. *)
Theorem C64_quiet l v : (forall a, In a l -> a = Say1 \/ a = Say2) -> snd (run v (Disable :: l)) = [].
Proof.
  intros H. unfold run. cbn [fold_left act disable_prints fst].
  assert (P : forall u out, u <= 0 -> snd (fold_left act l (u, out)) = out).
  { induction l as [|a l IH]; intros u out Hu; [reflexivity|]. cbn [fold_left]. destruct (H a (or_introl eq_refl)) as [-> | ->]; cbn [act]; unfold print1, print2.
    - replace (1 <=? u) with false by lia. apply IH; [intros; apply H; right; assumption|exact Hu].
    - replace (2 <=? u) with false by lia. apply IH; [intros; apply H; right; assumption|exact Hu]. }
  apply P. lia.
Qed.
Print Assumptions C64_quiet.
(** The last call decides, whatever the nesting: after [Enable] messages are printed although an outer region is still open. *)
Theorem C64_nesting_refuted l level v : v <> 0 -> snd (run v (Disable :: Disable :: l ++ [Enable level; Say1])) = snd (run v (Disable :: Disable :: l)) ++ [true].
Proof.
  intros H. unfold run. cbn [fold_left act disable_prints fst]. rewrite fold_left_app. rewrite !(run_from l). cbn [fold_left act enable_prints fst app snd].
  pose proof (run_abs l (- Z.abs (- Z.abs v))). unfold print1. replace (1 <=? Z.abs (fst (run (- Z.abs (- Z.abs v)) l))) with true by lia. reflexivity.
Qed.
Print Assumptions C64_nesting_refuted.
(** The argument of enable_prints has no effect on the verbosity; it is only returned. *)
Theorem C64_level_ignored v level level' : fst (enable_prints v level) = fst (enable_prints v level') /\ snd (enable_prints v (Some 1)) = 1.
Proof. split; reflexivity. Qed.
Print Assumptions C64_level_ignored.
(** The functions that compute quietly: the verbosity is restored if the computation succeeds; if it raises, messages stay off. *)
Theorem C64_quietly A (body : Z -> Z * res A) v : 0 <= v -> (forall u, Z.abs (fst (body u)) = Z.abs u) ->
  (forall x, snd (body (- v)) = Ok x -> quietly body v = (v, Ok x)) /\
  (forall e, snd (body (- v)) = Raise e -> fst (body (- v)) = - v -> quietly body v = (- v, Raise e) /\ print1 (- v) = false).
Proof.
  intros Hv H. unfold quietly. cbn [disable_prints]. rewrite Z.abs_eq by exact Hv. pose proof (H (- v)) as P. destruct (body (- v)) as [u r]. cbn [fst snd] in *. split.
  - intros x ->. cbn [enable_prints fst]. rewrite P. f_equal. lia.
  - intros e -> E. rewrite E. split; [reflexivity|]. unfold print1. lia.
Qed.
Print Assumptions C64_quietly.
Example C64_example : balanced [Say2; Disable; Say1; Disable; Say2; Enable (Some (-2)); Say1; Enable None; Say2] /\
  run 2 [Say2; Disable; Say1; Disable; Say2; Enable (Some (-2)); Say1; Enable None; Say2] = (2, [false; true; false]).
Proof.
  split; [|reflexivity]. apply bal_say2. apply (@bal_pair [Say1; Disable; Say2; Enable (Some (-2)); Say1] None [Say2]).
  - apply bal_say1. apply (@bal_pair [Say2] (Some (-2)) [Say1]); repeat constructor.
  - repeat constructor.
Qed.
