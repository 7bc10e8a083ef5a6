(** C88: what the package decides when it is imported. *)
From Coq Require Import String.
From Verif Require Import Base ConfModel StartModel Prop_Conf.
Set Implicit Arguments.
Open Scope string_scope.
Open Scope list_scope.
Open Scope Z_scope.

(** The words of a configuration file for yes and no, in any case *)
Definition yes_words := ["1"; "yes"; "true"; "on"].
Definition no_words := ["0"; "no"; "false"; "off"].
(** What the file says about an option that is yes or no *)
Inductive says (m : machine) (section name : string) : bool -> Prop :=
| SaysYes s : file m section name = Some s -> In (lower s) yes_words -> says m section name true
| SaysNo s : file m section name = Some s -> In (lower s) no_words -> says m section name false.
(** What a flag is: the environment variable if it is an integer, else the file, else the default *)
Inductive decides (py_int : string -> option Z) (m : machine) (variable section name : string) (default : bool) : bool -> Prop :=
| ByVariable s z : env m variable = Some s -> py_int s = Some z -> decides py_int m variable section name default (negb (z =? 0))
| ByFile b : (forall s, env m variable = Some s -> py_int s = None) -> says m section name b -> decides py_int m variable section name default b
| ByDefault : (forall s, env m variable = Some s -> py_int s = None) -> (forall b, ~ says m section name b) -> decides py_int m variable section name default default.

Lemma to_boolean_spec s : match to_boolean s with Some true => In (lower s) yes_words | Some false => In (lower s) no_words | None => ~ In (lower s) yes_words /\ ~ In (lower s) no_words end.
Proof.
  unfold to_boolean. cbv zeta. generalize (lower s). intros t.
  repeat match goal with |- context [(t =? ?w)%string] => destruct (String.eqb_spec t w) as [->|?]; cbn [orb]; [cbn; tauto|] end. cbn. intuition congruence.
Qed.
Lemma words_differ s : In s yes_words -> In s no_words -> False.
Proof. cbn. intuition congruence. Qed.
Lemma says_fun m section name b b' : says m section name b -> says m section name b' -> b = b'.
Proof.
  intros [s E W|s E W] [s' E' W'|s' E' W']; try reflexivity; rewrite E in E'; injection E' as <-; exfalso; eapply words_differ; eassumption.
Qed.
Lemma readboolean_says m section name d : (says m section name (readboolean m section name d)) \/ ((forall b, ~ says m section name b) /\ readboolean m section name d = d).
Proof.
  unfold readboolean. destruct (file m section name) as [s|] eqn:E.
  - pose proof (to_boolean_spec s) as T. destruct (to_boolean s) as [[]|]; [left; econstructor; eassumption|left; eapply SaysNo; eassumption|right]. split; [|reflexivity]. intros b [s' E' W|s' E' W]; rewrite E in E'; injection E' as <-; tauto.
  - right. split; [|reflexivity]. intros b [s' E' _|s' E' _]; congruence.
Qed.
(** Every flag is decided in this way, and the environment variable is never complained about. *)
Theorem C88_flag py_int m variable section name d : forall b, flag py_int m variable section name d = b <-> decides py_int m variable section name d b.
Proof.
  assert (D : forall b b', decides py_int m variable section name d b -> decides py_int m variable section name d b' -> b = b').
  { intros b b' [s z E1 E2|b1 N S1|N S1] [s' z' E1' E2'|b1' N' S1'|N' S1']; try reflexivity; try congruence; try (exfalso; specialize (N' _ E1); congruence); try (exfalso; specialize (N _ E1'); congruence).
    - exact (says_fun S1 S1').
    - exfalso. exact (S1' _ S1).
    - exfalso. exact (S1 _ S1'). }
  assert (E : decides py_int m variable section name d (flag py_int m variable section name d)).
  { unfold flag, read_environ_variable. assert (B : forall b, truth (Z.b2z b) = b) by (intros []; reflexivity).
    assert (R : (forall s, env m variable = Some s -> py_int s = None) -> decides py_int m variable section name d (readboolean m section name d)).
    { intros N. destruct (readboolean_says m section name d) as [S|[S ->]]; [apply ByFile; assumption|apply ByDefault; assumption]. }
    destruct (env m variable) as [s|] eqn:V; [destruct (py_int s) as [z|] eqn:P|]; cbn [fst].
    - eapply ByVariable; eassumption.
    - rewrite B. apply R. intros s' E'. congruence.
    - rewrite B. apply R. intros s' E'. congruence. }
  intros b. split; [intros <-; exact E|]. intros H. exact (D _ _ E H).
Qed.
Print Assumptions C88_flag.
Theorem C88_silent_refuted py_int m variable d : snd (read_environ_variable py_int m variable d) = false.
Proof. unfold read_environ_variable. destruct (env m variable) as [s|]; [destruct (py_int s)|]; reflexivity. Qed.
Print Assumptions C88_silent_refuted.

(** The flags of the compilation.  All types have the same width, the one that the precision names;
    compiled functions are not kept when compiled in parallel by a numba that is not 0.45 or later. *)
Theorem C88_build py_int m : let b := build_of py_int m in
  decides py_int m "CDDM_TARGET_PARALLEL" "numba" "parallel" false (parallel b) /\
  target b = (if parallel b then "parallel" else "cpu") /\
  decides py_int m "CDDM_FASTMATH" "numba" "fastmath" false (fastmath b) /\
  (exists wanted, decides py_int m "CDDM_NUMBA_CACHE" "numba" "cache" true wanted /\ cache b = wanted && (negb (parallel b) || numba_0_45_or_greater py_int m)) /\
  (exists double, decides py_int m "CDDM_DOUBLE_PRECISION" "core" "double_precision" true double /\
     dtypes b = (if double then Double else Single) /\ numba_types b = dtypes b /\ precision b = (if double then "double" else "single")).
Proof.
  pose proof (fun v s n d => proj1 (@C88_flag py_int m v s n d _) eq_refl) as F. intros b. subst b. unfold build_of.
  set (fl := flag py_int m "CDDM_DOUBLE_PRECISION" "core" "double_precision" true).
  assert (P : forall X (c : X -> X -> X) (f : width -> string -> build), (let (dt, prec) := if fl then (Double, "double") else (Single, "single") in f dt prec) = f (if fl then Double else Single) (if fl then "double" else "single")) by (intros; destruct fl; reflexivity).
  rewrite (P nat (fun a b => a)). cbn [parallel target cache fastmath dtypes precision numba_types]. clear P.
  split; [apply F|]. split; [reflexivity|]. split; [apply C88_flag; destruct (flag py_int m "CDDM_FASTMATH" "numba" "fastmath" false); reflexivity|]. split.
  - eexists. split; [apply F|]. destruct (flag _ _ "CDDM_NUMBA_CACHE" _ _ _), (flag _ _ "CDDM_TARGET_PARALLEL" _ _ _), (numba_0_45_or_greater _ _); reflexivity.
  - exists fl. split; [apply F|]. repeat split; destruct fl; reflexivity.
Qed.
Print Assumptions C88_build.
(** The test of the version: major number 0 and minor number at least 45.  A later major number fails it. *)
Theorem C88_version py_int m : numba_0_45_or_greater py_int m = true <->
  exists v major minor rest b, numba_version m = Some v /\ split_dots v = major :: minor :: rest /\ py_int major = Some 0 /\ py_int minor = Some b /\ 45 <= b.
Proof.
  unfold numba_0_45_or_greater. split.
  - destruct (numba_version m) as [v|]; [|discriminate]. destruct (split_dots v) as [|major [|minor rest]] eqn:S; try discriminate. destruct (py_int major) as [a|] eqn:A; [|discriminate]. destruct (Z.eqb_spec a 0) as [->|]; [|discriminate].
    destruct (py_int minor) as [b|] eqn:B; [|discriminate]. intros H. exists v, major, minor, rest, b. repeat split; try assumption. lia.
  - intros (v & major & minor & rest & b & -> & -> & -> & -> & H). cbn. lia.
Qed.
Print Assumptions C88_version.
Theorem C88_version_refuted py_int m v major rest a : numba_version m = Some v -> split_dots v = major :: rest -> py_int major = Some a -> 1 <= a ->
  flag py_int m "CDDM_TARGET_PARALLEL" "numba" "parallel" false = true -> cache (build_of py_int m) = false.
Proof.
  intros V S A H P. destruct (C88_build py_int m) as (D & _ & _ & (w & _ & ->) & _). apply C88_flag in D. rewrite <- D, P.
  replace (numba_0_45_or_greater py_int m) with false; [destruct w; reflexivity|]. unfold numba_0_45_or_greater. rewrite V, S. destruct rest as [|minor rest]; [reflexivity|]. rewrite A. destruct (Z.eqb_spec a 0); [lia|reflexivity].
Qed.
Print Assumptions C88_version_refuted.

(** The number of cores is positive. *)
Theorem C88_cores py_int m : match detect_number_of_cores py_int m with
  | Ok n => 1 <= n /\ (cpus m = Online n \/ (exists s, env m "NUMBER_OF_PROCESSORS" = Some s /\ py_int s = Some n) \/ n = 1)
  | Raise e => (e = AttributeError /\ cpus m = NoName) \/ (e = ValueError /\ exists s, env m "NUMBER_OF_PROCESSORS" = Some s /\ py_int s = None)
  end.
Proof.
  assert (W : match (match env m "NUMBER_OF_PROCESSORS" with Some s => match py_int s with Some n => if 0 <? n then Ok n else Ok 1 | None => Raise ValueError end | None => Ok 1 end) with
    | Ok n => 1 <= n /\ (cpus m = Online n \/ (exists s, env m "NUMBER_OF_PROCESSORS" = Some s /\ py_int s = Some n) \/ n = 1)
    | Raise e => (e = AttributeError /\ cpus m = NoName) \/ (e = ValueError /\ exists s, env m "NUMBER_OF_PROCESSORS" = Some s /\ py_int s = None) end).
  { destruct (env m "NUMBER_OF_PROCESSORS") as [s|] eqn:E; [|split; [lia|tauto]]. destruct (py_int s) as [n|] eqn:P; [|right; split; [reflexivity|exists s; auto]]. destruct (Z.ltb_spec 0 n); (split; [lia|]); [right; left; exists s; auto|tauto]. }
  unfold detect_number_of_cores. cbv zeta. destruct (cpus m) as [| |n] eqn:C; [exact W|tauto|]. destruct (Z.ltb_spec 0 n); [split; [lia|tauto]|exact W].
Qed.
Print Assumptions C88_cores.

(** The number of threads asked for *)
Definition asked (py_int : string -> option Z) (m : machine) (section : string) (cores n : Z) : Prop :=
  (exists s, file m section "nthreads" = Some s /\ py_int s = Some n) \/ ((forall s, file m section "nthreads" = Some s -> py_int s = None) /\ n = cores).
Lemma readint_asked py_int m section cores : asked py_int m section cores (readint py_int m section "nthreads" cores).
Proof.
  unfold asked, readint. destruct (file m section "nthreads") as [s|]; [destruct (py_int s) as [z|] eqn:E|]; [left; exists s; auto| |]; right; (split; [intros s' H; congruence|reflexivity]).
Qed.
(** When the import succeeds the libraries are there and known to all functions of fft.py, messages are
    not negative, and numba has the threads that were asked for. *)
Lemma keep_ok A (o : outcome A) c : keep o = Ok c -> c = after o.
Proof. unfold keep. destruct (value o); congruence. Qed.
Theorem C88_started py_int m b c : start py_int m = Ok (b, c) ->
  b = build_of py_int m /\ sound (inst m) c /\
  (exists lib, fft_with c = Some lib /\ usable (inst m) lib = true) /\ (exists lib, rfft2_with c = Ok lib /\ usable (inst m) lib = true) /\
  exists cores, detect_number_of_cores py_int m = Ok cores /\ asked py_int m "fft" cores (fft_threads c) /\ asked py_int m "numba" cores (numba_threads c) /\ 1 <= numba_threads c <= numba_limit m.
Proof.
  unfold start. destruct (numba_version m) as [v|]; [|discriminate]. cbn [bind].
  destruct (keep _) as [c1|] eqn:E1; [|discriminate]. cbn [bind]. destruct (keep (set_rfft2lib _ _ _)) as [c2|] eqn:E2; [|discriminate]. cbn [bind]. destruct (keep (set_verbose _ _)) as [c3|] eqn:E3; [|discriminate]. cbn [bind].
  destruct (keep (set_showlib _ _ _)) as [c4|] eqn:E4; [|discriminate]. cbn [bind]. destruct (detect_number_of_cores py_int m) as [n|] eqn:En; [|discriminate]. cbn [bind].
  destruct (keep (set_fft_threads _ _)) as [c5|] eqn:E5; [|discriminate]. cbn [bind]. intros H.
  apply keep_ok in E1, E2, E3, E4, E5.
  pose proof (readint_asked py_int m "fft" n) as A1. pose proof (readint_asked py_int m "numba" n) as A2.
  set (calls := [SetFftlib (readstr m "fft" "fftlib" (if has_mkl_fft (inst m) then "mkl_fft" else "numpy")); SetRfft2lib (readstr m "fft" "rfft2lib" "numpy"); SetVerbose (readint py_int m "core" "verbose" 0);
    SetShowlib (readstr m "core" "showlib" (if has_cv2 (inst m) then "cv2" else "matplotlib")); SetFftThreads (readint py_int m "fft" "nthreads" n)]).
  assert (EC : do_calls (inst m) initial calls = c5) by (subst; reflexivity).
  pose proof (C63_sound (inst m) calls) as S. cbv zeta in S. rewrite EC in S.
  unfold set_numba_threads, numba_set_num_threads in H. destruct ((1 <=? _) && (_ <=? numba_limit m)) eqn:R; cbn [bind] in H; [|discriminate]. injection H as <- <-. apply andb_true_iff in R.
  split; [reflexivity|]. split; [exact (proj1 S)|]. split; [exact (proj1 (proj2 S))|]. split; [exact (proj2 (proj2 S))|]. exists n. split; [reflexivity|]. cbn [fft_threads numba_threads].
  split; [rewrite E5; exact A1|]. split; [exact A2|lia].
Qed.
Print Assumptions C88_started.

(** When it fails: numba is missing; the file names an unknown library; the cores cannot be counted; or
    numba does not take the number of threads asked for, in which case the fallback fails as well. *)
Theorem C88_refused py_int m : let names_known := (forall s, file m "fft" "fftlib" = Some s -> stored s <> None) /\ (forall s, file m "fft" "rfft2lib" = Some s -> stored s <> None) /\ (forall s, file m "core" "showlib" = Some s -> In s show_names) in
  match start py_int m with
  | Ok _ => numba_version m <> None /\ names_known
  | Raise e => (e = ImportError /\ numba_version m = None) \/ (e = ValueError /\ ~ names_known) \/ (names_known /\ detect_number_of_cores py_int m = Raise e) \/
      (e = AttributeError /\ names_known /\ exists cores n, detect_number_of_cores py_int m = Ok cores /\ asked py_int m "numba" cores n /\ ~ (1 <= n <= numba_limit m))
  end.
Proof.
  intros names_known. unfold start. destruct (numba_version m) as [v|]; [|left; auto]. cbn [bind].
  set (s1 := readstr m "fft" "fftlib" _). rewrite C63_set_fftlib. destruct (stored s1) as [t1|] eqn:T1.
  2:{ right; left. split; [reflexivity|]. intros (N & _). unfold s1, readstr in T1. destruct (file m "fft" "fftlib") as [s|]; [exact (N s eq_refl T1)|]. destruct (has_mkl_fft (inst m)); discriminate. }
  assert (N1 : forall s, file m "fft" "fftlib" = Some s -> stored s <> None). { intros s E. unfold s1, readstr in T1. rewrite E in T1. congruence. }
  replace (keep (if present (inst m) t1 then Outcome (with_fftlib initial t1) (Ok (fftlib initial)) false else Outcome initial (Ok (fftlib initial)) true)) with (Ok (if present (inst m) t1 then with_fftlib initial t1 else initial)) by (destruct (present (inst m) t1); reflexivity).
  cbn [bind]. set (c1 := if present (inst m) t1 then _ else _). clearbody c1.
  set (s2 := readstr m "fft" "rfft2lib" _). rewrite C63_set_rfft2lib. destruct (stored s2) as [t2|] eqn:T2.
  2:{ right; left. split; [reflexivity|]. intros (_ & N & _). unfold s2, readstr in T2. destruct (file m "fft" "rfft2lib") as [s|]; [exact (N s eq_refl T2)|]. discriminate. }
  assert (N2 : forall s, file m "fft" "rfft2lib" = Some s -> stored s <> None). { intros s E. unfold s2, readstr in T2. rewrite E in T2. congruence. }
  replace (keep (if present (inst m) t2 then Outcome (with_rfft2lib c1 t2) (Ok (rfft2lib c1)) false else Outcome c1 (Ok (rfft2lib c1)) true)) with (Ok (if present (inst m) t2 then with_rfft2lib c1 t2 else c1)) by (destruct (present (inst m) t2); reflexivity).
  cbn [bind]. set (c2 := if present (inst m) t2 then _ else _). clearbody c2. cbn [keep set_verbose value after bind]. set (c3 := Config _ _ _ _ _ _). clearbody c3.
  set (s4 := readstr m "core" "showlib" _). destruct (C63_set_showlib (inst m) c3 s4) as [P1 P2]. destruct (in_dec string_dec s4 show_names) as [I0|I0].
  2:{ rewrite (P2 I0). right; left. split; [reflexivity|]. intros (_ & _ & N). apply I0. unfold s4, readstr. destruct (file m "core" "showlib") as [s|]; [exact (N s eq_refl)|]. unfold show_names. destruct (has_cv2 (inst m)); cbn; tauto. }
  assert (N4 : forall s, file m "core" "showlib" = Some s -> In s show_names). { intros s E. unfold s4, readstr in I0. rewrite E in I0. exact I0. }
  assert (NK : names_known) by (repeat split; assumption).
  rewrite (P1 I0). replace (keep _) with (Ok (if present (inst m) s4 then with_showlib c3 s4 else c3)) by (destruct (present (inst m) s4); reflexivity). cbn [bind]. set (c4 := if present (inst m) s4 then _ else _). clearbody c4.
  destruct (detect_number_of_cores py_int m) as [n|e] eqn:En; cbn [bind]; [|tauto]. cbn [keep set_fft_threads value after bind].
  unfold set_numba_threads, numba_set_num_threads. destruct ((1 <=? _) && (_ <=? numba_limit m)) eqn:R; cbn [bind]; [split; [discriminate|exact NK]|].
  right; right; right. split; [reflexivity|]. split; [exact NK|]. exists n, (readint py_int m "numba" "nthreads" n). split; [reflexivity|]. split; [apply readint_asked|]. intros H. assert (((1 <=? readint py_int m "numba" "nthreads" n) && (readint py_int m "numba" "nthreads" n <=? numba_limit m)) = true) as R' by (apply andb_true_iff; lia). congruence.
Qed.
Print Assumptions C88_refused.
(** So without any configuration file the import fails when the machine has more cores than numba may use. *)
Theorem C88_fallback_refuted py_int m n : numba_version m <> None -> (forall section name, file m section name = None) -> detect_number_of_cores py_int m = Ok n -> 
  (1 <= n <= numba_limit m -> exists b c, start py_int m = Ok (b, c) /\ numba_threads c = n) /\ (numba_limit m < n -> start py_int m = Raise AttributeError).
Proof.
  intros V F D. pose proof (C88_cores py_int m) as C. rewrite D in C. pose proof (C88_refused py_int m) as R. pose proof (@C88_started py_int m) as S. cbv zeta in R.
  assert (NK : (forall s, file m "fft" "fftlib" = Some s -> stored s <> None) /\ (forall s, file m "fft" "rfft2lib" = Some s -> stored s <> None) /\ (forall s, file m "core" "showlib" = Some s -> In s show_names)) by (repeat split; intros s E; rewrite F in E; discriminate).
  assert (A : forall cores k, asked py_int m "numba" cores k -> k = cores) by (intros cores k [(s & E & _)|[_ E]]; [rewrite F in E; discriminate|exact E]).
  split.
  - intros H. destruct (start py_int m) as [[b c]|e].
    + exists b, c. split; [reflexivity|]. destruct (S b c eq_refl) as (_ & _ & _ & _ & cores & E & _ & Q & _). rewrite D in E. injection E as <-. exact (A _ _ Q).
    + exfalso. destruct R as [[_ E]|[[_ E]|[[_ E]|(_ & _ & cores & k & E & Q & N)]]]; try tauto; [congruence|]. rewrite D in E. injection E as <-. apply A in Q. subst k. contradiction.
  - intros H. destruct (start py_int m) as [[b c]|e].
    + exfalso. destruct (S b c eq_refl) as (_ & _ & _ & _ & cores & E & _ & Q & L). rewrite D in E. injection E as <-. apply A in Q. lia.
    + destruct R as [[_ E]|[[_ E]|[[_ E]|(-> & _)]]]; try tauto. congruence.
Qed.
Print Assumptions C88_fallback_refuted.

(** A machine with the file that comes with the package, two cores and scipy; CDDM_TARGET_PARALLEL=1, CDDM_FASTMATH=yes *)
Definition int_of (s : string) : option Z := if (s =? "0")%string then Some 0 else if (s =? "1")%string then Some 1 else if (s =? "61")%string then Some 61 else None.
Definition shipped (section name : string) : option string :=
  if (name =? "double_precision")%string || (name =? "cache")%string then Some "yes" else if (name =? "parallel")%string || (name =? "fastmath")%string then Some "No"
  else if (name =? "verbose")%string then Some "0" else if (name =? "rfft2lib")%string then Some "numpy" else None.
Definition a_machine (limit : Z) := Machine (fun v => if (v =? "CDDM_TARGET_PARALLEL")%string then Some "1" else if (v =? "CDDM_FASTMATH")%string then Some "yes" else None)
  shipped (Installed false true true false false) (Some "0.61.2") limit (Online 2).
Example C88_holds : start int_of (a_machine 2) = Ok (Build "parallel" true true false Double "double" Double, Config "numpy" "numpy" 0 "cv2" 2 2) /\
  start int_of (a_machine 1) = Raise AttributeError /\ split_dots "0.61.2" = ["0"; "61"; "2"] /\ lower "YeS" = "yes".
Proof. repeat split. Qed.
