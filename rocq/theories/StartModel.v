(** Model of what conf.py decides when the package is imported: the reading of environment variables
    and of the configuration file (conf.py 26-33, 82-86), the flags for numba and the precision
    (94-129, 186-202, 371-383), the number of cores (146-171) and the first calls of the setters (340-360).

    Simplifications: python 3; [file section name] is what config.get returns (None: it raises, because
    there is no such section or option or the value cannot be interpolated); the file itself can be
    parsed; int() on strings is a parameter [py_int] (None: ValueError); lower() on ASCII letters;
    the creation of the configuration directory and the printing of messages are left out; the number of
    threads handed to mkl and pyfftw is left out. *)
From Coq Require Import String Ascii.
From Verif Require Import Base ConfModel.
Set Implicit Arguments.
Open Scope string_scope.
Open Scope list_scope.
Open Scope Z_scope.

(** str.lower *)
Definition lower_char (c : ascii) : ascii := let n := nat_of_ascii c in if (65 <=? n)%nat && (n <=? 90)%nat then ascii_of_nat (n + 32) else c.
Fixpoint lower (s : string) : string := match s with EmptyString => EmptyString | String c s => String (lower_char c) (lower s) end.
(** str.split(".") *)
Fixpoint split_dots (s : string) : list string :=
  match s with
  | EmptyString => [EmptyString]
  | String c s => if Ascii.eqb c "."%char then EmptyString :: split_dots s
                  else match split_dots s with [] => [String c EmptyString] | w :: l => String c w :: l end
  end.

(** os.sysconf("SC_NPROCESSORS_ONLN"): the system has no os.sysconf, or not this name, or the number *)
Inductive sysconf := NoSysconf | NoName | Online (n : Z).
(** The machine on which the package is imported *)
Record machine := Machine {
  env : string -> option string;              (* os.environ *)
  file : string -> string -> option string;   (* config.get(section, name) *)
  inst : installed;                           (* conf.py 139-144 *)
  numba_version : option string;              (* numba.__version__; None: not installed *)
  numba_limit : Z;                            (* the largest number of threads that numba.set_num_threads takes *)
  cpus : sysconf }.

Section Start.
  Variable py_int : string -> option Z.
  Variable m : machine.

  (** _read_environ_variable, conf.py 26-33, with a boolean default: the value, and whether it warned
      (the warning stands after the return) *)
  Definition read_environ_variable (name : string) (default : bool) : Z * bool :=
    match env m name with
    | None => (Z.b2z default, false)
    | Some s => match py_int s with Some z => (z, false) | None => (Z.b2z default, false) end
    end.
  Definition truth (z : Z) : bool := negb (z =? 0).
  (** _readconfig(config.getboolean / config.getint / config.get, ...), conf.py 82-86 *)
  Definition to_boolean (s : string) : option bool :=
    let s := lower s in
    if (s =? "1")%string || (s =? "yes")%string || (s =? "true")%string || (s =? "on")%string then Some true
    else if (s =? "0")%string || (s =? "no")%string || (s =? "false")%string || (s =? "off")%string then Some false
    else None.
  Definition readboolean (section name : string) (default : bool) : bool :=
    match file m section name with
    | Some s => match to_boolean s with Some b => b | None => default end
    | None => default
    end.
  Definition readint (section name : string) (default : Z) : Z :=
    match file m section name with
    | Some s => match py_int s with Some z => z | None => default end
    | None => default
    end.
  Definition readstr (section name : string) (default : string) : string := match file m section name with Some s => s | None => default end.
  Definition flag (variable section name : string) (default : bool) : bool := truth (fst (read_environ_variable variable (readboolean section name default))).

  (** conf.py 107-113: any exception leaves False *)
  Definition numba_0_45_or_greater : bool :=
    match numba_version m with
    | None => false
    | Some v =>
        match split_dots v with
        | major :: minor :: _ => match py_int major with Some a => if a =? 0 then (match py_int minor with Some b => 45 <=? b | None => false end) else false | None => false end
        | _ => false
        end
    end.
  (** conf.py 94-129, 186-202, 371-383.  Single and double stand for the 32 and 64 bit types *)
  Inductive width := Single | Double.
  Record build := Build { target : string; parallel : bool; cache : bool; fastmath : bool; dtypes : width; precision : string; numba_types : width }.
  Definition build_of : build :=
    let par := flag "CDDM_TARGET_PARALLEL" "numba" "parallel" false in
    let target := if par then "parallel" else "cpu" in
    let cache := if flag "CDDM_NUMBA_CACHE" "numba" "cache" true then (if negb par then true else if numba_0_45_or_greater then true else false) else false in
    let fast := if flag "CDDM_FASTMATH" "numba" "fastmath" false then true else false in
    let (dt, prec) := if flag "CDDM_DOUBLE_PRECISION" "core" "double_precision" true then (Double, "double") else (Single, "single") in
    let nt := if flag "CDDM_DOUBLE_PRECISION" "core" "double_precision" true then Double else Single in
    Build target par cache fast dt prec nt.

  (** detect_number_of_cores, conf.py 146-171; os.popen2 does not exist in python 3 *)
  Definition detect_number_of_cores : res Z :=
    let windows :=
      match env m "NUMBER_OF_PROCESSORS" with
      | Some s => match py_int s with Some n => if 0 <? n then Ok n else Ok 1 | None => Raise ValueError end
      | None => Ok 1
      end in
    match cpus m with
    | NoSysconf => windows
    | NoName => Raise AttributeError
    | Online n => if 0 <? n then Ok n else windows
    end.

  (** set_numba_threads, conf.py 339-345 *)
  Definition numba_set_num_threads (n : Z) : res Z := if (1 <=? n) && (n <=? numba_limit m) then Ok n else Raise ValueError.
  Definition set_numba_threads (c : config) (n : Z) : res config :=
    let* n := numba_set_num_threads n in
    Ok (Config (rfft2lib c) (fftlib c) (verbose c) (showlib c) (fft_threads c) n).

  Definition keep (A : Type) (o : outcome A) : res config := match value o with Ok _ => Ok (after o) | Raise e => Raise e end.
  (** The import, conf.py 340-360; numba.get_numba_threads does not exist *)
  Definition start : res (build * config) :=
    let b := build_of in
    let* _ := (match numba_version m with Some _ => Ok tt | None => Raise ImportError end) in
    let* c := keep (set_fftlib (inst m) initial (readstr "fft" "fftlib" (if has_mkl_fft (inst m) then "mkl_fft" else "numpy"))) in
    let* c := keep (set_rfft2lib (inst m) c (readstr "fft" "rfft2lib" "numpy")) in
    let* c := keep (set_verbose c (readint "core" "verbose" 0)) in
    let* c := keep (set_showlib (inst m) c (readstr "core" "showlib" (if has_cv2 (inst m) then "cv2" else "matplotlib"))) in
    let* n := detect_number_of_cores in
    let* c := keep (set_fft_threads c (readint "fft" "nthreads" n)) in
    let* n := detect_number_of_cores in
    let* c := (match set_numba_threads c (readint "numba" "nthreads" n) with
               | Raise ValueError => Raise AttributeError
               | r => r
               end) in
    Ok (b, c).
End Start.
