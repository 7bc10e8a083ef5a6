(** Model of the run-time configuration (conf.py 131-144 and 220-335), of the choice of the Fourier library
    (fft.py 26-85) and of the switching of messages (print_tools.py).

    Simplifications: names are strings (str(name) applied beforehand), numbers of threads and verbosity
    levels are integers (int() applied beforehand); a warning is a flag of the result; whether a module
    is installed does not change while the program runs; messages are the requests that reach print. *)
From Coq Require Import String.
From Verif Require Import Base.
Set Implicit Arguments.
Open Scope string_scope.
Open Scope list_scope.

(** conf.py 139-144 *)
Record installed := Installed { has_mkl_fft : bool; has_scipy : bool; has_cv2 : bool; has_pyqtgraph : bool; has_pyfftw : bool }.

(** conf.py 220-237 *)
Record config := Config { rfft2lib : string; fftlib : string; verbose : Z; showlib : string; fft_threads : Z; numba_threads : Z }.
Definition initial : config := Config "numpy" "numpy" 0 "matplotlib" 1 1.

(** A setter changes the configuration, returns the previous value and may warn; or it raises. *)
Record outcome (A : Type) := Outcome { after : config; value : res A; warned : bool }.

Section Setters.
  Variable inst : installed.

  (** conf.py 250-254 *)
  Definition set_verbose (c : config) (level : Z) : outcome Z :=
    Outcome (Config (rfft2lib c) (fftlib c) (Z.max 0 level) (showlib c) (fft_threads c) (numba_threads c)) (Ok (verbose c)) false.

  Definition with_showlib (c : config) (s : string) := Config (rfft2lib c) (fftlib c) (verbose c) s (fft_threads c) (numba_threads c).
  Definition with_fftlib (c : config) (s : string) := Config (rfft2lib c) s (verbose c) (showlib c) (fft_threads c) (numba_threads c).
  Definition with_rfft2lib (c : config) (s : string) := Config s (fftlib c) (verbose c) (showlib c) (fft_threads c) (numba_threads c).

  (** conf.py 256-270 *)
  Definition set_showlib (c : config) (name : string) : outcome string :=
    let out := showlib c in
    if negb ((name =? "matplotlib") || (name =? "cv2") || (name =? "pyqtgraph")) then Outcome c (Raise ValueError) false
    else if (name =? "cv2") && negb (has_cv2 inst) then Outcome c (Ok out) true
    else if (name =? "pyqtgraph") && negb (has_pyqtgraph inst) then Outcome c (Ok out) true
    else Outcome (with_showlib c name) (Ok out) false.

  (** conf.py 272-294 *)
  Definition set_fftlib (c : config) (name : string) : outcome string :=
    let out := fftlib c in
    if name =? "mkl_fft" then (if has_mkl_fft inst then Outcome (with_fftlib c name) (Ok out) false else Outcome c (Ok out) true)
    else if (name =? "scipy.fftpack") || (name =? "scipy") then (if has_scipy inst then Outcome (with_fftlib c "scipy") (Ok out) false else Outcome c (Ok out) true)
    else if (name =? "numpy.fft") || (name =? "numpy") then Outcome (with_fftlib c "numpy") (Ok out) false
    else if name =? "pyfftw" then (if has_pyfftw inst then Outcome (with_fftlib c "pyfftw") (Ok out) false else Outcome c (Ok out) true)
    else Outcome c (Raise ValueError) false.

  (** conf.py 296-319 *)
  Definition set_rfft2lib (c : config) (name : string) : outcome string :=
    let out := rfft2lib c in
    if name =? "mkl_fft" then (if has_mkl_fft inst then Outcome (with_rfft2lib c name) (Ok out) false else Outcome c (Ok out) true)
    else if (name =? "scipy.fftpack") || (name =? "scipy") then (if has_scipy inst then Outcome (with_rfft2lib c "scipy") (Ok out) false else Outcome c (Ok out) true)
    else if name =? "pyfftw" then (if has_pyfftw inst then Outcome (with_rfft2lib c "pyfftw") (Ok out) false else Outcome c (Ok out) true)
    else if (name =? "numpy.fft") || (name =? "numpy") then Outcome (with_rfft2lib c "numpy") (Ok out) false
    else Outcome c (Raise ValueError) false.

  (** conf.py 321-335 *)
  Definition set_fft_threads (c : config) (n : Z) : outcome Z :=
    Outcome (Config (rfft2lib c) (fftlib c) (verbose c) (showlib c) n (numba_threads c)) (Ok (fft_threads c)) false.

  (** Which library computes: the branch of fft.py 26-68 (_fft, _ifft, _fft2, _ifft2).  None: no branch, the function returns None.
      An imported module is one that is installed; any other is a name that is not defined. *)
  Inductive library := Mkl | Scipy | Numpy | Pyfftw.
  Definition usable (l : library) : bool := match l with Mkl => has_mkl_fft inst | Scipy => has_scipy inst | Numpy => true | Pyfftw => has_pyfftw inst end.
  Definition branch (libname : string) : option library :=
    if libname =? "mkl_fft" then Some Mkl else if libname =? "scipy" then Some Scipy else if libname =? "numpy" then Some Numpy else if libname =? "pyfftw" then Some Pyfftw else None.
  Definition fft_with (c : config) : option library := branch (fftlib c).
  (** fft.py 70-85 (_rfft2): without a branch the variable out is not bound. *)
  Definition rfft2_with (c : config) : res library := match branch (rfft2lib c) with Some l => Ok l | None => Raise UnboundLocalError end.

  (** Calls of the setters, one after the other; an exception leaves what was set before *)
  Inductive call := SetVerbose (level : Z) | SetShowlib (name : string) | SetFftlib (name : string) | SetRfft2lib (name : string) | SetFftThreads (n : Z).
  Definition do_call (c : config) (k : call) : config :=
    match k with
    | SetVerbose l => after (set_verbose c l)
    | SetShowlib s => after (set_showlib c s)
    | SetFftlib s => after (set_fftlib c s)
    | SetRfft2lib s => after (set_rfft2lib c s)
    | SetFftThreads n => after (set_fft_threads c n)
    end.
  Definition do_calls (c : config) (l : list call) : config := fold_left do_call l c.
End Setters.

(* ------------------------------------------------------------------ *)
(** * Messages: the state is CDDMConfig.verbose *)
(** print_tools.py 11-14, 16-19: whether the message is printed *)
Definition print1 (v : Z) : bool := (1 <=? v)%Z.
Definition print2 (v : Z) : bool := (2 <=? v)%Z.
(** print_tools.py 43-48, 50-55: new state and result *)
Definition disable_prints (v : Z) : Z * Z := ((- Z.abs v)%Z, v).
Definition enable_prints (v : Z) (level : option Z) : Z * Z := (Z.abs v, match level with None => v | Some l => l end).

(** What functions of the package do with messages *)
Inductive action := Disable | Enable (level : option Z) | Say1 | Say2.
(** State and the printed messages (true: of level 1) *)
Definition act (s : Z * list bool) (a : action) : Z * list bool :=
  let (v, out) := s in
  match a with
  | Disable => (fst (disable_prints v), out)
  | Enable l => (fst (enable_prints v l), out)
  | Say1 => (v, if print1 v then out ++ [true] else out)
  | Say2 => (v, if print2 v then out ++ [false] else out)
  end.
Definition run (v : Z) (l : list action) : Z * list bool := fold_left act l (v, []).

(** level = disable_prints(); body; enable_prints(level): norm.py 564-619, multitau.py 222-262, 283-290, 894-1033, 1049-1076, 1685-1737.
    There is no try/finally: if the body raises, enable_prints is not reached. *)
Definition quietly {A} (body : Z -> Z * res A) (v : Z) : Z * res A :=
  let (v, level) := disable_prints v in
  let (v, r) := body v in
  match r with
  | Ok x => (fst (enable_prints v (Some level)), Ok x)
  | Raise e => (v, Raise e)
  end.
