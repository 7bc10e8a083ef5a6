(** The calls of ccorr and acorr whose results are described by the theorems. *)
From Verif Require Import Base PairSpec FftModel FftProofs.
From Coq Require Import String.
Open Scope string_scope.
Open Scope nat_scope.
Local Notation length := List.length.
Set Implicit Arguments.

Section Calls.
  Variable K : Fld.
  Notation C := (Cx K).
  Variable W : nat -> Cx K.

  (** When the fft method agrees with the direct one: distinct times and an output that
      is not longer than all delays (C13, C14). *)
  Definition fft_ok (f1 f2 : list C) (t1 t2 : option (list Z)) (N : nat) : Prop :=
    f1 <> [] /\ distinct (samples f1 t1) /\ distinct (samples f2 t2) /\
    exists L, covers (samples f1 t1) (samples f2 t2) L /\ is_root (L * 2) (W (L * 2)) /\ 0 < N <= L + 1.

  (** A call ccorr(f1, f2, t1, t2, n, method=method) that computes [N] delays: the
      arguments are consistent, [N] is [n] or by default one more than the largest
      delay, and the method is "corr" or "fft" or left to the default. *)
  Definition cross_call (f1 f2 : list C) (t1 t2 : option (list Z)) (n : option nat) (method : option string) (N : nat) : Prop :=
    valid_cross f1 f2 t1 t2 /\
    match n with Some n => N = n | None => f1 <> [] /\ covers (samples f1 t1) (samples f2 t2) N end /\
    (t1 = None -> N <= length f1 + 1) /\
    ((method = Some "corr" \/ (method = None /\ n <> None)) \/
     ((method = Some "fft" \/ (method = None /\ n = None)) /\ fft_ok f1 f2 t1 t2 N)).
  (** The same with method="diff". *)
  Definition cross_diff_call (f1 f2 : list C) (t1 t2 : option (list Z)) (n : option nat) (N : nat) : Prop :=
    valid_cross f1 f2 t1 t2 /\
    match n with Some n => N = n | None => f1 <> [] /\ covers (samples f1 t1) (samples f2 t2) N end /\
    (t1 = None -> N <= length f1 + 1).

  Definition fft_ok_auto (f : list C) (t : option (list Z)) (N : nat) : Prop :=
    f <> [] /\ exists L, covers (samples f t) (samples f t) L /\ is_root (L * 2) (W (L * 2)) /\ 0 < N <= L + 1.
  (** A call acorr(f, t, n=n, method=method); the times must be distinct. *)
  Definition auto_call (f : list C) (t : option (list Z)) (n : option nat) (method : option string) (N : nat) : Prop :=
    valid_auto f t /\ distinct (samples f t) /\
    match n with Some n => N = n | None => f <> [] /\ covers (samples f t) (samples f t) N end /\
    (t = None -> N <= length f + 1) /\
    ((method = Some "corr" \/ (method = None /\ n <> None)) \/
     ((method = Some "fft" \/ (method = None /\ n = None)) /\ fft_ok_auto f t N)).
  Definition auto_diff_call (f : list C) (t : option (list Z)) (n : option nat) (N : nat) : Prop :=
    valid_auto f t /\
    match n with Some n => N = n | None => f <> [] /\ covers (samples f t) (samples f t) N end /\
    (t = None -> N <= length f + 1).
End Calls.

(** The norm argument [norm] of ccorr or acorr selects the norm [nm]. *)
Definition norm_arg (norm : option Z) (nm : Z) : Prop :=
  (norm = Some nm /\ In nm [1; 2; 3; 5; 6; 7]%Z) \/ (norm = None /\ nm = 7%Z).
Definition norm_arg_diff (cross : bool) (norm : option Z) (nm : Z) : Prop :=
  if cross then (norm = Some nm /\ In nm [2; 6]%Z) \/ (norm = None /\ nm = 6%Z)
  else nm = 2%Z /\ (norm = Some 2%Z \/ norm = None).
