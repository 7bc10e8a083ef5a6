(** Independent specification of correlation data: what the arrays returned by
    cddm mean, written as sums over explicit lists of pairs of samples.  A sample
    is a value together with the time at which it was taken.  This file does not
    use any definition of the models. *)
From Verif Require Import Base.
Set Implicit Arguments.

Notation sample A := (A * Z)%type.

Section Pairs.
  Variables A B : Type.

  (** Signed delay between two samples. *)
  Definition delay (p : sample A * sample B) : Z := (snd (snd p) - snd (fst p))%Z.

  (** All pairs whose absolute delay is [k]. *)
  Definition pairs_at (k : nat) (d1 : list (sample A)) (d2 : list (sample B))
    : list (sample A * sample B) :=
    filter (fun p => Z.abs (delay p) =? Z.of_nat k)%Z (list_prod d1 d2).

  (** All pairs whose signed delay is [m]. *)
  Definition pairs_signed (m : Z) (d1 : list (sample A)) (d2 : list (sample B))
    : list (sample A * sample B) :=
    filter (fun p => delay p =? m)%Z (list_prod d1 d2).
End Pairs.

(** All pairs (i, j) with i <= j, in the order in which the samples are stored. *)
Fixpoint upairs {A : Type} (d : list A) : list (A * A) :=
  match d with
  | [] => []
  | x :: d' => map (pair x) (x :: d') ++ upairs d'
  end.

(** All such pairs whose absolute delay is [k]. *)
Definition upairs_at {A : Type} (k : nat) (d : list (sample A)) : list (sample A * sample A) :=
  filter (fun p => Z.abs (delay p) =? Z.of_nat k)%Z (upairs d).

Section Specs.
  Variable K : Fld.
  Notation C := (Cx K).

  (** Real part of conj(x)*y, summed. *)
  Definition re_prod (p : sample C * sample C) : K := cre (cmul (conj (fst (fst p))) (fst (snd p))).
  Definition cx_prod (p : sample C * sample C) : C := cmul (conj (fst (fst p))) (fst (snd p)).
  (** |y - x|^2 *)
  Definition sq_diff (p : sample C * sample C) : K := cnorm2 (csub (fst (snd p)) (fst (fst p))).
  (** conj of the earlier sample times the later sample *)
  Definition cx_prod_ordered (p : sample C * sample C) : C :=
    if (snd (fst p) <=? snd (snd p))%Z then cx_prod p
    else cmul (conj (fst (snd p))) (fst (fst p)).

  Definition corr_spec (d1 d2 : list (sample C)) (k : nat) : K :=
    Sum (fmon K) (pairs_at k d1 d2) re_prod.
  Definition corr_complex_spec (d1 d2 : list (sample C)) (m : Z) : C :=
    Sum (cmon K) (pairs_signed m d1 d2) cx_prod.
  Definition diff_spec (d1 d2 : list (sample C)) (k : nat) : K :=
    Sum (fmon K) (pairs_at k d1 d2) sq_diff.
  Definition acorr_spec (d : list (sample C)) (k : nat) : K :=
    Sum (fmon K) (upairs_at k d) re_prod.
  Definition acorr_complex_spec (d : list (sample C)) (k : nat) : C :=
    Sum (cmon K) (upairs_at k d) cx_prod_ordered.
  Definition adiff_spec (d : list (sample C)) (k : nat) : K :=
    Sum (fmon K) (upairs_at k d) sq_diff.
End Specs.

Section SumSpecs.
  Variable M : CMon.
  (** Sum of the first sample over all pairs. [B] is the (irrelevant) value type
      of the second data set. *)
  Definition sum_spec {B} (d1 : list (sample M)) (d2 : list (sample B)) (k : nat) : M :=
    Sum M (pairs_at k d1 d2) (fun p => fst (fst p)).
  Definition sum_signed_spec {B} (d1 : list (sample M)) (d2 : list (sample B)) (m : Z) : M :=
    Sum M (pairs_signed m d1 d2) (fun p => fst (fst p)).
End SumSpecs.

(** A data set without values: only times. *)
Definition times (t : list Z) : list (sample unit) := map (pair tt) t.

(** Regularly spaced data: sample i is taken at time i. *)
Definition regular {A} (f : list A) : list (sample A) := combine f (arange (length f)).

(** The delay stored at position [i] of an array with [2n-1] entries that is
    indexed by signed delays: 0, 1, ..., n-1, -(n-1), ..., -1. *)
Definition lag_at (n i : nat) : Z :=
  if (i <? n)%nat then Z.of_nat i else (Z.of_nat i - (2 * Z.of_nat n - 1))%Z.

(** [out] with [f k] added to every cell [k]: the meaning of accumulating into an
    existing array. *)
Definition plus_cells (M : CMon) (out : list M) (f : nat -> M) : list M :=
  map (fun k => madd M (nth k out (m0 M)) (f k)) (seq 0 (length out)).

(** The samples of a signal: with the given times, or regularly spaced if the
    times are omitted. *)
Definition samples {A} (f : list A) (t : option (list Z)) : list (sample A) :=
  match t with None => regular f | Some t => combine f t end.

(** Two signals with admissible times: of the same length, and either both or
    neither with times, of which there must be one for every sample. *)
Definition valid_cross {A B} (f1 : list A) (f2 : list B) (t1 t2 : option (list Z)) : Prop :=
  length f1 = length f2 /\
  match t1, t2 with
  | None, None => True
  | Some t1, Some t2 => length t1 = length f1 /\ length t2 = length f2 /\ f1 <> []
  | _, _ => False
  end.
Definition valid_auto {A} (f : list A) (t : option (list Z)) : Prop :=
  match t with None => True | Some t => length t = length f /\ f <> [] end.

(** [n] is one more than the largest absolute delay that occurs. *)
Definition covers {A B} (d1 : list (sample A)) (d2 : list (sample B)) (n : nat) : Prop :=
  (forall p, In p (list_prod d1 d2) -> (Z.abs (delay p) < Z.of_nat n)%Z) /\
  (exists p, In p (list_prod d1 d2) /\ Z.abs (delay p) = Z.of_nat n - 1)%Z.

(** Cell by cell sum of two arrays. *)
Definition zip_add (M : CMon) (a b : list M) : list M :=
  map (fun p => madd M (fst p) (snd p)) (combine a b).

(** The second time axis of a sum: its own times, or those of regular data. *)
Definition other_times {A} (f : list A) (t : option (list Z)) : list (sample unit) :=
  match t with None => times (arange (length f)) | Some t => times t end.
Definition valid_sum {A} (f : list A) (t t_other : option (list Z)) : Prop :=
  match t, t_other with
  | None, None => True
  | Some t, Some t' => length t = length f /\ f <> [] /\ t' <> []
  | _, _ => False
  end.

(** Mean of the two samples of a pair, over unordered pairs at delay [k]; [half]
    is the halving of the number type. *)
Definition asum_spec (M : CMon) (half : M -> M) (d : list (sample M)) (k : nat) : M :=
  Sum M (upairs_at k d) (fun p => half (madd M (fst (fst p)) (fst (snd p)))).

(** No two samples were taken at the same time. *)
Definition distinct {A} (d : list (sample A)) : Prop := NoDup (map snd d).

(** Processing data sets one after the other, passing the previous result as
    [aout]. *)
Fixpoint accumulate {D M} (call : D -> option (list M) -> res (list M)) (prev : list M) (ds : list D)
    : res (list M) :=
  match ds with
  | [] => Ok prev
  | d :: ds => let* r := call d (Some prev) in accumulate call r ds
  end.

(** What remains of a data set when later samples overwrite earlier ones that were
    taken at the same time. *)
Fixpoint keep_last {A} (d : list (sample A)) : list (sample A) :=
  match d with
  | [] => []
  | s :: d => if existsb (fun s' => snd s' =? snd s)%Z d then keep_last d else s :: keep_last d
  end.

(** All pairs whose signed delay is congruent to [m] modulo [N]. *)
Definition pairs_circular {A B} (N : nat) (m : Z) (d1 : list (sample A)) (d2 : list (sample B))
    : list (sample A * sample B) :=
  filter (fun p => delay p mod Z.of_nat N =? m mod Z.of_nat N)%Z (list_prod d1 d2).

(** The length of the output: that of the array passed as [aout], or [n], or by
    default [L]. *)
Definition output_length {A} (n : option nat) (aout : option (list A)) (L : nat) : nat :=
  match aout with
  | Some out => length out
  | None => match n with Some n => n | None => L end
  end.
