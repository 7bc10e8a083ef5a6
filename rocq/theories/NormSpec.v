(** What a normalized correlation means: averages over the pairs of samples that
    contribute to a delay. *)
From Verif Require Import Base PairSpec NormModel.
From Coq Require Import ZArith.
Set Implicit Arguments.

Section Spec.
  Variable K : Fld.
  Notation C := (Cx K).
  Notation pair := (sample C * sample C)%type.
  Local Infix "-" := (fsub K).
  Local Infix "/" := (fdiv K).
  Local Infix "+" := (fadd K).
  Local Infix "*" := (fmul K).

  Definition mean (P : list pair) (g : pair -> K) : K := Sum (fmon K) P g / fnat K (length P).
  Definition cmean (P : list pair) (g : pair -> C) : C :=
    (mean P (fun p => cre (g p)), mean P (fun p => cim (g p))).

  (** the sample of the first and of the second signal *)
  Definition fst_val (p : pair) : C := fst (fst p).
  Definition snd_val (p : pair) : C := fst (snd p).

  (** conj(x - b1) (y - b2) *)
  Definition prod_about (b1 b2 : C) (p : pair) : C := cmul (conj (csub (fst_val p) b1)) (csub (snd_val p) b2).
  (** |(y - b2) - (x - b1)|^2 *)
  Definition sqdiff_about (b1 b2 : C) (p : pair) : K := cnorm2 (csub (csub (snd_val p) b2) (csub (fst_val p) b1)).
  (** multiplication by the imaginary unit *)
  Definition times_i (z : C) : C := cmul (f0 K, f1 K) z.
  (** |(y - b2) - i (x - b1)|^2 *)
  Definition sqdiff_i_about (b1 b2 : C) (p : pair) : K :=
    cnorm2 (csub (csub (snd_val p) b2) (times_i (csub (fst_val p) b1))).

  (** The value of each delay below [N]; a delay without pairs has no finite value. *)
  Definition at_delays {V} (N : nat) (P : nat -> list pair) (g : list pair -> V) : list (fval V) :=
    map (fun k => match P k with [] => NonFin | _ => Fin (g (P k)) end) (seq 0 N).
End Spec.
