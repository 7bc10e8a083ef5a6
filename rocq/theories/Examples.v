(** Concrete numbers for the examples beside the theorems: rationals, complex
    rationals, and a printable form of results (rationals carry a proof of being
    reduced, so results are compared through their numerator and denominator). *)
From Verif Require Import Base.
From Coq Require Import QArith Qcanon.

Definition q (z : Z) : QcF := Q2Qc (inject_Z z).
Definition cz (a b : Z) : Cx QcF := (q a, q b).
Definition show (x : QcF) : Z * Z := (Qnum (this x), Zpos (Qden (this x))).
Definition showc (z : Cx QcF) := (show (cre z), show (cim z)).
Definition show_all {A B} (s : A -> B) (r : res (list A)) : res (list B) :=
  match r with Ok l => Ok (map s l) | Raise e => Raise e end.
