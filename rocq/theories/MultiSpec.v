(** Independent specification of coarse-grained signals: block means and the first or
    last sample of each block. *)
From Verif Require Import Base Kernels PairSpec.
Set Implicit Arguments.
Open Scope nat_scope.

Section Blocks.
  Variable G : QGrp.

  (** The mean of the 2^l consecutive samples k*2^l .. (k+1)*2^l-1: their sum, halved l
      times. *)
  Definition block_mean (l : nat) (x : nat -> G) (k : nat) : G :=
    Nat.iter l (ahalf G) (Sum G (seq (k * 2 ^ l) (2 ^ l)) x).

  (** The signal of the means of all complete blocks. *)
  Definition block_means (l : nat) (f : list G) : list G :=
    map (block_mean l (fun i => nth i f (m0 G))) (seq 0 (length f / 2 ^ l)).
  (** The signal of the first samples of all blocks, including an incomplete one. *)
  Definition block_firsts (l : nat) (f : list G) : list G :=
    map (fun k => nth (k * 2 ^ l) f (m0 G)) (seq 0 ((length f + 2 ^ l - 1) / 2 ^ l)).
End Blocks.
