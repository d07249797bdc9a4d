(** Specification vocabulary for the statistics of event pools. *)
From Verif Require Import Base M_Kernel S_Kernel.
Local Open Scope N_scope.

(** Blocks taken from and given back to pool [i] so far, and the blocks free then, of
    [n]. *)
Definition taken (i : nat) (log : list entry) : N :=
  N.of_nat (length (filter (fun x => match x with EL (KAlloc j _) => Nat.eqb i j | _ => false end) log)).
Definition given (i : nat) (log : list entry) : N :=
  N.of_nat (length (filter (fun x => match x with EL (KFree j _) => Nat.eqb i j | _ => false end) log)).
Definition free_then (n : N) (i : nat) (log : list entry) : N := n + given i log - taken i log.
