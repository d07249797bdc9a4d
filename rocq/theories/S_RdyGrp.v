(** Specification vocabulary for the bit tables and the ready group.
    Independent of the byte-level representation. *)
From Verif Require Import Base M_RdyGrp.
Local Open Scope N_scope.

(** [p] is the position of the least significant 1 bit of [x]. *)
Definition least_set_bit (x p : N) : Prop :=
  N.testbit x p = true /\ forall q, q < p -> N.testbit x q = false.

(** A ready-group call. *)
Inductive rgop := RgReady (p : N) | RgUnready (p : N).
Definition rgop_prio (o : rgop) : N :=
  match o with RgReady p | RgUnready p => p end.

(** Membership after a history, oldest call first: decided by the last call
    that names the priority. *)
Fixpoint rg_member (ops : list rgop) (p : N) : bool :=
  match ops with
  | [] => false
  | o :: t =>
      if existsb (fun o' => rgop_prio o' =? p) t then rg_member t p
      else if rgop_prio o =? p
           then match o with RgReady _ => true | RgUnready _ => false end
           else rg_member t p
  end.

(** A client history run against the model (driver, not C code). *)
Definition rg_step (c : rgcfg) (g : rdygrp) (o : rgop) : res rdygrp :=
  match o with RgReady p => rg_setReady c g p | RgUnready p => rg_setUnready c g p end.

Fixpoint rg_run (c : rgcfg) (g : rdygrp) (ops : list rgop) : res rdygrp :=
  match ops with
  | [] => Ok g
  | o :: t => do g' <- rg_step c g o; rg_run c g' t
  end.

(** Fold of a callback over a list of priorities. *)
Fixpoint cb_fold {W} (cb : N -> W -> res W) (l : list N) (w : W) : res W :=
  match l with [] => Ok w | p :: t => do w' <- cb p w; cb_fold cb t w' end.

(** Strictly ascending lists. *)
Fixpoint ascending (l : list N) : Prop :=
  match l with
  | [] => True
  | x :: t => (forall y, In y t -> x < y) /\ ascending t
  end.
