(** What blinky is to do, in terms of the LED and of ticks. *)
From Verif Require Import Base M_Sm S_SmRun M_SmFlat M_Tmr M_Blinky.
Local Open Scope N_scope.

(** The LED calls of each step. *)
Fixpoint b_run (v : version) (on off : N) (cap : nat) (s : bl) (ops : list bop) : res (bl * list (list led)) :=
  match ops with
  | [] => Ok (s, [])
  | o :: ops => do (s, x) <- b_step v on off cap s o; do (s, xs) <- b_run v on off cap s ops; Ok (s, x :: xs)
  end.
Definition b_exec (v : version) (on off : N) (cap : nat) (k : scratch) (h : N -> tmr) (ops : list bop)
  : res (bl * list led * list (list led)) :=
  do (s, x) <- b_start v on off k h; do (s, xs) <- b_run v on off cap s ops; Ok (s, x, xs).

(** Scratch memory has its size, and any contents. *)
Definition scratch_ok (k : scratch) : Prop := length (k_al k) = 2%nat /\ arrays_ok bsm (k_ars k).
Definition bop_ok (o : bop) : Prop := match o with BTurn k => scratch_ok k | _ => True end.
Definition is_esc (o : bop) : bool := match o with BEsc => true | _ => false end.
Definition escs (ops : list bop) : nat := length (filter is_esc ops).
Definition is_tick (o : bop) : bool := match o with BTick => true | _ => false end.
Definition ticks (ops : list bop) : N := N.of_nat (length (filter is_tick ops)).

Definition other (l : led) : led := match l with On => Off | Off => On end.
Definition span (on off : N) (l : led) : N := match l with On => on | Off => off end.

(** A wall clock: [now] ticks have passed, the LED is in state [l], and it is to
    change at tick [due], or at the first turn of the object after that. *)
Fixpoint clock (on off now : N) (l : led) (due : N) (ops : list bop) : list (list led) :=
  match ops with
  | [] => []
  | BTick :: ops => [] :: clock on off (now + 1) l due ops
  | BTurn _ :: ops =>
    if due <=? now then [other l] :: clock on off now (other l) (now + span on off (other l)) ops
    else [] :: clock on off now l due ops
  | BEsc :: ops => [] :: clock on off now l due ops
  end.

(** The LED calls, each with the number of ticks before it. *)
Fixpoint stamp (now : N) (ops : list bop) (xs : list (list led)) : list (N * led) :=
  match ops, xs with
  | o :: ops, x :: xs => map (fun l => (now, l)) x ++ stamp (if is_tick o then now + 1 else now) ops xs
  | _, _ => []
  end.
(** The calls alternate, and each state of the LED lasts at least its time. *)
Fixpoint paced (on off : N) (t : N) (l : led) (xs : list (N * led)) : Prop :=
  match xs with
  | [] => True
  | (t', l') :: xs => l' = other l /\ t + span on off l <= t' /\ paced on off t' l' xs
  end.
Definition is_on (l : led) : bool := match l with On => true | Off => false end.
(** The LED after some calls. *)
Definition shown (l : led) (xs : list led) : led := last xs l.
(** An object that runs after every tick. *)
Definition prompt (k : scratch) (n : nat) : list bop := flat_map (fun _ => [BTick; BTurn k]) (seq 0 n).
