(** Vocabulary for the claims about critical sections of the ports. *)
From Verif Require Import Base M_Port.
Local Open Scope N_scope.

(** The code has a critical section, and how deep they nest. *)
Fixpoint has_sect (c : code) : bool :=
  match c with Nil => false | Work k => has_sect k | Sect _ _ => true end.

Fixpoint depth (c : code) : nat :=
  match c with
  | Nil => 0
  | Work k => depth k
  | Sect b k => Nat.max (S (depth b)) (depth k)
  end.

(** The activity is in a critical section: its RKH_ENTER_CRITICAL() is over
    and the RKH_EXIT_CRITICAL() that goes with it is not. *)
Definition inside (f : frame) : Prop := opn f <> [].

(** It is in none, nor about to enter one. *)
Definition outside (f : frame) : Prop :=
  opn f = [] /\ exists k, ph f = Run k.

(** Handlers that use the framework have a level that the sections mask;
    nesting is bounded. *)
Definition sources_ok (K : N) (cap : nat) (xs : list source) : Prop :=
  forall x, In x xs ->
    0 < fst x /\ (has_sect (snd x) = true -> fst x <= K) /\ (depth (snd x) <= cap)%nat.

(** What is wanted of the critical sections of a port, in a configuration.
    [base] is the level below which the activity takes no interrupts when it
    is in no section. *)
Record safe (p : port) (xs : list source) (base : frame -> N) (c : conf) : Prop := {
  (** two activities are never in a section at once *)
  safe_one : forall i j f g,
    nth_error (fs c) i = Some f -> inside f ->
    nth_error (fs c) j = Some g -> inside g -> i = j;
  (** while one is, only handlers without sections are taken *)
  safe_masked : forall f x,
    In f (fs c) -> inside f -> In x xs -> accepts p c (fst x) = true ->
    has_sect (snd x) = false;
  (** and out of the sections every interrupt is taken that would be if
      there were none *)
  safe_open : forall f r l,
    fs c = f :: r -> outside f -> (accepts p c l = true <-> base f < l)
}.
