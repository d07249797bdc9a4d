(** Specification vocabulary: executions of a life. *)
From Verif Require Import Base M_Life.

(** [None]: some step was not possible. *)
Fixpoint live (p : port) (cap : nat) (s : life) (l : list lab) : option (res life) :=
  match l with
  | [] => Some (Ok s)
  | x :: l => match lstep p cap s x with
              | Some (Ok s) => live p cap s l
              | Some (Fault f) => match l with [] => Some (Fault f) | _ => None end
              | None => None
              end
  end.
Fixpoint posted (l : list lab) : list N :=
  match l with [] => [] | Post e :: l => e :: posted l | _ :: l => posted l end.
(** The thread does not run between its creation and the end of the activation;
    [b]: it was created and the activation goes on. *)
Fixpoint calm (b : bool) (l : list lab) : Prop :=
  match l with
  | [] => True
  | ACreate :: l => calm true l
  | ASet :: l => calm false l
  | Thread :: l => b = false /\ calm b l
  | _ :: l => calm b l
  end.
(** The event the thread has taken but not yet dispatched. *)
Definition in_hand (s : life) : list N := match l_pc s with PDisp e => [e] | _ => [] end.
Definition queued (s : life) : list N := match l_q s with Some q => q | None => [] end.
(** Inside the loop, between the test and the next test. *)
Definition in_turn (s : life) : Prop := match l_pc s with PDisp _ | PGc _ | PTest => True | _ => False end.
Definition only_thread (l : list lab) : Prop := Forall (fun x => x = Thread) l.
