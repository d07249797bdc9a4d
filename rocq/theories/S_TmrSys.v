(** Specification vocabulary for timers in the running system. *)
From Verif Require Import Base M_Tmr S_Tmr M_Kernel S_Kernel M_TmrSys.
Local Open Scope N_scope.

(** What a tick puts into queues: the events of the timers that expire, addressed to
    their active objects. *)
Definition tmr_posts (y : tsys) (fired : list N) : list entry :=
  map (fun t => EL (KPut false (y_to y t) (y_ev y t))) fired.
Definition tmr_events (y : tsys) (o : nat) (fired : list N) : list N :=
  map (y_ev y) (filter (fun t => Nat.eqb (y_to y t) o) fired).
(** The queues of the active objects concerned have room for them. *)
Definition tmr_room (y : tsys) (fired : list N) : Prop :=
  forall o, In o (map (y_to y) fired) -> ao_room (c_s (y_k y)) o (length (tmr_events y o fired)).

(** Steps that do not address timer [t]. *)
Definition leaves (t : N) (a : yop) : Prop :=
  match a with YInit t' _ | YStart t' _ _ _ | YStop t' => t' <> t | YKern _ | YTick => True end.
Definition ticks (l : list yop) : N :=
  N.of_nat (length (filter (fun a => match a with YTick => true | _ => false end) l)).
(** Does a timer started with count [n] and period [p] expire on the [k]th tick? *)
Definition due (n p k : N) : bool :=
  if p =? 0 then k =? n else (n <=? k) && ((k - n) mod p =? 0).
