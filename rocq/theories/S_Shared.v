(** Vocabulary to state what the users of demo/cross/shared see: the calls to the
    board support package, and executions. *)
From Verif Require Import Base M_Shared.

(** The clients that asked, that the server served and that used the resource, in
    order, each by the number the call is made with. *)
Definition asked (l : list bsp) : list nat := flat_map (fun x => match x with BCliReq p => [p] | _ => [] end) l.
Definition served (l : list bsp) : list nat := flat_map (fun x => match x with BSvrStart p => [p] | _ => [] end) l.
Definition used (l : list bsp) : list nat := flat_map (fun x => match x with BCliUsing p => [p] | _ => [] end) l.
Definition finished (l : list bsp) : list nat := flat_map (fun x => match x with BCliDone p => [p] | _ => [] end) l.

(** Who has the resource after these calls, from [w]; [None] if a client took it
    while it was taken, or gave back what it did not have. *)
Fixpoint owner (w : option nat) (l : list bsp) : option (option nat) :=
  match l with
  | [] => Some w
  | BCliUsing p :: l => match w with None => owner (Some p) l | Some _ => None end
  | BCliDone p :: l => match w with Some q => if Nat.eqb p q then owner None l else None | None => None end
  | _ :: l => owner w l
  end.

Fixpoint run (h : shcfg) (s : sys) (ops : list op) : res sys :=
  match ops with
  | [] => Ok s
  | o :: ops => do s <- step h s o; run h s ops
  end.
(** The application with [n] clients after [ops]. *)
Definition exec (h : shcfg) (n : nat) (ops : list op) : res sys := do s <- main h n; run h s ops.

Definition is_pause (o : op) : bool := match o with OPause => true | _ => false end.
(** The key 'p' is not pressed. *)
Definition no_pause (ops : list op) : Prop := existsb is_pause ops = false.
(** No client's time to ask comes. *)
Definition no_ask (ops : list op) : Prop := existsb (fun o => match o with OWait _ => true | _ => false end) ops = false.

(** [ops] is about the [n] clients there are. *)
Definition valid (n : nat) (o : op) : Prop :=
  match o with OServer | OPause => True | OClient i | OWait i | OUse i => (i < n)%nat end.

(** As the native scheduler runs them: a client, of lower priority, runs only while
    the server has no event. *)
Fixpoint by_priority (h : shcfg) (s : sys) (ops : list op) : Prop :=
  match ops with
  | [] => True
  | o :: ops => (match o with OClient _ => s_q s = [] | _ => True end) /\
                (forall s', step h s o = Ok s' -> by_priority h s' ops)
  end.

(** The sizes are enough for [n] clients under any scheduler, and under the native
    one. *)
Definition roomy (h : shcfg) (n : nat) : Prop :=
  (n + 1 <= h_sq h /\ 1 <= h_cq h /\ n <= h_def h /\ n + 1 <= h_pool h)%nat.
Definition fitting (h : shcfg) (n : nat) : Prop :=
  (1 <= h_sq h /\ 1 <= h_cq h /\ n <= h_def h /\ n <= h_pool h /\ 2 <= n)%nat.

(** The numbers of the clients in a state. *)
Fixpoint clients_in (st : nat) (i : nat) (l : list cli) : list nat :=
  match l with
  | [] => []
  | k :: l => (match c_st k with Some x => if Nat.eqb x st then [S i] else [] | None => [] end) ++ clients_in st (S i) l
  end.
Definition users (s : sys) : list nat := clients_in client_using 0 (s_cli s).
Definition waiters (s : sys) : list nat := clients_in client_waiting 0 (s_cli s).

(** The client [p] was told to start and has not yet noticed. *)
Definition called (s : sys) (p : nat) : Prop :=
  exists i k e, p = S i /\ nth_error (s_cli s) i = Some k /\ In e (c_q k) /\ m_sig e = START.
(** Nothing is under way: no events wait and no client's time of use runs. *)
Definition quiet (s : sys) : Prop := s_q s = [] /\ Forall (fun k => c_q k = [] /\ c_use k = false) (s_cli s).
