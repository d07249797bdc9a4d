(** Specification vocabulary for whole executions: which dispatch is under way,
    signals on their way from sender to receiver, and applications whose active
    objects are state machines. *)
From Verif Require Import Base M_RdyGrp M_Queue M_MemPool M_Kernel M_Sm S_SmWf S_SmRun S_Kernel M_App.
Local Open Scope N_scope.

(** *** Run to completion *)
(** The dispatches under way, innermost first. *)
Definition dispatching (x : conf) : list (nat * N) :=
  concat (map (fun f => match f_p f with User (UDispatch o e) _ => [(o, e)] | _ => [] end) (c_stk x)).
(** Application code runs, or has been interrupted, somewhere. *)
Definition user_code (x : conf) : bool :=
  existsb (fun f => match f_p f with User _ _ => true | _ => false end) (c_stk x).
Definition init_count (o : nat) (log : list entry) : nat :=
  length (filter (fun x => match x with EU (UInit o') => Nat.eqb o o' | _ => false end) log).

(** How often [o] was taken out of the registry. *)
Definition off_count (o : nat) (log : list entry) : nat :=
  length (filter (fun x => match x with EL (KOff o') => Nat.eqb o o' | _ => false end) log).

(** *** Signals *)
(** The signal in an event header. *)
Definition sig_of (s : kst) (e : N) : option N :=
  match k_mem s e with Some (CEvt sig _ _) => Some sig | _ => None end.

(** What an observer of one active object sees: a signal sent to it (accepted by
    its queue), a signal it starts to handle, its initialisation.  The signals are
    those in memory at that very moment. *)
Inductive obs := Sent (lifo : bool) (o : nat) (sig : option N) | Handled (o : nat) (sig : option N) | Started (o : nat).
Definition obs_of (s : kst) (x : entry) : list obs :=
  match x with
  | EL (KPut lifo o e) => [Sent lifo o (sig_of s e)]
  | EU (UDispatch o e) => [Handled o (sig_of s e)]
  | EU (UInit o) => [Started o]
  | _ => []
  end.
(** What one step adds. *)
Definition news (x x' : conf) : list obs :=
  concat (map (obs_of (c_s x')) (skipn (length (c_log x)) (c_log x'))).
Fixpoint orun (c : kcfg) (statics : list (N * N)) (x : conf) (chs : list choice) : res (conf * list obs) :=
  match chs with
  | [] => Ok (x, [])
  | ch :: t =>
    do x' <- cstep c statics x ch;
    do (y, w) <- orun c statics x' t;
    Ok (y, news x x' ++ w)
  end.

(** The signals waiting for [o], as implied by what was seen: [None] if something
    was handled that was not next. *)
Definition sig_eqb (a b : option N) : bool :=
  match a, b with Some x, Some y => x =? y | None, None => true | _, _ => false end.
Definition sig_step (o : nat) (q : option (list (option N))) (x : obs) : option (list (option N)) :=
  match q with
  | None => None
  | Some l =>
    match x with
    | Sent lifo o' g => if Nat.eqb o o' then Some (if lifo then g :: l else l ++ [g]) else q
    | Handled o' g =>
        if Nat.eqb o o' then match l with h :: t => if sig_eqb g h then Some t else None | [] => None end else q
    | Started _ => q
    end
  end.
Definition sig_queue (o : nat) (w : list obs) : option (list (option N)) := fold_left (sig_step o) w (Some []).
Definition sent (o : nat) (w : list obs) : list (option N) :=
  concat (map (fun x => match x with Sent _ o' g => if Nat.eqb o o' then [g] else [] | _ => [] end) w).
Definition handled (o : nat) (w : list obs) : list (option N) :=
  concat (map (fun x => match x with Handled o' g => if Nat.eqb o o' then [g] else [] | _ => [] end) w).
Definition fifo_only (o : nat) (w : list obs) : Prop := forall g, ~ In (Sent true o g) w.
Definition is_started (o : nat) (w : list obs) : bool :=
  existsb (fun x => match x with Started o' => Nat.eqb o o' | _ => false end) w.

(** *** Applications *)
(** One execution of the kernel together with the state machines of the active
    objects: whenever the kernel starts one or hands it an event, its machine runs
    the initial transition or processes the event. *)
Fixpoint arun (c : kcfg) (statics : list (N * N)) (obj : nat -> smobj) (x : conf) (ms : machines) (chs : list choice)
  : res (conf * machines) :=
  match chs with
  | [] => Ok (x, ms)
  | ch :: t =>
    do x' <- cstep c statics x ch;
    arun c statics obj x' (fold_left (deliver obj (c_s x')) (skipn (length (c_log x)) (c_log x')) ms) t
  end.

(** A machine on its own, given a list of signals. *)
Fixpoint alone_from (ob : smobj) (k : nat) (r : res dyn) (sigs : list (option N)) : res dyn :=
  match sigs with
  | [] => r
  | g :: t => alone_from ob (S k)
                (do d <- r; do (d', _) <- dispatch (ob_c ob) (ob_M ob) (ob_grd ob) (ob_fuel ob) (ob_ist ob) (ob_iact ob) d
                                            (mkEv (match g with Some v => v | None => 0 end)
                                                  (2 + match g with Some v => v | None => 0 end)) (ob_ars ob k); Ok d') t
  end.
Definition alone (ob : smobj) (sigs : list (option N)) : res dyn :=
  alone_from ob 1 (do (d, _) <- sm_init (ob_c ob) (ob_M ob) (ob_grd ob) (ob_fuel ob) (ob_ist ob) (ob_iact ob) blank (ob_ars ob 0); Ok d) sigs.

(** The same as calls of the state machine's functions (S_SmRun). *)
Fixpoint calls_from (ob : smobj) (k : nat) (sigs : list (option N)) : list smop :=
  match sigs with
  | [] => []
  | g :: t => ODisp (mkEv (match g with Some v => v | None => 0 end) (2 + match g with Some v => v | None => 0 end)) (ob_ars ob k)
              :: calls_from ob (S k) t
  end.
Definition calls (ob : smobj) (sigs : list (option N)) : list smop := OInit (ob_ars ob 0) :: calls_from ob 1 sigs.
