(** Specification of software timers: each timer is an independent countdown. *)
From Verif Require Import Base M_Tmr.
Local Open Scope N_scope.

Inductive tmop := TInit (t : N) | TStart (t n p : N) | TStop (t : N) | TTick.
Inductive tmout := TOSkip | TOUnit | TOStop (b : bool) | TOTick (posts : list N).

(** The model driven by calls from outside the tick.  The second component is
    the ledger of initialised timers: a client starts and stops only timers it
    has initialised (a forbidden request is not issued, [TOSkip]).  A tick
    returns the timers whose events were posted, in order. *)
Section Drive.
Context (c : tmcfg) (hook : N -> tmst -> list N -> res (tmst * list N)).
Definition tm_post (t : N) (w : list N) : res (list N) := Ok (w ++ [t]).

Definition tm_step (s : tmst * list N) (o : tmop) : res ((tmst * list N) * tmout) :=
  let (st, led) := s in
  let known t := existsb (N.eqb t) led in
  let fuel := length led in
  match o with
  | TInit t => do st <- tm_init_ fuel st t;
               Ok ((st, if known t then led else t :: led), TOUnit)
  | TStart t n p => if known t then do st <- tm_start c st t n p; Ok ((st, led), TOUnit)
                    else Ok (s, TOSkip)
  | TStop t => if known t then do (st, b) <- tm_stop fuel st t; Ok ((st, led), TOStop b)
               else Ok (s, TOSkip)
  | TTick => do (st, w) <- tm_tick c hook tm_post fuel st []; Ok ((st, led), TOTick w)
  end.
End Drive.

(** Arguments fit the integer type of tick counts and are accepted by the
    assertion of rkh_tmr_start. *)
Definition tmop_ok (c : tmcfg) (o : tmop) : Prop :=
  match o with TStart _ n p => 0 < n < tnt_mod c /\ p < tnt_mod c | _ => True end.

(** No hook at all, and what is asked of a hook in the positive theorems: it
    may restart running timers, but links and unlinks none. *)
Definition no_hook (t : N) (s : tmst) (w : list N) : res (tmst * list N) := Ok (s, w).

Definition hook_ok (c : tmcfg) (hook : N -> tmst -> list N -> res (tmst * list N)) : Prop :=
  forall t s w, exists s', hook t s w = Ok (s', w) /\ ts_head s' = ts_head s /\
    forall x, let r := ts_heap s x in let r' := ts_heap s' x in
      tm_next r' = tm_next r /\ tm_used r' = tm_used r /\
      (tm_used r = false -> tm_ntick r' = tm_ntick r) /\
      (0 < tm_ntick r < tnt_mod c -> 0 < tm_ntick r' < tnt_mod c) /\
      (tm_period r < tnt_mod c -> tm_period r' < tnt_mod c).

(** The hooks never touch timer [t0]. *)
Definition hook_spares (t0 : N) (hook : N -> tmst -> list N -> res (tmst * list N)) : Prop :=
  forall t s w s' w', hook t s w = Ok (s', w') ->
    tm_ntick (ts_heap s' t0) = tm_ntick (ts_heap s t0) /\
    tm_period (ts_heap s' t0) = tm_period (ts_heap s t0).

(** One timer as a countdown: [None] stopped, [Some (n, p)] fires after [n]
    more ticks, then every [p] if [p] is not 0. *)
Definition countdown := option (N * N).
Definition fires (x : countdown) : bool :=
  match x with Some (n, _) => n =? 1 | None => false end.
Definition after_tick (x : countdown) : countdown :=
  match x with
  | Some (n, p) => if n =? 1 then (if p =? 0 then None else Some (p, p)) else Some (n - 1, p)
  | None => None
  end.
Definition running (x : countdown) : bool := match x with Some _ => true | None => false end.

(** A trace of calls and results agrees with the countdown of [t0]. *)
Fixpoint agrees (t0 : N) (x : countdown) (tr : list (tmop * tmout)) : Prop :=
  match tr with
  | [] => True
  | (o, r) :: tr =>
    match o, r with
    | _, TOSkip => agrees t0 x tr
    | TTick, TOTick ps =>
        count_occ N.eq_dec ps t0 = (if fires x then 1 else 0)%nat /\ agrees t0 (after_tick x) tr
    | TInit t, TOUnit => agrees t0 (if t =? t0 then None else x) tr
    | TStart t n p, TOUnit => agrees t0 (if t =? t0 then Some (n, p) else x) tr
    | TStop t, TOStop b => (t = t0 -> b = running x) /\ agrees t0 (if t =? t0 then None else x) tr
    | _, _ => False
    end
  end.

(** The countdown of [t0] after a trace. *)
Fixpoint track (t0 : N) (x : countdown) (tr : list (tmop * tmout)) : countdown :=
  match tr with
  | [] => x
  | (_, TOSkip) :: tr => track t0 x tr
  | (o, _) :: tr =>
    track t0 (match o with
              | TTick => after_tick x
              | TInit t | TStop t => if t =? t0 then None else x
              | TStart t n p => if t =? t0 then Some (n, p) else x
              end) tr
  end.

(** [l] is the linked list that starts at pointer [p]. *)
Fixpoint path (h : N -> tmr) (p : option N) (l : list N) : Prop :=
  match l with
  | [] => p = None
  | x :: l => p = Some x /\ path h (tm_next (h x)) l
  end.

(** The posts of the successive ticks of a trace. *)
Fixpoint ticks_of (rs : list tmout) : list (list N) :=
  match rs with
  | [] => []
  | TOTick ps :: rs => ps :: ticks_of rs
  | _ :: rs => ticks_of rs
  end.

(** Calls that do not address [t0]. *)
Definition spares (t0 : N) (o : tmop) : Prop :=
  match o with TInit t | TStart t _ _ | TStop t => t <> t0 | TTick => True end.

(** The timers linked, most recently linked first, as far as the visible trace
    tells: starting a timer that is not running puts it in front; stopping,
    re-initialising or a final expiration removes it. *)
Record lk_timer := mkLk { lk_id : N; lk_left : N; lk_per : N }.
Definition lk_del (t : N) (l : list lk_timer) := filter (fun x => negb (lk_id x =? t)) l.
Definition lk_mem (t : N) (l : list lk_timer) := existsb (fun x => lk_id x =? t) l.
Definition lk_step (s : list lk_timer * list N) (o : tmop) : (list lk_timer * list N) * tmout :=
  let (l, led) := s in
  let known t := existsb (N.eqb t) led in
  match o with
  | TInit t => ((lk_del t l, if known t then led else t :: led), TOUnit)
  | TStart t n p =>
      if known t then
        ((if lk_mem t l
          then map (fun x => if lk_id x =? t then mkLk t n p else x) l
          else mkLk t n p :: l, led), TOUnit)
      else (s, TOSkip)
  | TStop t => if known t then ((lk_del t l, led), TOStop (lk_mem t l)) else (s, TOSkip)
  | TTick =>
      ((concat (map (fun x => if lk_left x =? 1
                              then if lk_per x =? 0 then [] else [mkLk (lk_id x) (lk_per x) (lk_per x)]
                              else [mkLk (lk_id x) (lk_left x - 1) (lk_per x)]) l), led),
       TOTick (map lk_id (filter (fun x => lk_left x =? 1) l)))
  end.
Fixpoint lk_run (s : list lk_timer * list N) (ops : list tmop) : list tmout :=
  match ops with [] => [] | o :: ops => snd (lk_step s o) :: lk_run (fst (lk_step s o)) ops end.

(** [b] comes before [a] in [l]. *)
Definition before (b a : N) (l : list N) : Prop :=
  exists l1 l2 l3, l = l1 ++ b :: l2 ++ a :: l3.

(** A hook that restarts its own timer [x], and one that stops it. *)
Definition self_restart (c : tmcfg) (x n p : N) (t : N) (s : tmst) (w : list N) : res (tmst * list N) :=
  if t =? x then do s <- tm_start c s x n p; Ok (s, w) else Ok (s, w).
Definition self_stop (fuel : nat) (x : N) (t : N) (s : tmst) (w : list N) : res (tmst * list N) :=
  if t =? x then do (s, _) <- tm_stop fuel s x; Ok (s, w) else Ok (s, w).
