(** Specification vocabulary for the trace records of timers. *)
From Verif Require Import Base M_Tmr S_Tmr M_TmrTrc.
Local Open Scope N_scope.

(** The driver of S_Tmr, with the records of each call as its result. *)
Definition tm_step_t (c : tmcfg) (s : tmst * list N) (o : tmop) : res ((tmst * list N) * list trec) :=
  let (st, led) := s in
  let known t := existsb (N.eqb t) led in
  let fuel := length led in
  match o with
  | TInit t => do (st, r) <- tm_init_t fuel st t; Ok ((st, if known t then led else t :: led), r)
  | TStart t n p => if known t then do (st, r) <- tm_start_t c st t n p; Ok ((st, led), r) else Ok (s, [])
  | TStop t => if known t then do (st, _, r) <- tm_stop_t fuel st t; Ok ((st, led), r) else Ok (s, [])
  | TTick => do (st, r) <- tm_tick_t c fuel st; Ok ((st, led), r)
  end.

(** The records a call should make when the timers running are [l], most recently linked
    first, with the ticks they have left ([lk_step] of S_Tmr tells how [l] changes).
    [None] for the timers nobody initialised.  The period of a timer that is not running
    is anything. *)
Definition lk_find (t : N) (l : list lk_timer) : option lk_timer := find (fun x => lk_id x =? t) l.
Definition recs_ok (s : list lk_timer * list N) (o : tmop) (rs : list trec) : Prop :=
  let (l, led) := s in
  match o with
  | TInit t => rs = match lk_find t l with Some _ => [RRem t; RInit t] | None => [RInit t] end
  | TStart t n p => rs = if existsb (N.eqb t) led then [RStart t n p] else []
  | TStop t =>
    if existsb (N.eqb t) led then
      match lk_find t l with
      | Some x => rs = [RStop t (lk_left x) (lk_per x); RRem t]
      | None => exists p, rs = [RStop t 0 p]
      end
    else rs = []
  | TTick =>
    rs = flat_map (fun x => if lk_left x =? 1
                            then RTout (lk_id x) :: (if lk_per x =? 0 then [RRem (lk_id x)] else []) ++ [RPost (lk_id x)]
                            else []) l
  end.
Fixpoint trace_ok (s : list lk_timer * list N) (ops : list tmop) (rss : list (list trec)) : Prop :=
  match ops, rss with
  | [], [] => True
  | o :: ops, rs :: rss => recs_ok s o rs /\ trace_ok (fst (lk_step s o)) ops rss
  | _, _ => False
  end.

(** What somebody who sees the records only knows: the timers running. *)
Definition seen_run (l : list N) (r : trec) : list N :=
  match r with
  | RStart t _ _ => if existsb (N.eqb t) l then l else t :: l
  | RRem t => filter (fun y => negb (y =? t)) l
  | _ => l
  end.
Definition replay (rs : list trec) : list N := fold_left seen_run rs [].
(** Only running timers expire or are removed. *)
Fixpoint sound (l : list N) (rs : list trec) : Prop :=
  match rs with
  | [] => True
  | r :: rs => (match r with RTout t | RRem t => In t l | _ => True end) /\ sound (seen_run l r) rs
  end.
Definition posts_of (rs : list trec) : list N := flat_map (fun r => match r with RPost t => [t] | _ => [] end) rs.
