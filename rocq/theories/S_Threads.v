(** Threads: all interleavings, at the granularity of critical sections, of the
    threads of the active objects and any number of other threads (main, timers,
    interrupt handlers), each calling the services of the framework. *)
From Verif Require Import Base M_RdyGrp M_Queue M_MemPool S_MemPool M_Kernel S_Kernel M_Threads.
Local Open Scope N_scope.

(** A call in progress: whether it activates an object, what it holds, what is
    left to do.  A thread: its active object, whether it waits for the event of
    that object, its calls (the running one first). *)
Record tframe := mkTF { tf_act : bool; tf_led : list litem; tf_p : prog }.
Record thread := mkTh { th_own : option nat; th_wait : bool; th_stk : list tframe }.
Record tconf := mkTC {
  t_s : kst;
  t_sig : nat -> bool;       (* the event object of each active object *)
  t_led : list litem;        (* held by the application, whichever thread *)
  t_thr : list thread;
  t_log : list entry }.
Definition stk_led (l : list tframe) : list litem := concat (map tf_led l).
Definition thr_led (t : thread) : list litem := stk_led (th_stk t).
Definition tled_all (x : tconf) : list litem := concat (map thr_led (t_thr x)) ++ t_led x.

Inductive tact := TGo | TCall (op : kop) | TWake.
(** [TNew]: another thread that belongs to no active object; [TStart o]: the
    thread of [o]; [TAct i a]: the [i]th thread goes on. *)
Inductive tchoice := TNew | TStart (o : nat) | TAct (i : nat) (a : tact).

Definition activates (op : kop) : bool := match op with OActivate _ _ _ => true | _ => false end.
(** An activation that has not come to the initial transition. *)
Definition in_activation (f : tframe) : bool :=
  tf_act f && match tf_p f with Atom _ => true | _ => false end.
Definition activating (x : tconf) : bool :=
  existsb (fun t => existsb in_activation (th_stk t)) (t_thr x).

Section Drive.
Context (c : kcfg) (statics : list (N * N)).

(** What threads need beyond the rules of [S_Kernel]: deferred events are
    recalled only by the thread of the object they are for; objects are activated
    one at a time and not terminated (C74); and a dynamic event may be passed on only by somebody who
    allocated it, holds a reference or is dispatching it - that it waits in some
    queue is no longer enough. *)
Definition thread_rules (x : tconf) (own : option nat) (lower mine : list litem) (op : kop) : bool :=
  match op with
  | ORecall o _ => match own with Some o' => Nat.eqb o o' | None => false end
  | OActivate _ _ _ => negb (activating x)
  | OTerm _ => false
  | _ => true
  end &&
  forallb (fun y => match y with LLive e => has lower (LRef e) | _ => true end) mine.

Definition set_thr (x : tconf) (i : nat) (t : thread) : list thread := upd (t_thr x) i t.

(** One step; [strict]: with the rules for threads.  As in [S_Kernel], what a
    call still holds when it returns belongs to the application, and a step to
    more than 255 references is not taken.  The thread of an active object takes
    turn after turn and waits when its turn found nothing. *)
Definition tstep (strict : bool) (x : tconf) (ch : tchoice) : res tconf :=
  match ch with
  | TNew => Ok (mkTC (t_s x) (t_sig x) (t_led x)
                  (t_thr x ++ [mkTh None false [mkTF false [] (User UMain (Ret 0))]]) (t_log x))
  | TStart o =>
      if registered (t_s x) o &&
         forallb (fun t => match th_own t with Some o' => negb (Nat.eqb o o') | None => true end) (t_thr x)
      then Ok (mkTC (t_s x) (t_sig x) (t_led x)
                 (t_thr x ++ [mkTh (Some o) false [mkTF false [] (mt_turn c o)]]) (t_log x))
      else Ok x
  | TAct i a =>
    match nth_error (t_thr x) i with
    | None => Ok x
    | Some t =>
      match a, th_wait t, th_stk t with
      | TWake, true, _ =>
          match th_own t with
          | None => Ok x
          | Some o =>
            match wait_event (t_sig x) o with
            | None => Ok x
            | Some sig => Ok (mkTC (t_s x) sig (t_led x) (set_thr x i (mkTh (th_own t) false (th_stk t))) (t_log x))
            end
          end
      | TCall op, false, top :: below =>
          match tf_p top with
          | User _ _ =>
            match grab c statics (t_s x) (t_led x) (thr_led t) false op with
            | Some (mine, l') =>
              if negb strict || thread_rules x (th_own t) (thr_led t) mine op
              then Ok (mkTC (t_s x) (t_sig x) l'
                         (set_thr x i (mkTh (th_own t) false
                            (mkTF (activates op) (filter is_right mine) (api c op) :: top :: below))) (t_log x))
              else Ok x
            | None => Ok x
            end
          | _ => Ok x
          end
      | TGo, false, top :: below =>
          match tf_p top with
          | User _ k =>
              Ok (mkTC (t_s x) (t_sig x) (t_led x)
                    (set_thr x i (mkTh (th_own t) false (mkTF false (tf_led top) k :: below)))
                    (t_log x ++ user_of k))
          | Ret v =>
              let l := filter (fun y => negb (match y with LRef e => is_static statics e | _ => false end))
                         (tf_led top) ++ t_led x in
              let t' := match below, th_own t with
                        | [], None => mkTh None false []
                        | [], Some o => mkTh (Some o) (negb (v =? 0)) [mkTF false [] (mt_turn c o)]
                        | _, own => mkTh own false below
                        end in
              Ok (mkTC (t_s x) (t_sig x) l (set_thr x i t') (t_log x))
          | Atom f =>
              match f (t_s x) with
              | Fault e => Fault e
              | Ok (s', labs, p') =>
                  let led' := filter is_right (fold_left led_step labs (tf_led top)) in
                  let x' := mkTC s' (fold_left set_event labs (t_sig x)) (t_led x)
                              (set_thr x i (mkTh (th_own t) false (mkTF (tf_act top) led' p' :: below)))
                              (t_log x ++ map EL labs ++ user_of p') in
                  if over statics s' (tled_all x') then Ok x else Ok x'
              end
          end
      | _, _, _ => Ok x
      end
    end
  end.

Fixpoint trun (strict : bool) (x : tconf) (chs : list tchoice) : res tconf :=
  match chs with [] => Ok x | ch :: t => do x' <- tstep strict x ch; trun strict x' t end.

(** Event pools registered, nothing signalled, no thread yet. *)
Definition tconf0 (s : kst) : tconf := mkTC s (fun _ => false) [] [] [].
End Drive.

(** A state of an execution by threads that starts at reset and keeps the rules. *)
Definition t_reachable (c : kcfg) (mem0 : @mem cell) (statics : list (N * N)) (prios : list N)
    (dqs : list (list (option N) * nat)) (pools : list (N * N * N)) (x : tconf) : Prop :=
  exists s chs, start c mem0 prios dqs pools = Ok s /\ trun c statics true (tconf0 s) chs = Ok x.

(** The thread of [o] sleeps, or found its queue empty and is about to. *)
Definition going_to_wait (x : tconf) (o : nat) : Prop :=
  exists t, In t (t_thr x) /\ th_own t = Some o /\
    (th_wait t = true \/ exists f v, th_stk t = [f] /\ tf_p f = Ret v /\ v <> 0).

(** The dispatches to [o] in progress, in all threads. *)
Definition dispatching (x : tconf) (o : nat) : list N :=
  concat (map (fun t => concat (map (fun f =>
    match tf_p f with User (UDispatch o' e) _ => if Nat.eqb o o' then [e] else [] | _ => [] end) (th_stk t))) (t_thr x)).
(** The thread of [o] is at the start of a turn, asleep or not. *)
Definition at_turn (c : kcfg) (x : tconf) (i o : nat) : Prop :=
  exists w, nth_error (t_thr x) i = Some (mkTh (Some o) w [mkTF false [] (mt_turn c o)]).
