(** The single-thread host ports: all interleavings, at the granularity of
    critical sections, of the thread in [rkh_fwk_enter] with any number of other
    threads (timer thread, input threads), all calling the services of the
    framework. *)
From Verif Require Import Base M_RdyGrp M_Queue M_MemPool S_MemPool M_Kernel S_Kernel M_Threads S_Threads M_St.
Local Open Scope N_scope.

(** A thread: whether it is the one in rkh_fwk_enter, whether that one waits in
    rkhport_wait_for_events, its calls (the running one first). *)
Record sthread := mkSH { sh_main : bool; sh_wait : bool; sh_stk : list tframe }.
Record sconf := mkSC {
  u_s : kst;
  u_sem : N;
  u_run : bool;              (* [running] *)
  u_end : bool;              (* rkh_fwk_enter returned: mutex and semaphore destroyed *)
  u_led : list litem;        (* held by the application, whichever thread *)
  u_thr : list sthread;
  u_log : list entry }.
Definition sh_led (t : sthread) : list litem := stk_led (sh_stk t).
Definition sled_all (x : sconf) : list litem := concat (map sh_led (u_thr x)) ++ u_led x.

(** [SIntr]: sem_wait interrupted by a signal (its result is ignored). *)
Inductive sact := SGo | SCall (op : kop) | SWake | SIntr.
(** [SNew]: another thread; [SEnter]: rkh_fwk_enter is called; [SStop]: some
    thread calls rkhport_fwk_stop; [SAct i a]: the [i]th thread goes on. *)
Inductive schoice := SNew | SEnter | SStop | SAct (i : nat) (a : sact).

Definition s_activating (x : sconf) : bool :=
  existsb (fun t => existsb in_activation (sh_stk t)) (u_thr x).

Section Drive.
Context (c : kcfg) (pt : stport) (statics : list (N * N)).

(** As for threads ([S_Threads.thread_rules]): deferred events are recalled only
    by the thread that dispatches; objects are activated one at a time and not
    terminated; a dynamic event may be passed on only by somebody who allocated it,
    holds a reference or is dispatching it. *)
Definition st_rules (x : sconf) (main : bool) (lower mine : list litem) (op : kop) : bool :=
  match op with
  | ORecall _ _ => main
  | OActivate _ _ _ => negb (s_activating x)
  | OTerm _ => false
  | _ => true
  end &&
  forallb (fun y => match y with LLive e => has lower (LRef e) | _ => true end) mine.

Definition put_thr (x : sconf) (i : nat) (t : sthread) : list sthread := upd (u_thr x) i t.

(** One step; [strict]: with the rules.  A call that returns in the thread of
    rkh_fwk_enter with no call below it: the turn found nothing and the idle hook
    waits (1), the start hook is over (2), or the loop goes round (0): tests
    [running] and takes another turn, or ends, destroying semaphore and mutex.
    (rkh_hook_exit, just before, is not modelled.)  Entering a section after that
    is undefined. *)
Definition sstep (strict : bool) (x : sconf) (ch : schoice) : res sconf :=
  match ch with
  | SNew => Ok (mkSC (u_s x) (u_sem x) (u_run x) (u_end x) (u_led x)
                  (u_thr x ++ [mkSH false false [mkTF false [] (User UMain (Ret 0))]]) (u_log x))
  | SEnter =>
      if existsb sh_main (u_thr x) then Ok x
      else Ok (mkSC (u_s x) (u_sem x) (run_at_enter pt (u_run x)) (u_end x) (u_led x)
                 (u_thr x ++ [mkSH true false [mkTF false [] st_start]]) (u_log x))
  | SStop => Ok (mkSC (u_s x) (u_sem x) false (u_end x) (u_led x) (u_thr x) (u_log x))
  | SAct i a =>
    match nth_error (u_thr x) i with
    | None => Ok x
    | Some t =>
      match a, sh_wait t, sh_stk t with
      | SWake, true, _ =>
          match sem_down (u_sem x) with
          | None => Ok x
          | Some n => Ok (mkSC (u_s x) n (u_run x) (u_end x) (u_led x)
                            (put_thr x i (mkSH (sh_main t) false (sh_stk t))) (u_log x))
          end
      | SIntr, true, _ =>
          Ok (mkSC (u_s x) (u_sem x) (u_run x) (u_end x) (u_led x)
                (put_thr x i (mkSH (sh_main t) false (sh_stk t))) (u_log x))
      | SCall op, false, top :: below =>
          match tf_p top with
          | User _ _ =>
            match grab c statics (u_s x) (u_led x) (sh_led t) false op with
            | Some (mine, l') =>
              if negb strict || st_rules x (sh_main t) (sh_led t) mine op
              then Ok (mkSC (u_s x) (u_sem x) (u_run x) (u_end x) l'
                         (put_thr x i (mkSH (sh_main t) false
                            (mkTF (activates op) (filter is_right mine) (api c op) :: top :: below))) (u_log x))
              else Ok x
            | None => Ok x
            end
          | _ => Ok x
          end
      | SGo, false, top :: below =>
          match tf_p top with
          | User _ k =>
              Ok (mkSC (u_s x) (u_sem x) (u_run x) (u_end x) (u_led x)
                    (put_thr x i (mkSH (sh_main t) false (mkTF false (tf_led top) k :: below)))
                    (u_log x ++ user_of k))
          | Ret v =>
              let l := filter (fun y => negb (match y with LRef e => is_static statics e | _ => false end))
                         (tf_led top) ++ u_led x in
              match below, sh_main t with
              | [], true =>
                  if v =? 1 then
                    Ok (mkSC (u_s x) (u_sem x) (u_run x) (u_end x) l
                          (put_thr x i (mkSH true true [mkTF false [] (Ret 0)])) (u_log x))
                  else
                    let run := if v =? 2 then run_after_hook pt (u_run x) else u_run x in
                    Ok (mkSC (u_s x) (u_sem x) run (u_end x || negb run) l
                          (put_thr x i (mkSH true false (if run then [mkTF false [] (st_turn c)] else []))) (u_log x))
              | _, _ => Ok (mkSC (u_s x) (u_sem x) (u_run x) (u_end x) l
                              (put_thr x i (mkSH (sh_main t) false below)) (u_log x))
              end
          | Atom f =>
              if u_end x then Fault (FUB UB_dangling) else
              match f (u_s x) with
              | Fault e => Fault e
              | Ok (s', labs, p') =>
                  let led' := filter is_right (fold_left led_step labs (tf_led top)) in
                  let x' := mkSC s' (fold_left (sem_up pt) labs (u_sem x)) (u_run x) (u_end x) (u_led x)
                              (put_thr x i (mkSH (sh_main t) false (mkTF (tf_act top) led' p' :: below)))
                              (u_log x ++ map EL labs ++ user_of p') in
                  if over statics s' (sled_all x') then Ok x else Ok x'
              end
          end
      | _, _, _ => Ok x
      end
    end
  end.

Fixpoint srun (strict : bool) (x : sconf) (chs : list schoice) : res sconf :=
  match chs with [] => Ok x | ch :: t => do x' <- sstep strict x ch; srun strict x' t end.

(** rkh_fwk_init done and event pools registered, no thread yet. *)
Definition sconf0 (s : kst) : sconf := mkSC s 0 false false [] [] [].
End Drive.

(** A state of an execution that starts at reset and keeps the rules. *)
Definition s_reachable (c : kcfg) (pt : stport) (mem0 : @mem cell) (statics : list (N * N)) (prios : list N)
    (dqs : list (list (option N) * nat)) (pools : list (N * N * N)) (x : sconf) : Prop :=
  exists s chs, start c mem0 prios dqs pools = Ok s /\ srun c pt statics true (sconf0 s) chs = Ok x.

(** The thread of rkh_fwk_enter sleeps, or found nothing ready and is in the idle
    hook or about to sleep. *)
Definition st_idle (x : sconf) : Prop :=
  exists t, In t (u_thr x) /\ sh_main t = true /\
    (sh_wait t = true \/
     exists up f, sh_stk t = up ++ [f] /\ (tf_p f = Ret 1 \/ tf_p f = User UIdle (Ret 1))).
(** All dispatches in progress, in all threads. *)
Definition st_dispatching (x : sconf) : list (nat * N) :=
  concat (map (fun t => concat (map (fun f =>
    match tf_p f with User (UDispatch o e) _ => [(o, e)] | _ => [] end) (sh_stk t))) (u_thr x)).
(** The [i]th thread is the one of rkh_fwk_enter and starts a turn; or is asleep
    with nothing else to do than to start one. *)
Definition at_top (c : kcfg) (x : sconf) (i : nat) : Prop :=
  nth_error (u_thr x) i = Some (mkSH true false [mkTF false [] (st_turn c)]).
Definition asleep (x : sconf) (i : nat) : Prop :=
  nth_error (u_thr x) i = Some (mkSH true true [mkTF false [] (Ret 0)]).
(** The priority of an object; the events of a list of dispatches that went to
    one object. *)
Definition prio_of (s : kst) (o : nat) : N := nth o (map ao_prio (k_ao s)) 0.
Definition for_obj (o : nat) (l : list (nat * N)) : list N := map snd (filter (fun y => Nat.eqb (fst y) o) l).
(** In the start hook, or between it and the first test of [running]. *)
Definition booting (t : sthread) : Prop :=
  exists up f, sh_stk t = up ++ [f] /\ (tf_p f = st_start \/ tf_p f = Ret 2).
