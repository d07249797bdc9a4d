(** C66 and C67: one thread for each active object.

    The executions are all interleavings, at the granularity of critical
    sections, of the threads of the active objects with any number of other
    threads, all of them calling any of the modelled services any number of
    times ([S_Threads]). *)
From Verif Require Import Base L_Base M_RdyGrp M_Queue M_MemPool S_MemPool M_Kernel S_Kernel P_KExample
  L_KRun L_KProps M_Threads S_Threads L_Threads L_TRun L_TProps.
From Coq Require Import Permutation.
Local Open Scope N_scope.

(** *** An example *)
Definition T_conf (strict : bool) (chs : list tchoice) : res tconf := trun K_cfg K_statics strict (tconf0 K_s0) chs.
Definition T_at (chs : list tchoice) : tconf := ok_or (tconf0 K_s0) (T_conf true chs).
Definition T_ran (chs : list tchoice) : bool := is_ok (T_conf true chs).
Notation T_reach := (t_reachable K_cfg K_mem0 K_statics K_prios K_dqs K_pools).
Lemma T_reachable chs : T_ran chs = true -> T_reach (T_at chs).
Proof.
  intros H. exists K_s0, chs. split.
  - unfold K_s0. destruct (start K_cfg K_mem0 K_prios K_dqs K_pools) eqn:E; [reflexivity|]. vm_compute in E. discriminate.
  - unfold T_at, T_ran, T_conf in *. destruct (trun _ _ _ _ _); [reflexivity|discriminate].
Qed.
Definition tg (i n : nat) : list tchoice := repeat (TAct i TGo) n.
Definition tc (i : nat) (op : kop) (n : nat) : list tchoice := TAct i (TCall op) :: tg i n.
(** Thread 0 is main; it activates the objects, whose threads (1, 2 and 3, of
    objects 0, 1 and 2) start before it goes on; thread 3 falls asleep. *)
Definition T_boot : list tchoice :=
  [TNew] ++ tc 0 (OActivate 0 [None; None; None; None] 4) 5 ++ [TStart 0] ++
  tc 0 (OActivate 1 [None; None] 2) 5 ++ [TStart 1] ++ tc 0 (OActivate 2 [None; None; None] 3) 5 ++ [TStart 2] ++ tg 3 2.
(** main allocates an event, subscribes objects 0 and 2 to channel 0 and
    publishes the event; the thread of object 0 gets it while main has not yet
    given up its own reference. *)
Definition T_pub : list tchoice :=
  T_boot ++ tc 0 (OAe 10 5) 4 ++ tc 0 (OSub 0 0) 2 ++ tc 0 (OSub 0 2) 2 ++ tc 0 (OPublish 0 1000 None) 1 ++ tg 1 1.
(** Its handler posts the event on to object 1, reserves it and defers it, while
    the thread of object 1 looks into its queue, finds it empty and is about to
    wait; main finishes its call. *)
Definition T_busy : list tchoice :=
  T_pub ++ tg 2 1 ++ [TAct 1 (TCall (OPost false 1 1000))] ++ tg 0 3 ++ tg 1 2 ++ tc 1 (OReserve 1000) 2 ++
  tc 1 (ODefer 0 1000) 2.

(** *** C66 *)
(** Whatever the threads do within the rules, in whatever order, nothing but a
    resource that ran out stops the program. *)
Theorem C66_threads_safe : forall c mem0 statics prios dqs pools rs,
  sys_ok c mem0 statics prios dqs pools rs ->
  exists s, start c mem0 prios dqs pools = Ok s /\
  forall chs, (exists x, trun c statics true (tconf0 s) chs = Ok x) \/
              (exists f, trun c statics true (tconf0 s) chs = Fault f /\ resource_fault f).
Proof. exact t_every_interleaving. Qed.
Print Assumptions C66_threads_safe.

(** The counter of a dynamic event is the number of its holders, in the queues
    and in the calls of all threads together; one just allocated has counter
    zero and one owner. *)
Theorem C66_threads_counter : forall c mem0 statics prios dqs pools rs,
  sys_ok c mem0 statics prios dqs pools rs ->
  forall x, t_reachable c mem0 statics prios dqs pools x -> let s := t_s x in let l := tled_all x in
  (forall i e, block_of pools rs i e -> (0 < holders s l e)%nat ->
     (holders s l e <= 255)%nat /\
     exists sig, k_mem s e = Some (CEvt sig (N.of_nat (holders s l e)) (N.of_nat i + 1))) /\
  (forall e, In (LFresh e) l -> holders s l e = 0%nat /\ cnt l (LFresh e) = 1%nat /\
     exists i sig, block_of pools rs i e /\ k_mem s e = Some (CEvt sig 0 (N.of_nat i + 1))).
Proof.
  intros c mem0 statics prios dqs pools rs SO x H.
  exact (refcount_inv c mem0 statics prios dqs pools rs SO (flat x) (flat_inv _ _ _ _ _ _ _ x (t_reach_inv _ _ _ _ _ _ _ SO x H))).
Qed.
Print Assumptions C66_threads_counter.

(** No event that is queued, dispatched or held by any thread is in a free list,
    and the free list of each pool consists exactly of the blocks nobody uses. *)
Theorem C66_threads_memory : forall c mem0 statics prios dqs pools rs,
  sys_ok c mem0 statics prios dqs pools rs ->
  forall x, t_reachable c mem0 statics prios dqs pools x -> let s := t_s x in let l := tled_all x in
  (forall e, live_evt statics s l e ->
     (exists sig nref pool, k_mem s e = Some (CEvt sig nref pool)) /\
     forall j, (j < length pools)%nat -> ~ free_block s j e) /\
  (forall i a, In (LRaw i a) l \/ In (LDead i a) l ->
     block_of pools rs i a /\ ~ live_evt statics s l a /\
     forall j, (j < length pools)%nat -> ~ free_block s j a) /\
  (forall i p r, nth_error pools i = Some p -> nth_error rs i = Some r ->
     exists q, nth_error (k_ep s) i = Some q /\ mp_bsize q = r /\
       mp_nblocks q = N.of_nat (length (pool_blocks p r)) /\
       mp_nfree q = N.of_nat (length (filter (unused s l i) (pool_blocks p r))) /\
       forall a, on_free_list (k_mem s) (mp_free q) a <-> In a (pool_blocks p r) /\ unused s l i a = true) /\
  (forall e sig, In (e, sig) statics -> k_mem s e = Some (CEvt sig 0 0)).
Proof.
  intros c mem0 statics prios dqs pools rs SO x H s l.
  pose proof (flat_inv _ _ _ _ _ _ _ x (t_reach_inv _ _ _ _ _ _ _ SO x H)) as HC.
  destruct (no_use_after_free_inv c mem0 statics prios dqs pools rs SO (flat x) HC) as [A B].
  split; [exact A|]. split; [exact B|]. split.
  - intros i p r. exact (no_leak_inv c mem0 statics prios dqs pools rs (flat x) i p r HC).
  - intros e sig He. exact (proj1 (statics_intact_inv c mem0 statics prios dqs pools rs SO (flat x) e sig HC He)).
Qed.
Print Assumptions C66_threads_memory.

(** The queue of an object is what its log says: each event accepted is
    dispatched at most once, in the order of the queue, and what was accepted and
    not dispatched is queued; with FIFO posts only, dispatches come in the order
    of acceptance. *)
Theorem C66_threads_order : forall c mem0 statics prios dqs pools rs,
  sys_ok c mem0 statics prios dqs pools rs ->
  forall x o, t_reachable c mem0 statics prios dqs pools x ->
  log_queue o (t_log x) = Some (ao_view (t_s x) o) /\
  Permutation (accepted o (t_log x)) (dispatched o (t_log x) ++ ao_view (t_s x) o) /\
  (no_lifo o (t_log x) -> accepted o (t_log x) = dispatched o (t_log x) ++ ao_view (t_s x) o).
Proof.
  intros c mem0 statics prios dqs pools rs SO x o H.
  pose proof (ti_log _ _ _ _ _ _ _ _ (t_reach_inv _ _ _ _ _ _ _ SO x H) o) as HL.
  split; [exact HL|]. split; [now apply log_perm|]. intros Hn. now apply log_fifo.
Qed.
Print Assumptions C66_threads_order.

(** Run to completion for each object: at no time are two dispatches to the same
    object in progress, in all threads together; dispatches to different objects
    do overlap ([C66_ex]). *)
Theorem C66_threads_run_to_completion : forall c mem0 statics prios dqs pools x o,
  t_reachable c mem0 statics prios dqs pools x -> (length (dispatching x o) <= 1)%nat.
Proof. exact t_dispatching. Qed.
Print Assumptions C66_threads_run_to_completion.

(** The thread of object 1 goes to sleep, is woken by the event posted in the
    meantime and dispatches it, in parallel with the dispatch to object 0. *)
Definition T_par : list tchoice := T_busy ++ tg 2 1 ++ [TAct 2 TWake] ++ tg 2 1.
Example C66_ex : sys_ok K_cfg K_mem0 K_statics K_prios K_dqs K_pools K_rs /\ T_ran T_par = true /\ T_reach (T_at T_par) /\
  let x := T_at T_par in
  map (dispatching x) [0; 1; 2]%nat = [[1000]; [1000]; []] /\
  tled_all x = [LRef 1000; LRef 1000; LRef 1000] /\ all_queued (t_s x) = [1000; 1000] /\
  holders (t_s x) (tled_all x) 1000 = 5%nat /\ k_mem (t_s x) 1000 = Some (CEvt 5 5 1) /\
  map (fun o => accepted o (t_log x)) [0; 1; 2]%nat = [[1000]; [1000]; [1000]] /\
  map (fun o => dispatched o (t_log x)) [0; 1; 2]%nat = [[1000]; [1000]; []].
Proof.
  split; [exact K_ok|]. split; [vm_compute; reflexivity|]. split; [apply T_reachable; vm_compute; reflexivity|].
  repeat split; vm_compute; reflexivity.
Qed.

(** Without the rules for threads it is not safe, although the rules of the
    cooperative kernel are kept.  Deferred events recalled by another thread:
    between the post and the check of the counter the thread of the object
    dispatches and releases the event, and the assertion of rkh_sma_recall
    fails. *)
Definition T_defer : list tchoice := T_boot ++ tc 0 (OAe 10 5) 4 ++ tc 0 (ODefer 0 1000) 2.
Theorem C66_recall_by_another_thread_refuted :
  sys_ok K_cfg K_mem0 K_statics K_prios K_dqs K_pools K_rs /\ T_reach (T_at T_defer) /\
  trun K_cfg K_statics false (T_at T_defer) (tc 0 (ORecall 0 0) 2 ++ tg 1 4 ++ tg 0 1) = Fault (FAssert 273) /\
  ~ resource_fault (FAssert 273).
Proof.
  split; [exact K_ok|]. split; [apply T_reachable; vm_compute; reflexivity|]. split; [vm_compute; reflexivity|].
  intros [H|[H|[H|[H|[H|[]]]]]]; discriminate H.
Qed.
Print Assumptions C66_recall_by_another_thread_refuted.
(** A dynamic event posted a second time by somebody who no longer holds it,
    because it still waits in a queue: by the time of the post it was dispatched
    and freed. *)
Definition T_posted : list tchoice := T_boot ++ tc 0 (OAe 10 5) 4 ++ tc 0 (OPost false 0 1000) 2.
Theorem C66_post_of_a_queued_event_refuted :
  sys_ok K_cfg K_mem0 K_statics K_prios K_dqs K_pools K_rs /\ T_reach (T_at T_posted) /\
  In 1000 (ao_view (t_s (T_at T_posted)) 0) /\
  trun K_cfg K_statics false (T_at T_posted) (tc 0 (OPost false 2 1000) 0 ++ tg 1 6 ++ tg 0 1) = Fault (FUB UB_dangling).
Proof.
  split; [exact K_ok|]. split; [apply T_reachable; vm_compute; reflexivity|]. split; [vm_compute; auto|].
  vm_compute; reflexivity.
Qed.
Print Assumptions C66_post_of_a_queued_event_refuted.

(** *** C67 *)
(** No wake-up is lost: when the thread of an object sleeps, or has found its
    queue empty and is about to sleep, and there is an event in the queue, then
    the event object it waits for is signalled. *)
Theorem C67_no_lost_wakeup : forall c mem0 statics prios dqs pools rs,
  sys_ok c mem0 statics prios dqs pools rs ->
  forall x o, t_reachable c mem0 statics prios dqs pools x ->
  going_to_wait x o -> ao_view (t_s x) o <> [] -> t_sig x o = true.
Proof.
  intros c mem0 statics prios dqs pools rs SO x o H.
  exact (no_lost_wakeup c mem0 statics prios dqs pools rs x o (t_reach_inv _ _ _ _ _ _ _ SO x H)).
Qed.
Print Assumptions C67_no_lost_wakeup.
(** In [T_busy] the thread of object 1 has found its queue empty, then the event
    came, and the thread has not gone to sleep yet; then it has. *)
Example C67_no_lost_wakeup_ex :
  T_reach (T_at T_busy) /\ going_to_wait (T_at T_busy) 1 /\ ao_view (t_s (T_at T_busy)) 1 = [1000] /\
  T_reach (T_at (T_busy ++ tg 2 1)) /\ map th_wait (t_thr (T_at (T_busy ++ tg 2 1))) = [false; false; true; true] /\
  ao_view (t_s (T_at (T_busy ++ tg 2 1))) 1 = [1000] /\ t_sig (T_at (T_busy ++ tg 2 1)) 1%nat = true.
Proof.
  split; [apply T_reachable; vm_compute; reflexivity|]. split.
  { exists (mkTh (Some 1%nat) false [mkTF false [] (Ret 1)]). split; [vm_compute; auto|]. split; [reflexivity|]. right.
    exists (mkTF false [] (Ret 1)), 1. split; [reflexivity|]. split; [reflexivity|discriminate]. }
  split; [vm_compute; reflexivity|]. split; [apply T_reachable; vm_compute; reflexivity|]. repeat split; vm_compute; reflexivity.
Qed.

(** From any reachable state, whatever the other threads are in the middle of, a
    thread whose turn starts, asleep or not, with events in its queue, can go on
    alone - no other thread has to do anything - until all of them are
    dispatched, in their order; nothing else is dispatched and the other queues
    are untouched. *)
Theorem C67_thread_drains_its_queue : forall c mem0 statics prios dqs pools rs,
  sys_ok c mem0 statics prios dqs pools rs ->
  forall x i o, t_reachable c mem0 statics prios dqs pools x -> at_turn c x i o -> ao_view (t_s x) o <> [] ->
  exists chs x', (forall ch, In ch chs -> ch = TAct i TGo \/ ch = TAct i TWake) /\
    trun c statics true x chs = Ok x' /\
    (forall o', ao_view (t_s x') o' = if Nat.eqb o' o then [] else ao_view (t_s x) o') /\
    dispatches (t_log x') = dispatches (t_log x) ++ map (pair o) (ao_view (t_s x) o).
Proof.
  intros c mem0 statics prios dqs pools rs SO x i o H.
  exact (thread_drains c mem0 statics prios dqs pools rs SO x i o (t_reach_inv _ _ _ _ _ _ _ SO x H)).
Qed.
Print Assumptions C67_thread_drains_its_queue.
(** The thread of object 2 sleeps; two events are queued for it and the other
    two objects are in the middle of a dispatch. *)
Definition T_two : list tchoice := T_par ++ tc 2 (OPost false 2 60) 2.
Example C67_drains_ex :
  T_reach (T_at T_two) /\ at_turn K_cfg (T_at T_two) 3 2 /\ ao_view (t_s (T_at T_two)) 2 = [1000; 60] /\
  map (dispatching (T_at T_two)) [0; 1; 2]%nat = [[1000]; [1000]; []] /\
  let x := T_at (T_two ++ TAct 3 TWake :: tg 3 11) in
  dispatches (skipn (length (t_log (T_at T_two))) (t_log x)) = [(2%nat, 1000); (2%nat, 60)] /\
  map (ao_view (t_s x)) [0; 1; 2]%nat = [[]; []; []].
Proof.
  split; [apply T_reachable; vm_compute; reflexivity|]. split; [exists true; vm_compute; reflexivity|].
  repeat split; vm_compute; reflexivity.
Qed.

(** When everything sleeps, nothing is left to do: with every thread of an
    active object asleep and none signalled, every queue that has a thread is
    empty. *)
Theorem C67_all_asleep : forall c mem0 statics prios dqs pools rs,
  sys_ok c mem0 statics prios dqs pools rs ->
  forall x, t_reachable c mem0 statics prios dqs pools x ->
  (forall t o, In t (t_thr x) -> th_own t = Some o -> th_wait t = true /\ t_sig x o = false) ->
  forall t o, In t (t_thr x) -> th_own t = Some o ->
  ao_view (t_s x) o = [] /\ Permutation (accepted o (t_log x)) (dispatched o (t_log x)).
Proof.
  intros c mem0 statics prios dqs pools rs SO x H Hall t o Ht Eo.
  destruct (Hall t o Ht Eo) as [Hw Hs].
  assert (Hv : ao_view (t_s x) o = []).
  { destruct (ao_view (t_s x) o) eqn:E; [reflexivity|]. exfalso.
    assert (t_sig x o = true); [|congruence].
    apply (C67_no_lost_wakeup c mem0 statics prios dqs pools rs SO x o H); [|congruence]. exists t. auto. }
  split; [exact Hv|].
  pose proof (C66_threads_order c mem0 statics prios dqs pools rs SO x o H) as (_ & HP & _).
  now rewrite Hv, app_nil_r in HP.
Qed.
Print Assumptions C67_all_asleep.
Definition T_quiet : list tchoice :=
  T_two ++ TAct 3 TWake :: tg 3 11 ++ tg 2 6 ++ tg 1 6 ++ [TAct 1 TWake; TAct 3 TWake] ++ tg 1 2 ++ tg 3 2.
Example C67_all_asleep_ex : T_reach (T_at T_quiet) /\ let x := T_at T_quiet in
  map (fun t => (th_own t, th_wait t)) (t_thr x) =
    [(None, false); (Some 0%nat, true); (Some 1%nat, true); (Some 2%nat, true)] /\
  map (t_sig x) [0; 1; 2]%nat = [false; false; false] /\
  map (fun o => dispatched o (t_log x)) [0; 1; 2]%nat = [[1000]; [1000]; [1000; 60]].
Proof. split; [apply T_reachable; vm_compute; reflexivity|]. repeat split; vm_compute; reflexivity. Qed.
