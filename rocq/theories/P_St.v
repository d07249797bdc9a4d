(** C71: the host ports with one thread for all active objects (linux_st and
    win32_st).

    The executions are all interleavings, at the granularity of critical
    sections, of the thread in rkh_fwk_enter with any number of other threads
    (main before it enters, timer, input), all of them calling any of the
    modelled services any number of times ([S_St]).  The theorems hold for both
    ports and for any other largest value of the semaphore. *)
From Verif Require Import Base L_Base M_RdyGrp M_Queue M_MemPool S_MemPool M_Kernel S_Kernel P_KExample
  L_KRun L_KProps M_Threads S_Threads L_Threads M_St S_St L_StRun L_StProps.
From Coq Require Import Permutation Sorted.
Local Open Scope N_scope.

(** *** An example *)
Definition U_conf (pt : stport) (strict : bool) (chs : list schoice) : res sconf := srun K_cfg pt K_statics strict (sconf0 K_s0) chs.
Definition U_at (pt : stport) (chs : list schoice) : sconf := ok_or (sconf0 K_s0) (U_conf pt true chs).
Definition U_ran (pt : stport) (chs : list schoice) : bool := is_ok (U_conf pt true chs).
Notation U_reach pt := (s_reachable K_cfg pt K_mem0 K_statics K_prios K_dqs K_pools).
Lemma U_reachable pt chs : U_ran pt chs = true -> U_reach pt (U_at pt chs).
Proof.
  intros H. exists K_s0, chs. split.
  - unfold K_s0. destruct (start K_cfg K_mem0 K_prios K_dqs K_pools) eqn:E; [reflexivity|]. vm_compute in E. discriminate.
  - unfold U_at, U_ran, U_conf in *. destruct (srun _ _ _ _ _ _); [reflexivity|discriminate].
Qed.
Definition sg (i n : nat) : list schoice := repeat (SAct i SGo) n.
Definition sc (i : nat) (op : kop) (n : nat) : list schoice := SAct i (SCall op) :: sg i n.
(** Thread 0 activates the three objects and another one (1) enters the loop and
    goes to sleep. *)
Definition U_boot_0 : list schoice :=
  [SNew] ++ sc 0 (OActivate 0 [None; None; None; None] 4) 5 ++
  sc 0 (OActivate 1 [None; None] 2) 5 ++ sc 0 (OActivate 2 [None; None; None] 3) 5 ++ [SEnter].
Definition U_boot : list schoice := U_boot_0 ++ sg 1 2.
Definition U_asleep : list schoice := U_boot ++ sg 1 3.
(** The loop finds nothing and is in its idle hook; thread 0 allocates an event
    and posts it to object 0, and a static one to objects 2 and 1. *)
Definition U_late : list schoice :=
  U_boot ++ sg 1 1 ++ sc 0 (OAe 10 5) 4 ++ sc 0 (OPost false 0 1000) 2 ++ sc 0 (OPost false 2 60) 2 ++ sc 0 (OPost false 1 60) 2.
(** The loop sleeps, wakes, and dispatches to object 1, whose handler posts to
    object 0 while thread 0 allocates another event. *)
Definition U_busy : list schoice :=
  U_late ++ sg 1 2 ++ [SAct 1 SWake] ++ sg 1 3 ++ sc 1 (OPost false 0 50) 2 ++ sc 0 (OAe 30 5) 4.

(** *** Safety *)
(** Whatever the threads do within the rules, in whatever order, nothing but a
    resource that ran out stops the program, as long as nobody calls
    rkhport_fwk_stop. *)
Theorem C71_safe : forall c pt mem0 statics prios dqs pools rs,
  sys_ok c mem0 statics prios dqs pools rs -> 1 <= st_vmax pt ->
  exists s, start c mem0 prios dqs pools = Ok s /\
  forall chs, ~ In SStop chs ->
    (exists x, srun c pt statics true (sconf0 s) chs = Ok x) \/
    (exists f, srun c pt statics true (sconf0 s) chs = Fault f /\ resource_fault f).
Proof. intros c pt mem0 statics prios dqs pools rs SO Hpt. exact (s_every_interleaving c pt mem0 statics prios dqs pools rs SO Hpt). Qed.
Print Assumptions C71_safe.
(** With rkhport_fwk_stop one thing more can go wrong: a thread enters a critical
    section after rkh_fwk_enter has returned. *)
Theorem C71_safe_with_stop : forall c pt mem0 statics prios dqs pools rs,
  sys_ok c mem0 statics prios dqs pools rs -> 1 <= st_vmax pt ->
  exists s, start c mem0 prios dqs pools = Ok s /\
  forall chs f, srun c pt statics true (sconf0 s) chs = Fault f ->
    resource_fault f \/
    (f = FUB UB_dangling /\ exists chs1 ch chs2 y, chs = chs1 ++ ch :: chs2 /\
     srun c pt statics true (sconf0 s) chs1 = Ok y /\ u_end y = true /\ sstep c pt statics true y ch = Fault f).
Proof.
  intros c pt mem0 statics prios dqs pools rs SO Hpt.
  destruct (s_system_ok c pt mem0 statics prios dqs pools rs SO Hpt) as (s & E & H). exists s. split; [exact E|].
  intros chs f Ef. destruct (H chs) as [(x & Ex & _)|[(f' & Ef' & Hf)|(chs1 & y & ch & (chs2 & Ec) & E1 & E2 & E3 & E4)]].
  - congruence.
  - left. congruence.
  - right. assert (f = FUB UB_dangling) by congruence. subst f. split; [reflexivity|]. exists chs1, ch, chs2, y. auto.
Qed.
Print Assumptions C71_safe_with_stop.

(** The counter of a dynamic event is the number of its holders, in the queues
    and in the calls of all threads together. *)
Theorem C71_counter : forall c pt mem0 statics prios dqs pools rs,
  sys_ok c mem0 statics prios dqs pools rs -> 1 <= st_vmax pt ->
  forall x, s_reachable c pt mem0 statics prios dqs pools x -> let s := u_s x in let l := sled_all x in
  (forall i e, block_of pools rs i e -> (0 < holders s l e)%nat ->
     (holders s l e <= 255)%nat /\
     exists sig, k_mem s e = Some (CEvt sig (N.of_nat (holders s l e)) (N.of_nat i + 1))) /\
  (forall e, In (LFresh e) l -> holders s l e = 0%nat /\ cnt l (LFresh e) = 1%nat /\
     exists i sig, block_of pools rs i e /\ k_mem s e = Some (CEvt sig 0 (N.of_nat i + 1))).
Proof.
  intros c pt mem0 statics prios dqs pools rs SO Hpt x H.
  exact (refcount_inv c mem0 statics prios dqs pools rs SO (sflat x)
           (sflat_inv _ _ _ _ _ _ _ x (s_reach_inv _ _ _ _ _ _ _ _ SO Hpt x H))).
Qed.
Print Assumptions C71_counter.

(** No event that is queued, dispatched or held by any thread is in a free list,
    and the free list of each pool consists exactly of the blocks nobody uses. *)
Theorem C71_memory : forall c pt mem0 statics prios dqs pools rs,
  sys_ok c mem0 statics prios dqs pools rs -> 1 <= st_vmax pt ->
  forall x, s_reachable c pt mem0 statics prios dqs pools x -> let s := u_s x in let l := sled_all x in
  (forall e, live_evt statics s l e ->
     (exists sig nref pool, k_mem s e = Some (CEvt sig nref pool)) /\
     forall j, (j < length pools)%nat -> ~ free_block s j e) /\
  (forall i a, In (LRaw i a) l \/ In (LDead i a) l ->
     block_of pools rs i a /\ ~ live_evt statics s l a /\
     forall j, (j < length pools)%nat -> ~ free_block s j a) /\
  (forall i p r, nth_error pools i = Some p -> nth_error rs i = Some r ->
     exists q, nth_error (k_ep s) i = Some q /\ mp_bsize q = r /\
       mp_nblocks q = N.of_nat (length (pool_blocks p r)) /\
       mp_nfree q = N.of_nat (length (filter (unused s l i) (pool_blocks p r))) /\
       forall a, on_free_list (k_mem s) (mp_free q) a <-> In a (pool_blocks p r) /\ unused s l i a = true) /\
  (forall e sig, In (e, sig) statics -> k_mem s e = Some (CEvt sig 0 0)).
Proof.
  intros c pt mem0 statics prios dqs pools rs SO Hpt x H s l.
  pose proof (sflat_inv _ _ _ _ _ _ _ x (s_reach_inv _ _ _ _ _ _ _ _ SO Hpt x H)) as HC.
  destruct (no_use_after_free_inv c mem0 statics prios dqs pools rs SO (sflat x) HC) as [A B].
  split; [exact A|]. split; [exact B|]. split.
  - intros i p r. exact (no_leak_inv c mem0 statics prios dqs pools rs (sflat x) i p r HC).
  - intros e sig He. exact (proj1 (statics_intact_inv c mem0 statics prios dqs pools rs SO (sflat x) e sig HC He)).
Qed.
Print Assumptions C71_memory.

(** The queue of an object is what its log says. *)
Theorem C71_order : forall c pt mem0 statics prios dqs pools rs,
  sys_ok c mem0 statics prios dqs pools rs -> 1 <= st_vmax pt ->
  forall x o, s_reachable c pt mem0 statics prios dqs pools x ->
  log_queue o (u_log x) = Some (ao_view (u_s x) o) /\
  Permutation (accepted o (u_log x)) (dispatched o (u_log x) ++ ao_view (u_s x) o) /\
  (no_lifo o (u_log x) -> accepted o (u_log x) = dispatched o (u_log x) ++ ao_view (u_s x) o).
Proof.
  intros c pt mem0 statics prios dqs pools rs SO Hpt x o H.
  pose proof (si_log _ _ _ _ _ _ _ _ (s_reach_inv _ _ _ _ _ _ _ _ SO Hpt x H) o) as HL.
  split; [exact HL|]. split; [now apply log_perm|]. intros Hn. now apply log_fifo.
Qed.
Print Assumptions C71_order.

(** Run to completion, for the whole application: at no time are two dispatches
    in progress, in all threads and to all objects together. *)
Theorem C71_run_to_completion : forall c pt mem0 statics prios dqs pools x,
  s_reachable c pt mem0 statics prios dqs pools x -> (length (st_dispatching x) <= 1)%nat.
Proof. exact s_dispatching. Qed.
Print Assumptions C71_run_to_completion.

Example C71_ex : sys_ok K_cfg K_mem0 K_statics K_prios K_dqs K_pools K_rs /\
  forall pt, In pt [linux_st; win32_st] -> 1 <= st_vmax pt /\ U_reach pt (U_at pt U_busy) /\ let x := U_at pt U_busy in
  st_dispatching x = [(1%nat, 60)] /\ sled_all x = [LRef 60; LFresh 2000] /\
  map (ao_view (u_s x)) [0; 1; 2]%nat = [[1000; 50]; []; [60]] /\
  holders (u_s x) (sled_all x) 1000 = 1%nat /\ k_mem (u_s x) 1000 = Some (CEvt 5 1 1) /\
  k_mem (u_s x) 2000 = Some (CEvt 5 0 2) /\
  map (fun o => accepted o (u_log x)) [0; 1; 2]%nat = [[1000; 50]; [60]; [60]] /\
  map (fun o => dispatched o (u_log x)) [0; 1; 2]%nat = [[]; [60]; []].
Proof.
  split; [exact K_ok|]. intros pt [<-|[<-|[]]]; (split; [vm_compute; discriminate|]);
    (split; [apply U_reachable; vm_compute; reflexivity|]); repeat split; vm_compute; reflexivity.
Qed.

(** *** Waking up *)
(** No wake-up is lost: when the loop sleeps, or has found nothing ready and is in
    its idle hook or about to sleep, and there is an event in any queue, then
    the semaphore it waits for is above zero. *)
Theorem C71_no_lost_wakeup : forall c pt mem0 statics prios dqs pools rs,
  sys_ok c mem0 statics prios dqs pools rs -> 1 <= st_vmax pt ->
  forall x o, s_reachable c pt mem0 statics prios dqs pools x ->
  st_idle x -> ao_view (u_s x) o <> [] -> 0 < u_sem x.
Proof.
  intros c pt mem0 statics prios dqs pools rs SO Hpt x o H.
  exact (st_no_lost_wakeup c mem0 statics prios dqs pools rs x o (s_reach_inv _ _ _ _ _ _ _ _ SO Hpt x H)).
Qed.
Print Assumptions C71_no_lost_wakeup.
(** In [U_late] the events came while the loop was in its idle hook. *)
Example C71_no_lost_wakeup_ex : forall pt, In pt [linux_st; win32_st] ->
  U_reach pt (U_at pt U_late) /\ st_idle (U_at pt U_late) /\
  map (ao_view (u_s (U_at pt U_late))) [0; 1; 2]%nat = [[1000]; [60]; [60]] /\
  (u_sem (U_at linux_st U_late), u_sem (U_at win32_st U_late)) = (3, 1).
Proof.
  intros pt [<-|[<-|[]]]; (split; [apply U_reachable; vm_compute; reflexivity|]);
    (split; [|split; vm_compute; reflexivity]);
    exists (mkSH true false [mkTF false [] (User UIdle (Ret 1))]); (split; [vm_compute; auto|]);
    (split; [reflexivity|]); right; exists [], (mkTF false [] (User UIdle (Ret 1))); auto.
Qed.

(** From any reachable state in which the loop starts a turn or sleeps, whatever
    the other threads are in the middle of, and with events in some queue, the
    loop can go on alone until all events of all queues are dispatched and it
    sleeps: for each object exactly the events of its queue, in their order, and
    no event before one of a more urgent object. *)
Theorem C71_loop_drains_the_queues : forall c pt mem0 statics prios dqs pools rs,
  sys_ok c mem0 statics prios dqs pools rs -> 1 <= st_vmax pt ->
  forall x i o, s_reachable c pt mem0 statics prios dqs pools x -> at_top c x i \/ asleep x i ->
  u_run x = true -> u_end x = false -> ao_view (u_s x) o <> [] ->
  exists chs x' new, (forall ch, In ch chs -> ch = SAct i SGo \/ ch = SAct i SWake) /\
    srun c pt statics true x chs = Ok x' /\ asleep x' i /\
    (forall o, ao_view (u_s x') o = []) /\
    dispatches (u_log x') = dispatches (u_log x) ++ new /\ (forall o, for_obj o new = ao_view (u_s x) o) /\
    StronglySorted (fun a b => prio_of (u_s x) (fst a) <= prio_of (u_s x) (fst b)) new.
Proof.
  intros c pt mem0 statics prios dqs pools rs SO Hpt x i o H.
  exact (st_drains c pt mem0 statics prios dqs pools rs SO Hpt x i o (s_reach_inv _ _ _ _ _ _ _ _ SO Hpt x H)).
Qed.
Print Assumptions C71_loop_drains_the_queues.
Definition U_woken : list schoice := U_late ++ sg 1 2.
Example C71_drains_ex : forall pt, In pt [linux_st; win32_st] ->
  let x := U_at pt U_woken in U_reach pt x /\ asleep x 1 /\ u_run x = true /\ u_end x = false /\
  map (ao_view (u_s x)) [0; 1; 2]%nat = [[1000]; [60]; [60]] /\
  let x' := U_at pt (U_woken ++ SAct 1 SWake :: sg 1 20) in
  dispatches (skipn (length (u_log x)) (u_log x')) = [(1%nat, 60); (2%nat, 60); (0%nat, 1000)] /\
  map (ao_view (u_s x')) [0; 1; 2]%nat = [[]; []; []].
Proof.
  intros pt [<-|[<-|[]]]; (split; [apply U_reachable; vm_compute; reflexivity|]); repeat split; vm_compute; reflexivity.
Qed.
(** The object served is the most urgent of those with events, whatever happens
    between: the loop chooses in one critical section ([KSel]), and in that
    moment no object with events is more urgent. *)
Theorem C71_most_urgent : forall c pt mem0 statics prios dqs pools rs,
  sys_ok c mem0 statics prios dqs pools rs -> 1 <= st_vmax pt ->
  forall x i o0, s_reachable c pt mem0 statics prios dqs pools x -> u_end x = false -> at_top c x i -> ao_view (u_s x) o0 <> [] ->
  exists o a x', sstep c pt statics true x (SAct i SGo) = Ok x' /\ u_log x' = u_log x ++ [EL (KSel o)] /\
    nth_error (k_ao (u_s x)) o = Some a /\ ao_view (u_s x) o <> [] /\
    forall o' a', nth_error (k_ao (u_s x)) o' = Some a' -> ao_view (u_s x) o' <> [] -> ao_prio a <= ao_prio a'.
Proof.
  intros c pt mem0 statics prios dqs pools rs SO Hpt x i o0 H He Ht Hv.
  exact (st_selects c pt mem0 statics prios dqs pools rs SO Hpt x i o0 (s_reach_inv _ _ _ _ _ _ _ _ SO Hpt x H) He Ht Hv).
Qed.
Print Assumptions C71_most_urgent.
Example C71_most_urgent_ex : forall pt, In pt [linux_st; win32_st] ->
  let x := U_at pt (U_woken ++ [SAct 1 SWake; SAct 1 SGo]) in U_reach pt x /\ at_top K_cfg x 1 /\ u_end x = false /\
  map (ao_view (u_s x)) [0; 1; 2]%nat = [[1000]; [60]; [60]] /\
  skipn (length (u_log x)) (u_log (U_at pt (U_woken ++ [SAct 1 SWake; SAct 1 SGo; SAct 1 SGo]))) = [EL (KSel 1%nat)].
Proof.
  intros pt [<-|[<-|[]]]; (split; [apply U_reachable; vm_compute; reflexivity|]); repeat split; vm_compute; reflexivity.
Qed.

(** When the loop sleeps and nothing will wake it, nothing is left to do. *)
Theorem C71_asleep_means_done : forall c pt mem0 statics prios dqs pools rs,
  sys_ok c mem0 statics prios dqs pools rs -> 1 <= st_vmax pt ->
  forall x, s_reachable c pt mem0 statics prios dqs pools x -> st_idle x -> u_sem x = 0 ->
  forall o, ao_view (u_s x) o = [] /\ Permutation (accepted o (u_log x)) (dispatched o (u_log x)).
Proof.
  intros c pt mem0 statics prios dqs pools rs SO Hpt x H Hi Hs o.
  assert (Hv : ao_view (u_s x) o = []).
  { destruct (ao_view (u_s x) o) eqn:E; [reflexivity|]. exfalso.
    pose proof (C71_no_lost_wakeup c pt mem0 statics prios dqs pools rs SO Hpt x o H Hi). rewrite E in H0.
    specialize (H0 ltac:(discriminate)). lia. }
  split; [exact Hv|].
  pose proof (C71_order c pt mem0 statics prios dqs pools rs SO Hpt x o H) as (_ & HP & _).
  now rewrite Hv, app_nil_r in HP.
Qed.
Print Assumptions C71_asleep_means_done.
Definition U_quiet : list schoice :=
  U_woken ++ SAct 1 SWake :: sg 1 23 ++ SAct 1 SWake :: sg 1 4 ++ SAct 1 SWake :: sg 1 4.
Example C71_asleep_ex : forall pt, In pt [linux_st; win32_st] ->
  let x := U_at pt U_quiet in U_reach pt x /\ asleep x 1 /\ st_idle x /\ u_sem x = 0 /\
  map (fun o => accepted o (u_log x)) [0; 1; 2]%nat = [[1000]; [60]; [60]].
Proof.
  intros pt [<-|[<-|[]]]; (split; [apply U_reachable; vm_compute; reflexivity|]);
    (split; [vm_compute; reflexivity|]);
    (split; [exists (mkSH true true [mkTF false [] (Ret 0)]); split; [vm_compute; auto|split; [reflexivity|now left]]|]);
    repeat split; vm_compute; reflexivity.
Qed.

(** *** Stopping *)
(** After rkhport_fwk_stop at most one more event is dispatched, and none if a
    dispatch is in progress - on win32_st only if the start hook is over. *)
Theorem C71_stop_at_most_one_more : forall c pt mem0 statics prios dqs pools rs,
  sys_ok c mem0 statics prios dqs pools rs -> 1 <= st_vmax pt ->
  forall x, s_reachable c pt mem0 statics prios dqs pools x -> u_run x = false ->
  (exists t, In t (u_thr x) /\ sh_main t = true) ->
  (st_early pt = true \/ forall t, In t (u_thr x) -> sh_main t = true -> ~ booting t) ->
  forall chs x', srun c pt statics true x chs = Ok x' ->
  u_run x' = false /\
  exists new, dispatches (u_log x') = dispatches (u_log x) ++ new /\ (length new <= 1)%nat /\
    (st_dispatching x <> [] -> new = []).
Proof.
  intros c pt mem0 statics prios dqs pools rs SO Hpt x H Hr Hm Hb chs x' E.
  pose proof (s_reach_inv _ _ _ _ _ _ _ _ SO Hpt x H) as HT. pose proof (s_reach_EInv _ _ _ _ _ _ _ x H) as HE.
  destruct (srun_wind c pt mem0 statics prios dqs pools rs SO Hpt chs x x' HT HE) as ((Hr' & _) & new & L & N); [|exact E|].
  { split; [exact Hr|]. split; [exact Hm|exact Hb]. }
  split; [exact Hr'|]. exists new. split; [exact L|]. split.
  - destruct N as [[-> _]|[N _]]; [cbn; lia|lia].
  - intros Hd. destruct N as [[N _]|(_ & _ & N)]; [exact N|]. destruct N. now apply dispatching_quiet.
Qed.
Print Assumptions C71_stop_at_most_one_more.
(** Stopped in the middle of the dispatch to object 1: the loop ends after it,
    with events in the queues of the other two. *)
Definition U_stopped : list schoice := U_busy ++ [SStop].
Example C71_stop_ex : forall pt, In pt [linux_st; win32_st] ->
  let x := U_at pt U_stopped in U_reach pt x /\ u_run x = false /\ existsb sh_main (u_thr x) = true /\
  st_dispatching x = [(1%nat, 60)] /\
  let x' := U_at pt (U_stopped ++ sg 1 5) in u_end x' = true /\ dispatches (u_log x') = dispatches (u_log x) /\
  map (ao_view (u_s x')) [0; 1; 2]%nat = [[1000; 50]; []; [60]].
Proof.
  intros pt [<-|[<-|[]]]; (split; [apply U_reachable; vm_compute; reflexivity|]); repeat split; vm_compute; reflexivity.
Qed.

(** rkhport_fwk_stop does not end the loop when it sleeps: it goes on sleeping,
    however long, until an event is posted; and then it ends without dispatching
    that event. *)
Theorem C71_stop_while_asleep_refuted : forall pt, In pt [linux_st; win32_st] ->
  let x := U_at pt (U_asleep ++ [SStop]) in U_reach pt x /\ u_run x = false /\ asleep x 1 /\
  (forall chs, (forall ch, In ch chs -> ch = SStop \/ ch = SAct 1 SGo \/ ch = SAct 1 SWake) ->
     srun K_cfg pt K_statics true x chs = Ok x) /\
  let x' := U_at pt (U_asleep ++ [SStop] ++ sc 0 (OPost false 0 60) 2 ++ [SAct 1 SWake; SAct 1 SGo]) in
  U_reach pt x' /\ u_end x' = true /\ ao_view (u_s x') 0 = [60] /\ dispatches (u_log x') = [].
Proof.
  intros pt Hpt. assert (Hst : forall y, asleep y 1 -> u_run y = false -> u_sem y = 0 ->
    forall ch, ch = SStop \/ ch = SAct 1 SGo \/ ch = SAct 1 SWake -> sstep K_cfg pt K_statics true y ch = Ok y).
  { intros y Hy Hr Hs ch [-> |[-> | ->]]; cbn [sstep].
    - destruct y. cbn in Hr. now subst.
    - unfold asleep in Hy. rewrite Hy. reflexivity.
    - unfold asleep in Hy. rewrite Hy. cbn [sh_wait sh_stk]. unfold sem_down. rewrite Hs. reflexivity. }
  assert (Hall : forall y, asleep y 1 -> u_run y = false -> u_sem y = 0 ->
    forall chs, (forall ch, In ch chs -> ch = SStop \/ ch = SAct 1 SGo \/ ch = SAct 1 SWake) ->
      srun K_cfg pt K_statics true y chs = Ok y).
  { intros y H1 H2 H3. induction chs as [|ch t IH]; intros Hc; [reflexivity|]. cbn [srun].
    rewrite (Hst y H1 H2 H3 ch (Hc ch (or_introl eq_refl))). cbn [bind]. apply IH. intros ch' Hc'. apply Hc. now right. }
  destruct Hpt as [<-|[<-|[]]]; (split; [apply U_reachable; vm_compute; reflexivity|]);
    (split; [vm_compute; reflexivity|]); (split; [vm_compute; reflexivity|]);
    (split; [apply Hall; vm_compute; reflexivity|]); (split; [apply U_reachable; vm_compute; reflexivity|]);
    repeat split; vm_compute; reflexivity.
Qed.
Print Assumptions C71_stop_while_asleep_refuted.

(** After the loop has ended, a post by another thread uses the mutex and the
    semaphore that rkh_fwk_enter has destroyed. *)
Theorem C71_post_after_stop_refuted : forall pt, In pt [linux_st; win32_st] ->
  let x := U_at pt (U_stopped ++ sg 1 5) in U_reach pt x /\ u_end x = true /\
  srun K_cfg pt K_statics true x (sc 0 (OPost false 0 60) 1) = Fault (FUB UB_dangling).
Proof.
  intros pt [<-|[<-|[]]]; (split; [apply U_reachable; vm_compute; reflexivity|]); repeat split; vm_compute; reflexivity.
Qed.
Print Assumptions C71_post_after_stop_refuted.

(** rkhport_fwk_stop while the start hook runs (called by it, or by a thread it
    started): linux_st ends at once; win32_st sets [running] after the hook and
    goes on for ever, as if nobody had called. *)
Definition U_hook_stop : list schoice := U_boot_0 ++ [SStop] ++ sg 1 2.
Theorem C71_stop_in_start_hook_refuted :
  (let x := U_at linux_st U_hook_stop in U_reach linux_st x /\ u_run x = false /\ u_end x = true) /\
  (let x := U_at win32_st U_hook_stop in U_reach win32_st x /\ u_run x = true /\ u_end x = false /\ at_top K_cfg x 1).
Proof.
  split; (split; [apply U_reachable; vm_compute; reflexivity|]); repeat split; vm_compute; reflexivity.
Qed.
Print Assumptions C71_stop_in_start_hook_refuted.

(** Deferred events recalled by another thread than the one of the loop: the
    assertion of rkh_sma_recall fails when the loop dispatches and releases the
    event between the post and the check. *)
Definition U_defer : list schoice := U_asleep ++ sc 0 (OAe 10 5) 4 ++ sc 0 (ODefer 0 1000) 2.
Theorem C71_recall_by_another_thread_refuted : forall pt, In pt [linux_st; win32_st] ->
  U_reach pt (U_at pt U_defer) /\
  srun K_cfg pt K_statics false (U_at pt U_defer) (sc 0 (ORecall 0 0) 2 ++ [SAct 1 SWake] ++ sg 1 7 ++ sg 0 1) = Fault (FAssert 273) /\
  ~ resource_fault (FAssert 273).
Proof.
  intros pt [<-|[<-|[]]]; (split; [apply U_reachable; vm_compute; reflexivity|]); (split; [vm_compute; reflexivity|]);
    intros [H|[H|[H|[H|[H|[]]]]]]; discriminate H.
Qed.
Print Assumptions C71_recall_by_another_thread_refuted.
