(** Properties C05, C15-C27 and C52: event queues with the ready set, dynamic
    events, publish/subscribe, deferral, registry and scheduler working
    together, for every interleaving of task and interrupt code. *)
From Coq Require Import Permutation.
From Verif Require Import Base L_Base M_RdyGrp S_RdyGrp M_Queue M_MemPool S_MemPool M_Kernel S_Kernel
  L_KProps L_KSeq L_KDefer L_KPost L_KSched L_KTab L_KWrap P_KExample.
Local Open Scope N_scope.

(** *** C52 *)
(** Every list of choices of a system that meets [sys_ok] - task code calling any
    service, interrupts at any point between critical sections, nested
    interrupts - runs without touching invalid memory, without a NULL or
    dangling pointer, and without any assertion but those for lack of resources. *)
Theorem C52_every_interleaving : forall c mem0 statics prios dqs pools rs,
  sys_ok c mem0 statics prios dqs pools rs ->
  exists s, start c mem0 prios dqs pools = Ok s /\
  forall chs, (exists x, crun c statics (conf0 s) chs = Ok x) \/
              (exists f, crun c statics (conf0 s) chs = Fault f /\ resource_fault f).
Proof. exact every_interleaving. Qed.
Print Assumptions C52_every_interleaving.

(** The example system meets [sys_ok]; in [K_turns] an interrupt posts between
    the choice of an active object and its get. *)
Example C52_ex : sys_ok K_cfg K_mem0 K_statics K_prios K_dqs K_pools K_rs /\
  K_ran K_turns = true /\
  skipn 22 (c_log (K_at K_turns)) =
    [EL (KSel 1); EL (KPut false 2 60); EL (KGet 1 1000); EU (UDispatch 1 1000); EL (KDec 1000);
     EL (KSel 1); EL (KGet 1 2000); EU (UDispatch 1 2000)] /\
  (* and a queue without room does assert *)
  crun K_cfg K_statics (conf0 K_s0)
    (K_busy ++ (ChCall (OPost false 1 50) :: go 1)) = Fault (FAssert 223).
Proof. split; [exact K_ok|]. split; [vm_compute; reflexivity|]. split; vm_compute; reflexivity. Qed.

(** *** C05 *)
(** In every reachable state a priority is in the ready set exactly when it is
    the priority of an active object with pending events, and the scheduler sees
    somebody ready exactly when some queue is not empty. *)
Theorem C05_ready_iff_pending : forall c mem0 statics prios dqs pools rs,
  sys_ok c mem0 statics prios dqs pools rs ->
  forall x, reachable c mem0 statics prios dqs pools x -> let s := c_s x in
  (forall p, In p (rg_list (k_rg s)) <->
     exists o a, nth_error (k_ao s) o = Some a /\ ao_prio a = p /\ ao_view s o <> []) /\
  (rg_isReady (k_rg s) = true <-> exists o, ao_view s o <> []).
Proof. exact ready_iff_pending. Qed.
Print Assumptions C05_ready_iff_pending.

(** Objects 0 (priority 2) and 2 (priority 1) have events; object 1 just got its last. *)
Example C05_ex : K_reach (K_at K_turns) /\ let s := c_s (K_at K_turns) in
  rg_list (k_rg s) = [1; 2] /\ map (ao_view s) [0; 1; 2]%nat = [[60; 1000; 50]; []; [60]].
Proof. split; [apply K_reachable; vm_compute; reflexivity|]. split; vm_compute; reflexivity. Qed.

(** *** C17 *)
(** The counter of a referenced dynamic event is the number of places of the
    event in event and deferral queues plus the references held by whoever runs
    or reserved it; an event allocated and not posted yet has counter zero and
    one owner. *)
Theorem C17_counter_is_holders : forall c mem0 statics prios dqs pools rs,
  sys_ok c mem0 statics prios dqs pools rs ->
  forall x, reachable c mem0 statics prios dqs pools x -> let s := c_s x in let l := led_all x in
  (forall i e, block_of pools rs i e -> (0 < holders s l e)%nat ->
     (holders s l e <= 255)%nat /\
     exists sig, k_mem s e = Some (CEvt sig (N.of_nat (holders s l e)) (N.of_nat i + 1))) /\
  (forall e, In (LFresh e) l -> holders s l e = 0%nat /\ cnt l (LFresh e) = 1%nat /\
     exists i sig, block_of pools rs i e /\ k_mem s e = Some (CEvt sig 0 (N.of_nat i + 1))).
Proof. exact refcount. Qed.
Print Assumptions C17_counter_is_holders.

(** Event 1000 published (skipping its sender), deferred and reserved: queues of
    objects 0 and 1, a deferral queue, and the reserving caller. *)
Example C17_ex : K_reach (K_at K_busy) /\ let s := c_s (K_at K_busy) in let l := led_all (K_at K_busy) in
  holders s l 1000 = 4%nat /\ all_queued s = [60; 1000; 50; 1000; 2000; 1000] /\ l = [LRef 1000] /\
  k_mem s 1000 = Some (CEvt 5 4 1) /\ block_of K_pools K_rs 0 1000.
Proof.
  split; [apply K_reachable; vm_compute; reflexivity|]. do 4 (split; [vm_compute; reflexivity|]).
  exists (1000, 50, 10), 16. repeat split. vm_compute. now left.
Qed.

(** Reserving adds one to the counter of a dynamic event and does nothing else;
    on a static event it does nothing. *)
Theorem C17_reserve : forall c mem0 statics prios dqs pools rs,
  sys_ok c mem0 statics prios dqs pools rs ->
  forall x e, reachable c mem0 statics prios dqs pools x -> let s := c_s x in live_evt statics s (led_all x) e ->
  exists s' sig nref pool, exec (fwk_reserve e) s = Ok (s', [KInc e], 0) /\ k_mem s e = Some (CEvt sig nref pool) /\
    (is_static statics e = true -> s' = s) /\
    (is_static statics e = false -> s' = set_mem s (k_mem s') /\
      forall a, k_mem s' a = if a =? e then Some (CEvt sig (u8 (nref + 1)) pool) else k_mem s a).
Proof. exact reserve_effect. Qed.
Print Assumptions C17_reserve.
Example C17_reserve_ex : live_evt K_statics (c_s (K_at K_turns)) (led_all (K_at K_turns)) 2000 /\
  match exec (fwk_reserve 2000) (c_s (K_at K_turns)) with
  | Ok (s', _, _) => (k_mem (c_s (K_at K_turns)) 2000, k_mem s' 2000) = (Some (CEvt 6 1 2), Some (CEvt 6 2 2))
  | Fault _ => False end.
Proof. split; [right; right; vm_compute; lia|vm_compute; reflexivity]. Qed.

(** *** C18 *)
(** An event that is static, allocated or referenced has a valid header and its
    block is not on any free list (so no allocation can return it); a block being
    allocated or being returned is nobody's event and not free either. *)
Theorem C18_no_use_after_free : forall c mem0 statics prios dqs pools rs,
  sys_ok c mem0 statics prios dqs pools rs ->
  forall x, reachable c mem0 statics prios dqs pools x -> let s := c_s x in let l := led_all x in
  (forall e, live_evt statics s l e ->
     (exists sig nref pool, k_mem s e = Some (CEvt sig nref pool)) /\
     forall j, (j < length pools)%nat -> ~ free_block s j e) /\
  (forall i a, In (LRaw i a) l \/ In (LDead i a) l ->
     block_of pools rs i a /\ ~ live_evt statics s l a /\
     forall j, (j < length pools)%nat -> ~ free_block s j a).
Proof. exact no_use_after_free. Qed.
Print Assumptions C18_no_use_after_free.

(** In [K_turns] events 1000 and 2000 are live; the middle of the allocation in
    [K_new] is a state with a block being allocated. *)
Example C18_ex : K_reach (K_at K_turns) /\ live_evt K_statics (c_s (K_at K_turns)) (led_all (K_at K_turns)) 2000 /\
  K_reach (K_at (K_boot ++ ChCall (OAe 10 5) :: go 2)) /\
  led_all (K_at (K_boot ++ ChCall (OAe 10 5) :: go 2)) = [LRaw 0 1000].
Proof.
  split; [apply K_reachable; vm_compute; reflexivity|]. split; [right; right; vm_compute; lia|].
  split; [apply K_reachable; vm_compute; reflexivity|]. vm_compute. reflexivity.
Qed.

(** *** C19 *)
(** Garbage collection by somebody holding a reference: the last one returns the
    block to its pool, any other only decrements the counter; no queue changes. *)
Theorem C19_gc : forall c mem0 statics prios dqs pools rs,
  sys_ok c mem0 statics prios dqs pools rs ->
  forall x e i, reachable c mem0 statics prios dqs pools x ->
  In (LRef e) (led_all x) -> block_of pools rs i e ->
  let s := c_s x in let l := led_all x in
  (holders s l e = 1%nat ->
     exists s' p p', exec (fwk_gc c e) s = Ok (s', [KDead i e; KFree i e], 0) /\
       nth_error (k_ep s) i = Some p /\ k_ep s' = upd (k_ep s) i p' /\
       mp_nfree p' = mp_nfree p + 1 /\ mp_nblocks p' = mp_nblocks p /\ mp_bsize p' = mp_bsize p /\
       free_block s' i e /\ same_queues s s') /\
  ((1 < holders s l e)%nat ->
     exists s' sig, exec (fwk_gc c e) s = Ok (s', [KDec e], 0) /\
       k_mem s e = Some (CEvt sig (N.of_nat (holders s l e)) (N.of_nat i + 1)) /\
       k_mem s' e = Some (CEvt sig (N.of_nat (holders s l e) - 1) (N.of_nat i + 1)) /\
       (forall a, a <> e -> k_mem s' a = k_mem s a) /\ k_ep s' = k_ep s /\ same_queues s s').
Proof. exact gc_effect. Qed.
Print Assumptions C19_gc.

(** Garbage collection of a static event, or of a dynamic one never posted, does nothing. *)
Theorem C19_gc_nothing : forall c mem0 statics prios dqs pools rs,
  sys_ok c mem0 statics prios dqs pools rs ->
  forall x e, reachable c mem0 statics prios dqs pools x ->
  is_static statics e = true \/ In (LFresh e) (led_all x) ->
  exec (fwk_gc c e) (c_s x) = Ok (c_s x, [], 0).
Proof. exact gc_nothing. Qed.
Print Assumptions C19_gc_nothing.

(** The free list of each pool consists exactly of the blocks nobody uses, and
    the free counter counts them: nothing leaks, nothing is returned twice. *)
Theorem C19_no_leak : forall c mem0 statics prios dqs pools rs,
  sys_ok c mem0 statics prios dqs pools rs ->
  forall x i p r, reachable c mem0 statics prios dqs pools x ->
  nth_error pools i = Some p -> nth_error rs i = Some r ->
  let s := c_s x in let l := led_all x in
  exists q, nth_error (k_ep s) i = Some q /\ mp_bsize q = r /\
    mp_nblocks q = N.of_nat (length (pool_blocks p r)) /\
    mp_nfree q = N.of_nat (length (filter (unused s l i) (pool_blocks p r))) /\
    forall a, on_free_list (k_mem s) (mp_free q) a <-> In a (pool_blocks p r) /\ unused s l i a = true.
Proof. exact no_leak. Qed.
Print Assumptions C19_no_leak.

(** With no dynamic event in a queue and none held, every pool is full again. *)
Theorem C19_drained : forall c mem0 statics prios dqs pools rs,
  sys_ok c mem0 statics prios dqs pools rs ->
  forall x i q, reachable c mem0 statics prios dqs pools x ->
  (forall e, In e (all_queued (c_s x)) -> is_static statics e = true) ->
  (forall y, In y (led_all x) -> is_right y = true -> exists e, y = LRef e /\ is_static statics e = true) ->
  (i < length pools)%nat -> nth_error (k_ep (c_s x)) i = Some q -> mp_nfree q = mp_nblocks q.
Proof. exact drained. Qed.
Print Assumptions C19_drained.

(** 2000 is held once (it is being dispatched), 1000 three times.  Later
    everything is processed and released: the queue of deferred events is
    recalled by a handler, the reserved reference given back while idle. *)
Definition C19_chs : list choice :=
  K_turns ++ [ChCall (ORecall 0 0)] ++ go 49 ++ [ChCall (OGc 1000)] ++ go 5.
Example C19_ex :
  (K_reach (K_at K_turns) /\ led_all (K_at K_turns) = [LRef 2000; LRef 1000] /\
   holders (c_s (K_at K_turns)) (led_all (K_at K_turns)) 2000 = 1%nat /\
   holders (c_s (K_at K_turns)) (led_all (K_at K_turns)) 1000 = 3%nat /\
   is_static K_statics 50 = true /\ led_all (K_at K_new) = [LFresh 1000]) /\
  (K_reach (K_at C19_chs) /\ all_queued (c_s (K_at C19_chs)) = [] /\ led_all (K_at C19_chs) = [] /\
   map mp_nfree (k_ep (c_s (K_at C19_chs))) = [3; 2; 0] /\
   dispatches (c_log (K_at C19_chs)) =
     [(1%nat, 1000); (1%nat, 2000); (2%nat, 60); (0%nat, 1000); (0%nat, 60); (0%nat, 1000); (0%nat, 50)]).
Proof.
  split.
  - split; [apply K_reachable; vm_compute; reflexivity|]. repeat split; vm_compute; reflexivity.
  - split; [apply K_reachable; vm_compute; reflexivity|]. repeat split; vm_compute; reflexivity.
Qed.

(** *** C20 *)
(** In every reachable state a static event has the header it started with and
    is on no free list. *)
Theorem C20_static_events_untouched : forall c mem0 statics prios dqs pools rs,
  sys_ok c mem0 statics prios dqs pools rs ->
  forall x e sig, reachable c mem0 statics prios dqs pools x -> In (e, sig) statics ->
  k_mem (c_s x) e = Some (CEvt sig 0 0) /\ mem0 e = Some (CEvt sig 0 0) /\
  forall j, (j < length pools)%nat -> ~ free_block (c_s x) j e.
Proof. exact statics_intact. Qed.
Print Assumptions C20_static_events_untouched.

(** A static event reserved 300 times and pending at two objects. *)
Definition C20_chs : list choice := K_busy ++ concat (repeat (ChCall (OReserve 50) :: go 2) 300).
Example C20_ex : K_reach (K_at C20_chs) /\ In (50, 7) K_statics /\
  length (filter (fun x => match x with EL (KInc 50) => true | _ => false end) (c_log (K_at C20_chs))) = 300%nat /\
  k_mem (c_s (K_at C20_chs)) 50 = Some (CEvt 7 0 0).
Proof.
  split; [apply K_reachable; vm_compute; reflexivity|]. split; [now left|]. split; vm_compute; reflexivity.
Qed.

(** *** C21 *)
(** Allocation takes a free block of the first registered pool whose blocks are
    large enough and stamps signal, counter zero and the pool's number; no other
    memory and no other pool changes.  Too large: assertion 142.  First suitable
    pool exhausted: assertion 144.  (Block sizes are below 256: the pool's block
    size is read through an 8-bit function, rkh_evtPool_getBlockSize.) *)
Theorem C21_first_fit : forall c mem0 statics prios dqs pools rs,
  sys_ok c mem0 statics prios dqs pools rs ->
  forall x size sig, reachable c mem0 statics prios dqs pools x ->
  (forall r, In r rs -> r < 256) -> size < k_es_mod c ->
  let s := c_s x in let l := led_all x in
  ((forall r, In r rs -> r < size) -> exec (fwk_ae c size sig) s = Fault (FAssert 142)) /\
  (forall i r q, nth_error rs i = Some r -> size <= r ->
     (forall j r', (j < i)%nat -> nth_error rs j = Some r' -> r' < size) -> nth_error (k_ep s) i = Some q ->
     (mp_nfree q = 0 -> exec (fwk_ae c size sig) s = Fault (FAssert 144)) /\
     (mp_nfree q <> 0 -> exists s' q' b, exec (fwk_ae c size sig) s = Ok (s', [KAlloc i b; KStamp i b], b) /\
        block_of pools rs i b /\ free_block s i b /\ ~ live_evt statics s l b /\
        (forall a, k_mem s' a = if a =? b then Some (CEvt (sig mod k_sig_mod c) 0 (N.of_nat i + 1)) else k_mem s a) /\
        k_ep s' = upd (k_ep s) i q' /\ mp_nfree q' = mp_nfree q - 1 /\ same_queues s s')).
Proof. exact ae_effect. Qed.
Print Assumptions C21_first_fit.

(** 17 bytes do not fit the first pool (blocks of 16) and come from the second;
    41 bytes fit none. *)
Example C21_ex : K_reach (K_at K_busy) /\ (forall r, In r K_rs -> r < 256) /\
  match exec (fwk_ae K_cfg 17 9) (c_s (K_at K_busy)) with
  | Ok (s', labs, b) => (labs, b, k_mem s' b) = ([KAlloc 1 2040; KStamp 1 2040], 2040, Some (CEvt 9 0 2))
  | Fault _ => False end /\
  exec (fwk_ae K_cfg 41 9) (c_s (K_at K_busy)) = Fault (FAssert 142).
Proof.
  split; [apply K_reachable; vm_compute; reflexivity|].
  split; [intros r [<-|[<-|[]]]; reflexivity|]. split; vm_compute; reflexivity.
Qed.

(** The restriction is needed: with blocks of 256 bytes the size read is 0, so a
    request of 10 bytes finds no pool. *)
Definition C21_big : res kst :=
  start K_cfg (fun a => if (1000 <=? a) && (a <? 2024) then Some CRaw else None) [] [] [(1000, 1024, 256)].
Theorem C21_blocks_of_256_refuted :
  exists s, C21_big = Ok s /\ map mp_bsize (firstn 1 (k_ep s)) = [256] /\ map mp_nfree (firstn 1 (k_ep s)) = [4] /\
    exec (fwk_ae K_cfg 10 9) s = Fault (FAssert 142).
Proof.
  exists (ok_or K_s0 C21_big). split; [vm_compute; reflexivity|]. repeat split; vm_compute; reflexivity.
Qed.
Print Assumptions C21_blocks_of_256_refuted.

(** *** C22 *)
(** At 256 references the counter reads zero: no number of garbage collections
    returns the block. *)
Theorem C22_leak_at_256 : forall c mem0 statics prios dqs pools rs,
  sys_ok c mem0 statics prios dqs pools rs ->
  forall x e i k n, reachable c mem0 statics prios dqs pools x ->
  block_of pools rs i e -> live_evt statics (c_s x) (led_all x) e ->
  (holders (c_s x) (led_all x) e + k = 256)%nat ->
  exists s', exec_all c (c_s x) (repeat (OReserve e) k) = Ok s' /\
    exec_all c s' (repeat (OGc e) n) = Ok s' /\ k_ep s' = k_ep (c_s x).
Proof. exact wrap_lost. Qed.
Print Assumptions C22_leak_at_256.

(** At 257 references the counter reads one: the first garbage collection returns
    the block to its pool while the queues still refer to it. *)
Theorem C22_recycled_at_257 : forall c mem0 statics prios dqs pools rs,
  sys_ok c mem0 statics prios dqs pools rs ->
  forall x e i k, reachable c mem0 statics prios dqs pools x ->
  block_of pools rs i e -> live_evt statics (c_s x) (led_all x) e ->
  (holders (c_s x) (led_all x) e + k = 257)%nat ->
  exists s1 s2, exec_all c (c_s x) (repeat (OReserve e) k) = Ok s1 /\
    exec (fwk_gc c e) s1 = Ok (s2, [KDead i e; KFree i e], 0) /\ free_block s2 i e /\ same_queues (c_s x) s2.
Proof. exact wrap_early. Qed.
Print Assumptions C22_recycled_at_257.

(** The counter after any number of reservations. *)
Theorem C22_counter_mod_256 : forall c e sig p, e <> 0 -> p <> 0 ->
  forall k s n, n < 256 -> k_mem s e = Some (CEvt sig n p) ->
  exists m', exec_all c s (repeat (OReserve e) k) = Ok (set_mem s m') /\
    m' e = Some (CEvt sig (u8 (n + N.of_nat k)) p) /\ forall a, a <> e -> m' a = k_mem s a.
Proof. exact reserve_many. Qed.
Print Assumptions C22_counter_mod_256.

(** In [K_busy] event 1000 waits at objects 0 and 1.  With 253 more references
    one garbage collection frees it, the next allocation returns the same block
    for a new event, and object 1 is given the new event (signal 9) in place of
    the old one (signal 5). *)
Example C22_ex : K_reach (K_at K_busy) /\ block_of K_pools K_rs 0 1000 /\
  live_evt K_statics (c_s (K_at K_busy)) (led_all (K_at K_busy)) 1000 /\
  holders (c_s (K_at K_busy)) (led_all (K_at K_busy)) 1000 = 4%nat /\
  match exec_all K_cfg (c_s (K_at K_busy)) (repeat (OReserve 1000) 253 ++ [OGc 1000]) with
  | Ok s => match exec (fwk_ae K_cfg 10 9) s with
            | Ok (s', _, b) => (b, ao_view s' 1, k_mem s' 1000) = (1000, [1000; 2000], Some (CEvt 9 0 1))
            | Fault _ => False end
  | Fault _ => False end.
Proof.
  split; [apply K_reachable; vm_compute; reflexivity|].
  split; [exists (1000, 50, 10), 16; repeat split; vm_compute; now left|].
  split; [right; right; vm_compute; lia|]. split; vm_compute; reflexivity.
Qed.

(** *** C15 *)
(** After any calls, an active object's priority is among the subscribers of a
    channel exactly when its last call concerning that channel subscribed it. *)
Theorem C15_last_call_decides : forall c, 1 <= max_sma (q_rg (k_qc c)) <= 64 ->
  forall s0 ops s' ch, k_ch s0 = pubsub_init c ->
  (forall a, In a (k_ao s0) -> ao_prio a < max_sma (q_rg (k_qc c))) ->
  exec_all c s0 ops = Ok s' -> ch < N.of_nat (k_maxch c) ->
  ascending (subscribers s' ch) /\
  forall p, In p (subscribers s' ch) <-> subscribed (map ao_prio (k_ao s0)) ops ch p = true.
Proof. exact subs_effect. Qed.
Print Assumptions C15_last_call_decides.

(** Subscribing and unsubscribing succeed on every existing channel, and assert
    on any other; unsubscribing from all always succeeds.  Only the subscription
    table changes. *)
Theorem C15_total : forall c, 1 <= max_sma (q_rg (k_qc c)) <= 64 ->
  forall s0 ops s (b : bool) ch o a, k_ch s0 = pubsub_init c ->
  (forall a, In a (k_ao s0) -> ao_prio a < max_sma (q_rg (k_qc c))) ->
  exec_all c s0 ops = Ok s -> nth_error (k_ao s) o = Some a ->
  (u8 ch < N.of_nat (k_maxch c) -> exists l', exec (api c (if b then OSub ch o else OUnsub ch o)) s = Ok (set_ch s l', [], 0)) /\
  (q_asrt (k_qc c) = true -> N.of_nat (k_maxch c) <= u8 ch ->
     exec (api c (if b then OSub ch o else OUnsub ch o)) s = Fault (FAssert (if b then 125 else 137)%nat)) /\
  (exists l', exec (api c (OUnsubAll o)) s = Ok (set_ch s l', [], 0)).
Proof. exact subs_total. Qed.
Print Assumptions C15_total.

Definition C15_ops : list kop :=
  [OSub 0 0; OSub 1 0; OSub 0 1; OSub 0 2; OUnsub 0 1; OUnsubAll 2; OSub 1 2; OSub 0 0; OUnsub 1 1].
Example C15_ex : K_s0.(k_ch) = pubsub_init K_cfg /\ (forall a, In a (k_ao K_s0) -> ao_prio a < 4) /\
  match exec_all K_cfg K_s0 C15_ops with
  | Ok s => subscribers s 0 = [2] /\ subscribers s 1 = [1; 2]
  | Fault _ => False end /\
  exec (api K_cfg (OSub 2 0)) K_s0 = Fault (FAssert 125).
Proof.
  split; [vm_compute; reflexivity|]. split.
  - intros a Ha. vm_compute in Ha. destruct Ha as [<-|[<-|[<-|[]]]]; reflexivity.
  - split; [vm_compute; split; reflexivity|vm_compute; reflexivity].
Qed.

(** *** C16 *)
(** With room in the queues, publishing appends the event once to the queue of
    every subscriber but the sender, in ascending priority number, leaves every
    other queue alone, and returns the number of subscribers (the sender
    included). *)
Theorem C16_publish : forall c mem0 statics prios dqs pools rs,
  sys_ok c mem0 statics prios dqs pools rs ->
  forall x ch e sender os, reachable c mem0 statics prios dqs pools x -> let s := c_s x in let l := led_all x in
  ch < N.of_nat (k_maxch c) -> ch < 256 -> live_evt statics s l e ->
  map (fun p => nth_error (k_sp s) (N.to_nat p)) (subscribers s ch) = map (fun o => Some (Some o)) os ->
  (forall o, In o os -> is_sender sender o = false -> ao_room s o 1) ->
  ref_room statics s l e (1 + length (filter (fun o => negb (is_sender sender o)) os)) ->
  ascending (subscribers s ch) /\
  exists s' labs, exec (ps_publish c ch e sender) s = Ok (s', labs, N.of_nat (length (subscribers s ch))) /\
    posted labs = filter (fun o => negb (is_sender sender o)) os /\
    (forall o, ao_view s' o = ao_view s o ++ if existsb (Nat.eqb o) os && negb (is_sender sender o) then [e] else []) /\
    (forall d, dq_view s' d = dq_view s d).
Proof. exact publish_effect. Qed.
Print Assumptions C16_publish.

Example C16_ex : K_reach (K_at K_subs) /\ live_evt K_statics (c_s (K_at K_subs)) (led_all (K_at K_subs)) 1000 /\
  subscribers (c_s (K_at K_subs)) 0 = [0; 1; 2] /\
  map (fun p => nth_error (k_sp (c_s (K_at K_subs))) (N.to_nat p)) [0; 1; 2] =
    map (fun o => Some (Some o)) [1; 2; 0]%nat /\
  (forall o, In o [1; 2; 0]%nat -> ao_room (c_s (K_at K_subs)) o 1) /\
  match exec (ps_publish K_cfg 0 1000 (Some 2%nat)) (c_s (K_at K_subs)) with
  | Ok (s', labs, n) => (n, posted labs, map (ao_view s') [0; 1; 2]%nat) = (3, [1; 0]%nat, [[1000]; [1000]; []])
  | Fault _ => False end.
Proof.
  split; [apply K_reachable; vm_compute; reflexivity|]. split; [right; left; vm_compute; now left|].
  split; [vm_compute; reflexivity|]. split; [vm_compute; reflexivity|]. split; [|vm_compute; reflexivity].
  intros o [<-|[<-|[<-|[]]]]; eexists; split; try (vm_compute; reflexivity); vm_compute; lia.
Qed.

(** *** C23 *)
(** Deferring appends to the deferral queue; a full one asserts. *)
Theorem C23_defer : forall c mem0 statics prios dqs pools rs,
  sys_ok c mem0 statics prios dqs pools rs ->
  forall x d e q, reachable c mem0 statics prios dqs pools x -> let s := c_s x in
  live_evt statics s (led_all x) e -> nth_error (k_dq s) d = Some q ->
  (length (dq_view s d) = q_nelems q -> exec (sma_defer c d e) s = Fault (FAssert 223)) /\
  ((length (dq_view s d) < q_nelems q)%nat ->
   exists s', exec (sma_defer c d e) s = Ok (s', [KDefer d e], 0) /\
    (forall d', dq_view s' d' = if Nat.eqb d' d then dq_view s d ++ [e] else dq_view s d') /\
    (forall o, ao_view s' o = ao_view s o)).
Proof. exact defer_effect. Qed.
Print Assumptions C23_defer.

(** Recalling moves the oldest deferred event to the front of the queue, all
    reference counters as before; with nothing deferred it returns NULL and no
    queue, counter or ready set changes. *)
Theorem C23_recall : forall c mem0 statics prios dqs pools rs,
  sys_ok c mem0 statics prios dqs pools rs ->
  forall x o d, reachable c mem0 statics prios dqs pools x -> let s := c_s x in registered s o = true ->
  (d < length (k_dq s))%nat ->
  match dq_view s d with
  | [] => exists s', exec (sma_recall c o d) s = Ok (s', [], 0) /\ k_ao s' = k_ao s /\
      (forall d', dq_view s' d' = dq_view s d') /\ k_mem s' = k_mem s /\ k_rg s' = k_rg s
  | e :: w => ao_room s o 1 -> ref_room statics s (led_all x) e 1 ->
      exists s' labs, exec (sma_recall c o d) s = Ok (s', labs, e) /\
        (forall o', ao_view s' o' = if Nat.eqb o' o then e :: ao_view s o else ao_view s o') /\
        (forall d', dq_view s' d' = if Nat.eqb d' d then w else dq_view s d') /\
        (forall y, k_mem s' y = k_mem s y)
  end.
Proof. exact recall_effect. Qed.
Print Assumptions C23_recall.

(** Deferring events and recalling everything puts them, last recalled first,
    ahead of what was already pending. *)
Theorem C23_defer_then_recall_all : forall c mem0 statics prios dqs pools rs,
  sys_ok c mem0 statics prios dqs pools rs ->
  forall x o d es, reachable c mem0 statics prios dqs pools x -> let s := c_s x in let l := led_all x in
  registered s o = true -> (forall e, In e es -> live_evt statics s l e) ->
  dq_room s d (length es) -> ao_room s o (length (dq_view s d ++ es)) ->
  (forall e, In e (dq_view s d ++ es) -> ref_room statics s l e (S (count_occ N.eq_dec es e))) ->
  exists s', exec_all c s (map (ODefer d) es ++ repeat (ORecall o d) (length (dq_view s d ++ es))) = Ok s' /\
    dq_view s' d = [] /\ ao_view s' o = rev (dq_view s d ++ es) ++ ao_view s o /\
    (forall d', d' <> d -> dq_view s' d' = dq_view s d') /\ (forall o', o' <> o -> ao_view s' o' = ao_view s o').
Proof. exact defer_recall_all. Qed.
Print Assumptions C23_defer_then_recall_all.

(** In [K_turns] deferral queue 0 holds [1000] and object 2 has [60] pending, with
    room for two more. *)
Example C23_ex : let s := c_s (K_at K_turns) in let l := led_all (K_at K_turns) in
  K_reach (K_at K_turns) /\ registered s 2 = true /\ live_evt K_statics s l 2000 /\
  (dq_view s 0, ao_view s 2) = ([1000], [60]) /\ dq_room s 0 1 /\ ao_room s 2 2 /\
  ref_room K_statics s l 1000 1 /\ ref_room K_statics s l 2000 2 /\
  match exec_all K_cfg s [ODefer 0 2000; ORecall 2 0; ORecall 2 0; ORecall 2 0] with
  | Ok s' => (dq_view s' 0, ao_view s' 2, k_mem s' 1000, k_mem s' 2000) =
             ([], [2000; 1000; 60], Some (CEvt 5 3 1), Some (CEvt 6 2 2))
  | Fault _ => False end.
Proof.
  cbv zeta. split; [apply K_reachable; vm_compute; reflexivity|]. split; [vm_compute; reflexivity|].
  split; [right; right; vm_compute; lia|]. split; [vm_compute; reflexivity|].
  split; [eexists; split; [vm_compute; reflexivity|vm_compute; lia]|].
  split; [eexists; split; [vm_compute; reflexivity|vm_compute; lia]|].
  split; [right; apply Nat.leb_le; vm_compute; reflexivity|].
  split; [right; apply Nat.leb_le; vm_compute; reflexivity|]. vm_compute. reflexivity.
Qed.

(** *** C24 *)
(** After any sequence of register and unregister calls that run without an
    assertion, the table is the finite map they describe. *)
Theorem C24_registry_is_map : forall c, q_asrt (k_qc c) = true -> 1 <= max_sma (q_rg (k_qc c)) ->
  forall ops s s' m, length (k_sp s) = N.to_nat (max_sma (q_rg (k_qc c))) ->
  (forall p, p < max_sma (q_rg (k_qc c)) -> nth_error (k_sp s) (N.to_nat p) = Some (m p)) ->
  reg_all c s ops = Ok s' ->
  (forall p, p < max_sma (q_rg (k_qc c)) -> nth_error (k_sp s') (N.to_nat p) = Some (reg_map (map ao_prio (k_ao s)) ops m p)) /\
  k_ao s' = k_ao s /\ length (k_sp s') = length (k_sp s).
Proof. exact reg_inv. Qed.
Print Assumptions C24_registry_is_map.

(** Registering: at a free priority it succeeds; at an occupied one or beyond the
    table it asserts. *)
Theorem C24_register : forall c s o a, q_asrt (k_qc c) = true -> 1 <= max_sma (q_rg (k_qc c)) ->
  length (k_sp s) = N.to_nat (max_sma (q_rg (k_qc c))) -> nth_error (k_ao s) o = Some a ->
  (nth_error (k_sp s) (N.to_nat (ao_prio a)) = Some None -> ao_prio a < max_sma (q_rg (k_qc c)) ->
     exec (sma_register c o) s = Ok (set_sp s (upd (k_sp s) (N.to_nat (ao_prio a)) (Some o)), [KReg o], 0)) /\
  (max_sma (q_rg (k_qc c)) <= ao_prio a \/ (exists o', nth_error (k_sp s) (N.to_nat (ao_prio a)) = Some (Some o')) ->
     exec (sma_register c o) s = Fault (FAssert 99)).
Proof. exact register_at. Qed.
Print Assumptions C24_register.

(** Unregistering: the registered object is removed; anything else asserts, except
    that with a priority equal to the size of the table the assertion itself reads
    one entry past the table. *)
Theorem C24_unregister : forall c s o a, q_asrt (k_qc c) = true -> 1 <= max_sma (q_rg (k_qc c)) ->
  length (k_sp s) = N.to_nat (max_sma (q_rg (k_qc c))) -> nth_error (k_ao s) o = Some a ->
  (nth_error (k_sp s) (N.to_nat (ao_prio a)) = Some (Some o) ->
     exec (sma_unregister c o) s = Ok (set_sp s (upd (k_sp s) (N.to_nat (ao_prio a)) None), [KOff o], 0)) /\
  (max_sma (q_rg (k_qc c)) < ao_prio a \/
   (exists x, nth_error (k_sp s) (N.to_nat (ao_prio a)) = Some x /\ x <> Some o) ->
     exec (sma_unregister c o) s = Fault (FAssert 114)) /\
  (ao_prio a = max_sma (q_rg (k_qc c)) -> exec (sma_unregister c o) s = Fault (FUB UB_bounds)).
Proof. exact unregister_at. Qed.
Print Assumptions C24_unregister.

(** Activating an object at a free priority registers it and gives it an empty
    queue of the given size; at a taken one it asserts. *)
Theorem C24_activate : forall c mem0 statics prios dqs pools rs,
  sys_ok c mem0 statics prios dqs pools rs ->
  forall x o a qs n, reachable c mem0 statics prios dqs pools x -> let s := c_s x in
  nth_error (k_ao s) o = Some a -> ao_prio a < max_sma (q_rg (k_qc c)) -> (0 < n)%nat ->
  (nth_error (k_sp s) (N.to_nat (ao_prio a)) = Some None ->
   exists s', exec (sma_activate c o qs n) s = Ok (s', [KInit o; KReg o], 0) /\
    registered s' o = true /\ (forall o', o' <> o -> registered s' o' = registered s o') /\
    (forall o', ao_view s' o' = if Nat.eqb o' o then [] else ao_view s o') /\ ao_room s' o n /\
    (forall d, dq_view s' d = dq_view s d) /\ k_rg s' = k_rg s /\ k_mem s' = k_mem s /\ k_ch s' = k_ch s) /\
  ((exists o', nth_error (k_sp s) (N.to_nat (ao_prio a)) = Some (Some o')) ->
   exec (sma_activate c o qs n) s = Fault (FAssert 99)).
Proof. exact activate_effect. Qed.
Print Assumptions C24_activate.
Example C24_activate_ex : let x := K_at (firstn 6 K_boot) in K_reach x /\
  (nth_error (k_sp (c_s x)) 0, nth_error (k_sp (c_s x)) 2) = (Some None, Some (Some 0%nat)) /\
  match exec (sma_activate K_cfg 1 [None; None] 2) (c_s x) with
  | Ok (s', _, _) => map (registered s') [0; 1; 2]%nat = [true; true; false]
  | Fault _ => False end /\
  exec (sma_activate K_cfg 0 [None; None] 2) (c_s x) = Fault (FAssert 99).
Proof. cbv zeta. split; [apply K_reachable; vm_compute; reflexivity|]. repeat split; vm_compute; reflexivity. Qed.

(** Objects 3 and 4 share priority 2 with object 0; object 5 has priority 4. *)
Definition C24_s : kst := kst0 K_cfg K_mem0 [2; 0; 1; 2; 4] [].
Example C24_ex : length (k_sp C24_s) = 4%nat /\
  match reg_all K_cfg C24_s [(true, 0%nat); (true, 1%nat); (false, 0%nat); (true, 3%nat)] with
  | Ok s => k_sp s = [Some 1%nat; None; Some 3%nat; None]
  | Fault _ => False end /\
  reg_all K_cfg C24_s [(true, 0%nat); (true, 3%nat)] = Fault (FAssert 99) /\
  reg_all K_cfg C24_s [(true, 4%nat)] = Fault (FAssert 99) /\
  reg_all K_cfg C24_s [(true, 0%nat); (false, 3%nat)] = Fault (FAssert 114) /\
  reg_all K_cfg C24_s [(false, 4%nat)] = Fault (FUB UB_bounds).
Proof. vm_compute. auto 10. Qed.

(** Terminating an active object with pending events leaves its bit in the ready
    set: the next turn of the scheduler dereferences NULL. *)
Theorem C24_terminate_pending_refuted : let s := c_s (K_at K_loop) in
  K_reach (K_at K_loop) /\ ao_view s 1 = [1000; 2000] /\
  match exec (sma_terminate K_cfg 1) s with
  | Ok (s', _, _) => exec (sched_once K_cfg) s' = Fault (FUB UB_null)
  | Fault _ => False end.
Proof.
  split; [apply K_reachable; vm_compute; reflexivity|]. split; vm_compute; reflexivity.
Qed.
Print Assumptions C24_terminate_pending_refuted.

(** *** C25 *)
(** A turn of the scheduler with something pending dispatches the front event of
    the non-empty queue whose object has the least priority number. *)
Theorem C25_highest_first : forall c mem0 statics prios dqs pools rs,
  sys_ok c mem0 statics prios dqs pools rs ->
  forall x o0, reachable c mem0 statics prios dqs pools x -> at_sched c x -> ao_view (c_s x) o0 <> [] ->
  exists o e w a s', ao_view (c_s x) o = e :: w /\ nth_error (k_ao (c_s x)) o = Some a /\
    (forall o' a', nth_error (k_ao (c_s x)) o' = Some a' -> ao_view (c_s x) o' <> [] -> ao_prio a <= ao_prio a') /\
    crun c statics x [ChGo; ChGo] =
      Ok (mkC s' (c_led x) [mkF false [LRef e] (User (UDispatch o e) (fwk_gc c e))]
           (c_log x ++ [EL (KSel o); EL (KGet o e); EU (UDispatch o e)])) /\
    (forall o', ao_view s' o' = if Nat.eqb o' o then w else ao_view (c_s x) o') /\
    (forall d, dq_view s' d = dq_view (c_s x) d) /\ pending (c_s x) = S (pending s').
Proof. exact sched_turn. Qed.
Print Assumptions C25_highest_first.

(** With nothing pending it calls the idle hook. *)
Theorem C25_idle : forall c mem0 statics prios dqs pools rs,
  sys_ok c mem0 statics prios dqs pools rs ->
  forall x, reachable c mem0 statics prios dqs pools x -> at_sched c x -> (forall o, ao_view (c_s x) o = []) ->
  crun c statics x [ChGo] =
    Ok (mkC (c_s x) (c_led x) [mkF false [] (User UIdle (Ret 0))] (c_log x ++ [EU UIdle])).
Proof. exact sched_idle. Qed.
Print Assumptions C25_idle.

Example C25_ex : K_reach (K_at K_loop) /\ at_sched K_cfg (K_at K_loop) /\
  map (ao_view (c_s (K_at K_loop))) [0; 1; 2]%nat = [[60; 1000; 50]; [1000; 2000]; []] /\
  K_reach (K_at (K_boot ++ go 2)) /\ at_sched K_cfg (K_at (K_boot ++ go 2)) /\
  map (ao_view (c_s (K_at (K_boot ++ go 2)))) [0; 1; 2]%nat = [[]; []; []].
Proof.
  split; [apply K_reachable; vm_compute; reflexivity|]. split; [vm_compute; reflexivity|]. split; [vm_compute; reflexivity|].
  split; [apply K_reachable; vm_compute; reflexivity|]. split; vm_compute; reflexivity.
Qed.

(** *** C26 *)
(** Replaying the log - accepted posts and dispatches, in the order they happened -
    never meets a dispatch of anything but the front event, and ends with the
    actual queue content. *)
Theorem C26_log_replays : forall c mem0 statics prios dqs pools rs,
  sys_ok c mem0 statics prios dqs pools rs ->
  forall x o, reachable c mem0 statics prios dqs pools x ->
  log_queue o (c_log x) = Some (ao_view (c_s x) o).
Proof. exact in_order. Qed.
Print Assumptions C26_log_replays.

(** Nothing is lost, duplicated or invented. *)
Theorem C26_exactly_once : forall c mem0 statics prios dqs pools rs,
  sys_ok c mem0 statics prios dqs pools rs ->
  forall x o, reachable c mem0 statics prios dqs pools x ->
  Permutation (accepted o (c_log x)) (dispatched o (c_log x) ++ ao_view (c_s x) o).
Proof. intros c mem0 statics prios dqs pools rs SO x o H. apply log_perm. eapply in_order; eassumption. Qed.
Print Assumptions C26_exactly_once.

(** A post to a registered object appends the event to its queue (LIFO: puts it in
    front), whoever else has what; with the queue full it asserts. *)
Theorem C26_post : forall c mem0 statics prios dqs pools rs,
  sys_ok c mem0 statics prios dqs pools rs ->
  forall x lifo o e a, reachable c mem0 statics prios dqs pools x -> let s := c_s x in let l := led_all x in
  live_evt statics s l e -> registered s o = true -> nth_error (k_ao s) o = Some a ->
  (length (ao_view s o) = q_nelems (ao_q a) ->
     exec (sma_post c lifo o e) s = Fault (FAssert (if lifo then 265 else 223)%nat)) /\
  ((length (ao_view s o) < q_nelems (ao_q a))%nat ->
   exists s', exec (sma_post c lifo o e) s = Ok (s', [KPut lifo o e], 0) /\
    (forall o', ao_view s' o' = if Nat.eqb o' o then (if lifo then e :: ao_view s o else ao_view s o ++ [e]) else ao_view s o') /\
    (forall d, dq_view s' d = dq_view s d) /\ k_sp s' = k_sp s /\ k_ch s' = k_ch s /\ k_ep s' = k_ep s).
Proof. exact post_effect. Qed.
Print Assumptions C26_post.
(** The posts of one timer tick: each object gets the events of its expired
    timers, in the order of the list. *)
Theorem C26_tick : forall c mem0 statics prios dqs pools rs,
  sys_ok c mem0 statics prios dqs pools rs ->
  forall x ps, reachable c mem0 statics prios dqs pools x -> let s := c_s x in let l := led_all x in
  (forall o e, In (o, e) ps -> registered s o = true /\ live_evt statics s l e) ->
  (forall o e, In (o, e) ps -> ao_room s o (length (filter (fun pe => Nat.eqb (fst pe) o) ps))) ->
  exists s', exec (tick_posts c ps) s = Ok (s', map (fun pe => KPut false (fst pe) (snd pe)) ps, 0) /\
    (forall o, ao_view s' o = ao_view s o ++ map snd (filter (fun pe => Nat.eqb (fst pe) o) ps)) /\
    (forall d, dq_view s' d = dq_view s d).
Proof. exact tick_effect. Qed.
Print Assumptions C26_tick.
Example C26_post_ex : let s := c_s (K_at K_turns) in
  (registered s 2, ao_view s 2, registered s 0, ao_view s 0) = (true, [60], true, [60; 1000; 50]) /\
  ao_room s 2 2 /\
  match exec (sma_post K_cfg true 2 2000) s, exec (tick_posts K_cfg [(2%nat, 50); (0%nat, 60); (2%nat, 60)]) s with
  | Ok (s1, _, _), Ok (s2, _, _) => ao_view s1 2 = [2000; 60] /\ map (ao_view s2) [0; 2]%nat = [[60; 1000; 50; 60]; [60; 50; 60]]
  | _, _ => False end /\
  exec (tick_posts K_cfg [(0%nat, 50); (0%nat, 60)]) s = Fault (FAssert 223).
Proof.
  cbv zeta. split; [vm_compute; reflexivity|]. split; [eexists; split; [vm_compute; reflexivity|vm_compute; lia]|].
  split; [vm_compute; split; reflexivity|vm_compute; reflexivity].
Qed.

(** With FIFO posts only: in posting order. *)
Theorem C26_posting_order : forall c mem0 statics prios dqs pools rs,
  sys_ok c mem0 statics prios dqs pools rs ->
  forall x o, reachable c mem0 statics prios dqs pools x -> no_lifo o (c_log x) ->
  accepted o (c_log x) = dispatched o (c_log x) ++ ao_view (c_s x) o.
Proof. intros c mem0 statics prios dqs pools rs SO x o H Hn. apply log_fifo; [exact Hn|]. eapply in_order; eassumption. Qed.
Print Assumptions C26_posting_order.

Example C26_ex : K_reach (K_at K_turns) /\ no_lifo 1 (c_log (K_at K_turns)) /\
  (accepted 1 (c_log (K_at K_turns)), dispatched 1 (c_log (K_at K_turns))) = ([1000; 2000], [1000; 2000]) /\
  (accepted 0 (c_log (K_at C19_chs)), dispatched 0 (c_log (K_at C19_chs))) =
    ([1000; 50; 60; 1000], [1000; 60; 1000; 50]).
Proof.
  split; [apply K_reachable; vm_compute; reflexivity|]. split; [|split; vm_compute; reflexivity].
  intros e He. vm_compute in He. repeat (destruct He as [He|He]; [discriminate|]). exact He.
Qed.

(** *** C27 *)
(** If application code stops posting, the scheduler reaches the idle hook after
    exactly as many dispatches as there were pending events. *)
Theorem C27_drains : forall c mem0 statics prios dqs pools rs,
  sys_ok c mem0 statics prios dqs pools rs ->
  forall n x, reachable c mem0 statics prios dqs pools x -> at_sched c x -> pending (c_s x) = n ->
  exists k x' new, crun c statics x (repeat ChGo k) = Ok x' /\
    c_stk x' = [mkF false [] (User UIdle (Ret 0))] /\ c_log x' = c_log x ++ new ++ [EU UIdle] /\
    ~ In (EU UIdle) new /\ length (dispatches new) = n /\ (forall o, ao_view (c_s x') o = []).
Proof. exact drain. Qed.
Print Assumptions C27_drains.

Example C27_ex : K_reach (K_at K_loop) /\ at_sched K_cfg (K_at K_loop) /\ pending (c_s (K_at K_loop)) = 5%nat /\
  dispatches (c_log (K_at (K_loop ++ go 40))) = [(1%nat, 1000); (1%nat, 2000); (0%nat, 60); (0%nat, 1000); (0%nat, 50)].
Proof.
  split; [apply K_reachable; vm_compute; reflexivity|]. repeat split; vm_compute; reflexivity.
Qed.
