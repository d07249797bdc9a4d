(** Specification vocabulary for the kernel: what is in the queues, who holds
    which event, an application that obeys the ownership rules of events, and
    all interleavings of its tasks and interrupts. *)
From Verif Require Import Base M_RdyGrp M_Queue M_MemPool S_MemPool M_Kernel.
Local Open Scope N_scope.

(** *** Contents of queues *)
(** The pending events of a queue, next one first. *)
Definition q_view (q : queue N) : list N :=
  map (fun i => match nth_error (q_sto q) ((q_pout q + i) mod q_nelems q)%nat with
                | Some (Some e) => e
                | _ => 0
                end) (seq 0 (q_qty q)).
Definition ao_view (s : kst) (o : nat) : list N :=
  match nth_error (k_ao s) o with Some a => q_view (ao_q a) | None => [] end.
Definition dq_view (s : kst) (d : nat) : list N :=
  match nth_error (k_dq s) d with Some q => q_view q | None => [] end.
(** Every pending event, once for each time it is pending. *)
Definition all_queued (s : kst) : list N :=
  concat (map (fun a => q_view (ao_q a)) (k_ao s)) ++ concat (map q_view (k_dq s)).

Definition registered (s : kst) (o : nat) : bool :=
  match nth_error (k_ao s) o with
  | Some a => match nth_error (k_sp s) (N.to_nat (ao_prio a)) with
              | Some (Some o') => Nat.eqb o o'
              | _ => false
              end
  | None => false
  end.

(** *** Who holds what *)
(** Rights: a block just taken from a pool; an event not posted yet; one
    counted reference; a block about to be returned.
    Evidence, true while nobody else runs at task level: [e] is in use; [o] was
    chosen by the scheduler; [o] is registered; [o] may be activated; its queue
    is initialised. *)
Inductive litem :=
| LRaw (i : nat) (a : N) | LFresh (a : N) | LRef (a : N) | LDead (i : nat) (a : N)
| LLive (e : N) | LSel (o : nat) | LReg (o : nat) | LAct (o : nat) | LActd (o : nat).
Definition litem_dec (x y : litem) : {x = y} + {x <> y}.
Proof. decide equality; solve [apply N.eq_dec | apply Nat.eq_dec]. Defined.
Definition cnt (l : list litem) (x : litem) : nat := count_occ litem_dec l x.
Definition has (l : list litem) (x : litem) : bool := if in_dec litem_dec x l then true else false.
Fixpoint rem1 (x : litem) (l : list litem) : list litem :=
  match l with [] => [] | y :: t => if litem_dec x y then t else y :: rem1 x t end.
Definition is_right (x : litem) : bool :=
  match x with LRaw _ _ | LFresh _ | LRef _ | LDead _ _ => true | _ => false end.

(** How a ledger follows what an atom reports. *)
Definition led_step (l : list litem) (x : klab) : list litem :=
  match x with
  | KAlloc i a => LRaw i a :: l
  | KStamp i a => LFresh a :: rem1 (LRaw i a) l
  | KPut _ _ e | KDefer _ e => LLive e :: rem1 (LFresh e) l
  | KGet _ e => LRef e :: filter is_right l
  | KUndefer _ e => LRef e :: filter (fun x => match x with LLive _ => false | _ => true end) l
  | KInc e => LRef e :: rem1 (LFresh e) l
  | KDec e => rem1 (LRef e) l
  | KDead i e => LDead i e :: rem1 (LRef e) l
  | KFree i e => rem1 (LDead i e) l
  | KSel o => LSel o :: l
  | KInit o => LActd o :: l
  | KReg _ | KOff _ => filter is_right l
  end.

(** References to [e]: its places in queues and the counted ones outside. *)
Definition holders (s : kst) (l : list litem) (e : N) : nat :=
  (count_occ N.eq_dec (all_queued s) e + cnt l (LRef e))%nat.

(** *** Executions *)
Record frame := mkF { f_isr : bool; f_led : list litem; f_p : prog }.
Inductive entry := EL (l : klab) | EU (u : ucode).
Record conf := mkC {
  c_s : kst;
  c_led : list litem;        (* held by the application *)
  c_stk : list frame;        (* running call on top *)
  c_log : list entry }.
Definition led_all (x : conf) : list litem := concat (map f_led (c_stk x)) ++ c_led x.

(** The static events: address and signal. *)
Section Drive.
Context (c : kcfg) (statics : list (N * N)).

Definition is_static (e : N) : bool := existsb (fun x => fst x =? e) statics.

Definition op_evt (op : kop) : option N :=
  match op with
  | OGc e | OReserve e | OPost _ _ e | OPublish _ e _ | ODefer _ e => Some e
  | _ => None
  end.
Definition is_gc (op : kop) : bool := match op with OGc _ => true | _ => false end.

(** May the application use event [e] in a call, and what does it hand over?
    A static event: always.  An event it allocated and has not posted yet, or a
    reference it holds: yes, and the call works on that.  Without any of those
    it may still pass (but not release) an event that is in use: the one being
    dispatched by a caller further down the stack, or one waiting in a queue. *)
Definition grab_evt (s : kst) (l lower : list litem) (gc : bool) (e : N)
  : option (list litem * list litem) :=
  if is_static e then Some ([], l)
  else if has l (LFresh e) then Some ([LFresh e], rem1 (LFresh e) l)
  else if has l (LRef e) then Some ([LRef e], rem1 (LRef e) l)
  else if gc then None
  else if has lower (LRef e) || existsb (N.eqb e) (all_queued s) then Some ([LLive e], l)
  else None.

Definition ao_in_range (s : kst) (o : nat) : bool :=
  match nth_error (k_ao s) o with Some a => ao_prio a <? max_sma (q_rg (k_qc c)) | None => false end.
Definition ch_ok (ch : N) : bool := (ch <? N.of_nat (k_maxch c)) && (ch <? 256).

(** The other rules of a call: post and recall to registered active objects;
    existing channels, deferral queues and active objects; recall, activate and
    terminate at task level only; an active object is activated with storage of
    the given size, at a free priority; only a registered one is terminated; timers
    carry static events and have a registered active object. *)
Definition op_ok (s : kst) (isr : bool) (op : kop) : option (list litem) :=
  match op with
  | OAe _ _ | OGc _ | OReserve _ => Some []
  | OPost _ o _ => if registered s o then Some [LReg o] else None
  | OPublish ch _ _ => if ch_ok ch then Some [] else None
  | OSub ch o | OUnsub ch o => if ch_ok ch && ao_in_range s o then Some [] else None
  | OUnsubAll o => if ao_in_range s o then Some [] else None
  | ODefer d _ => if (d <? length (k_dq s))%nat then Some [] else None
  | ORecall o d => if negb isr && registered s o && (d <? length (k_dq s))%nat then Some [LReg o] else None
  | OActivate o qs n =>
      if negb isr && ao_in_range s o && (0 <? n)%nat && (n <=? length qs)%nat &&
         match nth_error (k_ao s) o with
         | Some a => match nth_error (k_sp s) (N.to_nat (ao_prio a)) with Some None => true | _ => false end
         | None => false
         end
      then Some [LAct o] else None
  | OTick ps =>
      if forallb (fun pe => registered s (fst pe) && is_static (snd pe)) ps
      then Some (map (fun pe => LReg (fst pe)) ps) else None
  | OTerm o => if negb isr && registered s o then Some [LReg o] else None
  end.

Definition grab (s : kst) (l lower : list litem) (isr : bool) (op : kop)
  : option (list litem * list litem) :=
  match op_ok s isr op with
  | None => None
  | Some ev =>
    match op_evt op with
    | None => Some (ev, l)
    | Some e => match grab_evt s l lower (is_gc op) e with
                | Some (mine, l') => Some (mine ++ ev, l')
                | None => None
                end
    end
  end.

(** More than 255 references to one dynamic event. *)
Definition over (s : kst) (l : list litem) : bool :=
  existsb (fun e => negb (is_static e) && (255 <? holders s l e)%nat)
    (all_queued s ++ concat (map (fun x => match x with LRef e => [e] | _ => [] end) l)).

(** An object that is not registered and has pending events. *)
Definition stranded (s : kst) : bool :=
  existsb (fun o => negb (registered s o) && match ao_view s o with [] => false | _ => true end)
    (seq 0 (length (k_ao s))).

Inductive choice := ChGo | ChCall (op : kop) | ChIrq.

Definition user_of (p : prog) : list entry := match p with User u _ => [EU u] | _ => [] end.

(** One step.  [ChGo]: the running call goes on to its next atom, returns, or the
    application code it runs ends.  [ChCall]: application code makes a call, if
    the rules allow it.  [ChIrq]: an interrupt occurs.  A step that would bring
    an event to more than 255 references, or take an object with pending events
    out of the registry, is not taken.  When everything returned, the scheduler
    loop goes on.  What a call still holds when it returns belongs to the
    application (references to static events do not count). *)
Definition cstep (x : conf) (ch : choice) : res conf :=
  match ch, c_stk x with
  | ChIrq, stk => Ok (mkC (c_s x) (c_led x) (mkF true [] (User UIsr (Ret 0)) :: stk) (c_log x))
  | ChCall op, top :: stk =>
      match f_p top with
      | User _ _ =>
        match grab (c_s x) (c_led x) (concat (map f_led (c_stk x))) (f_isr top) op with
        | Some (mine, l') => Ok (mkC (c_s x) l' (mkF (f_isr top) mine (api c op) :: c_stk x) (c_log x))
        | None => Ok x
        end
      | _ => Ok x
      end
  | ChGo, top :: stk =>
      match f_p top with
      | User _ k => Ok (mkC (c_s x) (c_led x) (mkF (f_isr top) (f_led top) k :: stk) (c_log x ++ user_of k))
      | Ret _ =>
          let l := filter (fun y => is_right y && negb (match y with LRef e => is_static e | _ => false end))
                     (f_led top) ++ c_led x in
          match stk with
          | [] => Ok (mkC (c_s x) l [mkF false [] (sched_once c)] (c_log x))
          | _ => Ok (mkC (c_s x) l stk (c_log x))
          end
      | Atom f =>
          match f (c_s x) with
          | Fault e => Fault e
          | Ok (s', labs, p') =>
              let led' := fold_left led_step labs (f_led top) in
              if over s' (led' ++ concat (map f_led stk) ++ c_led x) || stranded s' then Ok x
              else Ok (mkC s' (c_led x) (mkF (f_isr top) led' p' :: stk)
                           (c_log x ++ map EL labs ++ user_of p'))
          end
      end
  | _, [] => Ok x
  end.

Fixpoint crun (x : conf) (chs : list choice) : res conf :=
  match chs with [] => Ok x | ch :: t => do x' <- cstep x ch; crun x' t end.

(** main(): pools registered, nothing held; application code runs before
    rkh_fwk_enter. *)
Definition conf0 (s : kst) : conf := mkC s [] [mkF false [] (User UMain (Ret 0))] [].
End Drive.

(** *** Configurations *)
(** Event pools: usable storage for rkh_memPool_init with no counter wrapping
    ([r] is the rounded block size) and sizes that survive the conversions on
    the way (rkhfwk_dynevt.c: 163, rkhfwk_evtpool.c: 107-108). *)
Definition pool_ok (c : kcfg) (m : @mem cell) (p : N * N * N) (r : N) : Prop :=
  match p with (sstart, ssize, esize) =>
    mp_args_ok (k_mp c) sstart ssize esize r /\ mapped m sstart ssize /\
    ssize / r < nb_mod (k_mp c) /\ esize < k_es_mod c /\ esize < bs_mod (k_mp c)
  end.
Definition pool_blocks (p : N * N * N) (r : N) : list N :=
  match p with (sstart, ssize, _) => blocks sstart r (N.to_nat (ssize / r)) end.

Record sys_ok (c : kcfg) (mem0 : @mem cell) (statics : list (N * N)) (prios : list N)
    (dqs : list (list (option N) * nat)) (pools : list (N * N * N)) (rs : list N) : Prop := {
  so_asrt : q_asrt (k_qc c) = true;
  so_max : 1 <= max_sma (q_rg (k_qc c)) <= 64;
  so_mp : mp_cfg_ok (k_mp c);
  so_len : length rs = length pools;
  so_npool : (length pools <= k_maxpool c <= 255)%nat;
  so_pool : forall i p r, nth_error pools i = Some p -> nth_error rs i = Some r -> pool_ok c mem0 p r;
  (* storage areas do not overlap, nor contain static events *)
  so_disj : forall i j a b n a' b' n', nth_error pools i = Some (a, n, b) ->
      nth_error pools j = Some (a', n', b') -> i <> j -> a + n <= a' \/ a' + n' <= a;
  so_static : forall e sig, In (e, sig) statics -> e <> 0 /\ mem0 e = Some (CEvt sig 0 0) /\
      forall i a n b, nth_error pools i = Some (a, n, b) -> e < a \/ a + n <= e;
  so_static1 : forall e sig sig', In (e, sig) statics -> In (e, sig') statics -> sig = sig';
  so_prios : forall i p, nth_error prios i = Some p -> p < 256;
  so_dq : forall sto n, In (sto, n) dqs -> (0 < n <= length sto)%nat }.

(** The system after start-up. *)
Definition start (c : kcfg) (mem0 : @mem cell) (prios : list N)
    (dqs : list (list (option N) * nat)) (pools : list (N * N * N)) : res kst :=
  boot c (kst0 c mem0 prios dqs) pools.

(** Assertions an application can still run into: a queue without room
    (rkhqueue.c: 223, 265), no pool for the size or an exhausted one
    (rkhfwk_dynevt.c: 142, 144), a subscriber that is not registered
    (rkhfwk_pubsub.c: 168). *)
Definition resource_fault (f : fault) : Prop :=
  In f [FAssert 223; FAssert 265; FAssert 142; FAssert 144; FAssert 168].

(** A block on the free list of a pool. *)
Inductive on_free_list (m : @mem cell) : N -> N -> Prop :=
| fl_here a : a <> 0 -> on_free_list m a a
| fl_next a n x : a <> 0 -> m a = Some (CLink n) -> on_free_list m n x -> on_free_list m a x.

(** *** The log *)
(** Queue of [o] as implied by the log: posts append or prepend, a dispatch takes
    the front. [None]: a dispatch that is not of the front event. *)
Definition log_step (o : nat) (q : option (list N)) (x : entry) : option (list N) :=
  match q with
  | None => None
  | Some l =>
    match x with
    | EL (KPut lifo o' e) => if Nat.eqb o o' then Some (if lifo then e :: l else l ++ [e]) else q
    | EU (UDispatch o' e) =>
        if Nat.eqb o o' then match l with x :: t => if x =? e then Some t else None | [] => None end else q
    | _ => q
    end
  end.
Definition log_queue (o : nat) (log : list entry) : option (list N) :=
  fold_left (log_step o) log (Some []).
Definition dispatched (o : nat) (log : list entry) : list N :=
  concat (map (fun x => match x with EU (UDispatch o' e) => if Nat.eqb o o' then [e] else [] | _ => [] end) log).
Definition accepted (o : nat) (log : list entry) : list N :=
  concat (map (fun x => match x with EL (KPut _ o' e) => if Nat.eqb o o' then [e] else [] | _ => [] end) log).
Definition no_lifo (o : nat) (log : list entry) : Prop :=
  forall e, ~ In (EL (KPut true o e)) log.

(** *** Vocabulary of the theorems *)
(** A state of an execution that starts at reset. *)
Definition reachable (c : kcfg) (mem0 : @mem cell) (statics : list (N * N)) (prios : list N)
    (dqs : list (list (option N) * nat)) (pools : list (N * N * N)) (x : conf) : Prop :=
  exists s chs, start c mem0 prios dqs pools = Ok s /\ crun c statics (conf0 s) chs = Ok x.

(** Block [a] of the [i]th pool. *)
Definition block_of (pools : list (N * N * N)) (rs : list N) (i : nat) (a : N) : Prop :=
  exists p r, nth_error pools i = Some p /\ nth_error rs i = Some r /\ In a (pool_blocks p r).
Definition free_block (s : kst) (i : nat) (a : N) : Prop :=
  exists p, nth_error (k_ep s) i = Some p /\ on_free_list (k_mem s) (mp_free p) a.
(** Nobody has anything to do with block [a] of pool [i]. *)
Definition unused (s : kst) (l : list litem) (i : nat) (a : N) : bool :=
  (holders s l a =? 0)%nat && negb (has l (LFresh a)) && negb (has l (LRaw i a)) && negb (has l (LDead i a)).

(** The members of a ready group, as its traversal reports them. *)
Definition rg_list (g : rdygrp) : list N :=
  match rg_traverse g (fun p l => Ok (l ++ [p])) [] with Ok (_, l) => l | Fault _ => [] end.
Definition subscribers (s : kst) (ch : N) : list N :=
  match nth_error (k_ch s) (N.to_nat ch) with Some g => rg_list g | None => [] end.

(** An event that exists: static, allocated and not posted yet, or referenced. *)
Definition live_evt (statics : list (N * N)) (s : kst) (l : list litem) (e : N) : Prop :=
  is_static statics e = true \/ In (LFresh e) l \/ (0 < holders s l e)%nat.
(** Room for [k] more references to it, and for [k] more events in a queue. *)
Definition ref_room (statics : list (N * N)) (s : kst) (l : list litem) (e : N) (k : nat) : Prop :=
  is_static statics e = true \/ (holders s l e + k <= 255)%nat.
Definition ao_room (s : kst) (o : nat) (k : nat) : Prop :=
  exists a, nth_error (k_ao s) o = Some a /\ (length (ao_view s o) + k <= q_nelems (ao_q a))%nat.
Definition dq_room (s : kst) (d : nat) (k : nat) : Prop :=
  exists q, nth_error (k_dq s) d = Some q /\ (length (dq_view s d) + k <= q_nelems q)%nat.

(** The objects posted to, oldest first. *)
Definition posted (labs : list klab) : list nat :=
  concat (map (fun x => match x with KPut _ o _ => [o] | _ => [] end) labs).
Definition is_sender (sender : option nat) (o : nat) : bool :=
  match sender with Some o' => Nat.eqb o o' | None => false end.

(** Calls one after the other, without interrupts. *)
Fixpoint exec_all (c : kcfg) (s : kst) (ops : list kop) : res kst :=
  match ops with
  | [] => Ok s
  | op :: t => match exec (api c op) s with Ok (s', _, _) => exec_all c s' t | Fault f => Fault f end
  end.

(** Subscriptions as sets: the last call that concerns the channel and the
    priority decides. *)
Definition sub_rel (prios : list N) (op : kop) (ch p : N) : option bool :=
  let is o := match nth_error prios o with Some p' => p =? p' | None => false end in
  match op with
  | OSub ch' o => if (ch =? u8 ch') && is o then Some true else None
  | OUnsub ch' o => if (ch =? u8 ch') && is o then Some false else None
  | OUnsubAll o => if is o then Some false else None
  | _ => None
  end.
Fixpoint subscribed (prios : list N) (ops : list kop) (ch p : N) : bool :=
  match ops with
  | [] => false
  | op :: t =>
    if existsb (fun op' => match sub_rel prios op' ch p with Some _ => true | None => false end) t
    then subscribed prios t ch p
    else match sub_rel prios op ch p with Some b => b | None => false end
  end.

(** The registry as a finite map: [true] registers, [false] unregisters. *)
Definition reg_call (c : kcfg) (b : bool) (o : nat) : prog := if b then sma_register c o else sma_unregister c o.
Fixpoint reg_all (c : kcfg) (s : kst) (ops : list (bool * nat)) : res kst :=
  match ops with
  | [] => Ok s
  | (b, o) :: t => match exec (reg_call c b o) s with Ok (s', _, _) => reg_all c s' t | Fault f => Fault f end
  end.
Fixpoint reg_map (prios : list N) (ops : list (bool * nat)) (m : N -> option nat) : N -> option nat :=
  match ops with
  | [] => m
  | (b, o) :: t =>
    reg_map prios t (fun p => if match nth_error prios o with Some p' => p =? p' | None => false end
                              then (if b then Some o else None) else m p)
  end.

(** The events dispatched to anybody. *)
Definition dispatches (log : list entry) : list (nat * N) :=
  concat (map (fun x => match x with EU (UDispatch o e) => [(o, e)] | _ => [] end) log).
(** What waits in the queues of active objects. *)
Definition pending (s : kst) : nat := length (concat (map (fun a => q_view (ao_q a)) (k_ao s))).
