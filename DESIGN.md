# Formal model of RKH — design

Subject: `vortexmakes/RKH` (pinned commit), sources in `/repo/source`.  The code
is read as text only, never built.  Tool: Rocq/Coq 8.16.1, files under
`rocq/theories`, logical prefix `Verif`.

## 1. How the model is organised

For every module of the C sources:

- `M_*.v`: the model. Definitions only. Each definition cites the file and lines it models and says where it simplifies.
- `S_*.v`: specification vocabulary. Abstract states (lists, sets, windows, trees) and the drivers that run arbitrary lists of calls. Nothing here calls the model's own helpers where the claim could become circular.
- `L_*.v`: lemmas.
- `P_*.v`: the property theorems (`Cnn_...`), beside each an `Example` that meets its hypotheses, and `Print Assumptions`.

Every operation is a total function into an outcome type

    res A = Ok a | Fault f        f = assertion site | undefined behaviour | out of fuel

`FAssert n` is what `RKH_REQUIRE/RKH_ASSERT/RKH_ENSURE` at line `n` raise (only when
assertions are enabled in the modelled configuration). `FUB` is an access outside
an object, a NULL dereference, use of a recycled block, type confusion, or a
division by zero.
`FFuel` is a loop that has not ended in the number of rounds allowed; it never
stands for an answer of the code. Totality never hides an error: array accesses
use `nth_error`/`upd` and produce `FUB` when out of range. Machine integers are
`N`/`nat` with the C width made explicit by `mod 2^8`, `2^16`, `2^32` where the
code can wrap.

Client rules are put into drivers, not into hypotheses about states: a driver
keeps a ledger of what the application owns and does not issue a call the
documentation forbids. Theorems then quantify over all lists of calls.

| module | files | representation |
|---|---|---|
| bit tables, ready group | `M_BitTbl`, `*_RdyGrp` | the literal 256-entry table; `grp` byte and `tbl[8]` bytes |
| queue | `*_Queue` | storage array of pointers, `pin`/`pout` as slot numbers, `qty`, `nmin`, counters mod 2^16, optional owner |
| memory pool | `*_MemPool` | byte addresses; memory = map from address to word; in-band free list; client writes are an operation |
| timers | `*_Tmr`, `*_TmrSys` (with the kernel) | heap of timer records with `tnext` links and `thead`: a real linked list |
| trace stream, record, filter | `*_TrcStream`, `*_TrcRecord`, `*_TrcFilter` | ring buffer with `trcin/trcout/trcqty`; byte-wise encoder; literal filter tables |
| events, event pools, pub/sub, defer/recall, registry, scheduler | `M_Kernel`, `S_Kernel`, `L_K*`, `P_KExample`, `P_Kernel` | one kernel state composed of the models above; every call is a program of atoms (critical sections); a configuration is a stack of running calls, interrupts nest at any point between atoms |
| state machines | `M_Sm`, `S_Sm*`, `L_Sm*`, `P_SmExample`, `P_Sm*` | table of vertices; dispatcher with the C locals as a record; actions are recorded in a log; guards are an arbitrary function of that log and the event |
| state machines with static variables | `*_SmStat` | the static variables of `rkh_sm_dispatch` as a record passed from call to call; what an action does to it is a parameter |
| critical sections of the bare-metal ports | `*_Port` | instruction sequences of enter and exit; mask register and port variables; stack of task and handlers; an interrupt may be taken between any two instructions |
| a thread for each active object | `M_Threads`, `S_Threads`, `L_Threads`, `L_TRun`, `L_TProps`, `P_Threads` | kernel state of `M_Kernel`; list of threads, each with a stack of calls; one auto-reset event per object |

## 2. Plan per property

Shape: **R** refinement to an abstract machine, **I** invariant by induction over
operation lists, **A** algebraic law, **X** refutation by witness (finding).

- C01 R: abstract state = list; relation between (storage, pout, qty) and the list through modular indexing; induction on the operation list.
- C02 A: on every state related to a full list.
- C03, C04 I: history variable (list of fill levels / counts) in the specification, computed independently.
- C05 I over the kernel model: ready set ⇔ non-empty queue.
- C06 A + X.
- C07 A over `Z` arithmetic, wrap of the counter explicit.
- C08, C09, C10 I: invariant "the chain from `free` is a duplicate-free list of block addresses, disjoint from the owned set, together all blocks".
- C11 A (detection) + X (double put).
- C12 exhaustive evaluation over the genuinely finite domain (256 bytes).
- C13, C14 R to the set of priorities; byte-level facts are exhaustive over bytes, lifted to 8 bytes by reasoning.
- C15 R: set of (channel, priority) pairs computed from the call history.
- C16 A on the kernel model.
- C17–C19 I on the kernel model: `nref` = occurrences in queues + held references; recycled cells hold free-list links and any access to them as an event is `UB`, so absence of faults is use-after-free freedom.
- C20 I (frame).
- C21 A on the pool table.
- C22 X plus the exact modular law.
- C23 A/R on the kernel model.
- C24 R + X.
- C25 A, C26 I over executions with arbitrary handlers, C27 by induction on pending work.
- C28–C31 R: linked list ⇒ abstract list of (id, remaining, period), induction on ticks; C32 A; C33 A + X.
- C34, C35 R: stream ⇒ list of unread bytes.
- C36–C39 A: independent decoder, round trip by induction on records.
- C40, C41 R to a boolean function of ids, + X for the aliasing cases.
- C42–C51 on `M_Sm` against an independent specification of statecharts (ancestor chains, least common ancestor, default descent), + X where the code departs.
- C52 small-step version of the kernel operations split at critical-section boundaries with interrupt operations in between.
- C53 termination measure over vertex tables; X for the three ways a dispatch does not return.
- C54 invariant on the stack of frames: which frame may hold application code.
- C55 ghost trace of signals read from memory at post and dispatch; replay invariant on top of the queue invariant.
- C56 product of the kernel with one state machine per active object; simulation by the machine run alone.
- C57 frame clause in the kernel invariant.
- C58 product of the kernel with the timers; the timer theorems give the posts of each tick, the kernel invariant shows that they succeed.
- C59 counters along the log of allocations and returns; every atom changes them as its label says.
- C60 both configurations computed on flat machines, equality up to entries and exits without action; X for completion transitions and final states.
- C61 A over the conversion macros, joined with C28; X for the rates and widths that go wrong.
- C62 I along every execution, with an observer that notes each publish/subscribe call when its critical section runs; the order of the notes is the one the claim speaks of.
- C63 I over instruction-level executions: who holds the mask and what the port variables then contain; X for ColdFire with two levels and for the counting Cortex-M ports called with a mask set.
- C64 A: what transitions and arrivals the log of a dispatch can hold, and the code that goes with each; X for "not found means ignored".
- C65 A on top of C64: whose completion transition answers an arrival; X without the unguarded completion transitions it asks for.
- C66 I by rely and guarantee: what a thread holds stays true whatever the others do; X without the rules for threads.
- C67 I: a thread that found its queue empty is signalled by every later post; the drain is by induction on the queue.
- C68 R: dispatcher with shared static variables to the dispatcher with its own, for arbitrary contents; runs of several machines by induction; X: an action that initialises another machine.
- C69 I: the counters of a turn against the entries and exits in the log, by induction over the loops of the dispatcher.
- C70 A: from the order theorem of C43; the UML sets of exited and entered states are defined on the lists of enclosing states only.
- C71 as C66 and C67, with the semaphore as part of the invariant; the drain by induction on the pending events; dispatches after a stop by a potential of at most one; X for what a stop does not do.
- C72 I: what each step adds to the log is paid for by the running call (`L_KTrc.paid`), so that the numbers of records follow the blocks being allocated or returned; the figures then come from C04, C17 and C59. X for the record outside the section, the pool numbers and the byte.
- C73 A with the frames and the escaping of C36: the reader's buffer is the unescaped part of the bytes since the last flag (`L_TzParse.inv`). X for long frames and messages.
- C74 I: where the activation is determines where the thread may be (`L_Life.phase`); the drain by induction on the queue; dispatches after a termination by a potential of at most one. X for the races.
- C75 I on the invariant of C31: what was recorded so far replays to the linked list.
- C76 I: each client is in one of six phases and at most one START, use or DONE is about (`L_Shared.inv`); the waiting line is computed from the server's two queues; the way on by a decreasing measure of the work left. The turns run on the engine of `M_Sm` by computation. X for sizes and pauses. With 'p' a second invariant (`L_SharedP.jinv`): every client that waits has exactly one request in line or one START in its queue, and a busy server has an end, a pause or a client that will end before it.
- C77 A: two dispatches side by side whose arrays agree on the cells written so far (`L_SmArr.wrel`); whole executions by induction; X for an initial transition to a submachine itself.
- C78, C79 R to flat tables of the diagrams (`S_DemoSm.a_spec`, `s_spec`): a finite set of object states that contains the first one and is closed under all key codes, checked by computation on `M_Sm` (with C77 for the arrays), then induction over the sequence of keys. X for the key '-'.
- C80 R to a wall clock (`S_Blinky.clock`) and I: the timer is armed for the ticks that are left and no timeout is queued, or it is idle and exactly one is queued; then arithmetic for the period. X for a queue full of ESC events.
- C81 I: what is left of the block and the unread bytes together are a stream of their own (`L_Flush.exact_`) as long as they fit; the end by a decreasing measure. X for blocks that are overtaken and for the loop without a section.
- C82 A: a record is a sequence of puts (`L_Link.do_rec_puts`), so C81 gives the bytes on the line, and C36 and C73 their meaning. X for a block that is overtaken.
- C83 I: an object may leave the registry only with an empty queue (`S_Kernel.stranded`), which keeps the invariant of C05 and C52. X for a subscriber.
- C84 I: what each atom does to the figures of each queue follows its labels (`L_KQStat.QS`); then induction over the log for the least room.
- C85 I: each machine follows the starts and signals of its own object (`L_AppTerm.told`); two machines side by side with the same histories and different states and logs (`L_SmLife.al`). X for a machine that is like new.

Nothing was inexpressible. `MANIFEST.json` names the theorems of each property.
A property whose full wording is false of the code is proved in the strongest
form found, and the false part is refuted by a theorem named `..._refuted`.

## 3. Trusted base

- Coq 8.16.1 kernel, including `vm_compute` (exhaustive byte-level facts and examples).
- `Print Assumptions` stands under every property theorem. All of them print "Closed under the global context": no axiom, neither of this development nor of the standard library, is used by any of them. (`coqchk -o` also lists `Coq.ssr.ssrunder.*`, standard library declarations that get loaded but are used by no theorem.)
- The transcription from C to Gallina, done by hand, cited line by line.

### Modelled (all functions of these files unless listed below)

Under `/repo/source`: `queue/src/rkhqueue.c`, `mempool/src/rkhmempool.c`,
`tmr/src/rkhtmr.c`, `trc/src/rkhtrc_stream.c`, `rkhtrc_record.c`,
`rkhtrc_filter.c`, `fwk/src/rkhfwk_bittbl.c`, `rkhfwk_rdygrp.c`,
`rkhfwk_dynevt.c`, `rkhfwk_evtpool.c`, `rkhfwk_pubsub.c`, `rkhfwk_sched.c` (one
turn of the cooperative loop), `sma/src/rkhsma.c`, `rkhsma_prio.c`,
`rkhsma_sync.c`, `sm/src/rkhsm.c` (hierarchical configuration with
pseudostates, history and submachines enabled; `M_SmFlat` is the configuration
without hierarchy and pseudostates), and the time conversion macros of
`fwk/inc/rkhitl.h`. Of the test harness, `third-party/unitrazer/tzparse.c` (C73). Of the demos,
`demo/cross/shared/server.c`, `client.c` and `main.c` (C76), `demo/80x86/ahsm/my.c` (C78) and
`demo/80x86/subm/my.c` (C79) with the key mapping of `bsp_ahsm.c`; `demo/cross/blinky/blinky.c` on the
engine without hierarchy and `demo/80x86/blinky/src/blinky.c` on the one with it (C80), and of
`demo/libbsp` the loops of `rkh_trc_flush` (C81).
`M_App` joins kernel and state
machines: what `rkh_sma_dispatch` and the call of `rkh_sm_init` in
`rkh_sma_activate` run, with the signal read from memory.

### Not modelled

- `rkhfwk_version.c`; `rkh_fwk_init`/`rkh_fwk_exit` and all hooks (they are empty or belong to the application).
- `rkh_sma_ctor`, `rkh_sm_ctor` (fill in constant tables), `rkh_smaPrio_*` (one-line wrappers of the ready group, which is modelled).
- Statistics getters and clearers of pools, timers and active objects (`..._get_info`, `..._clear_info`), `rkh_trc_filter_get`. The queue statistics are modelled (C04).
- `rkh_sm_else` is modelled as the guard name that always holds.
- The preprocessor variants of `rkhsm.c` with preprocessor functions (`RKH_CFG_SMA_PPRO_EN`) and without hierarchy but with choices or conditionals: neither compiles.
- Trace records of the state machine dispatcher except those of C69, and of initialisation, activation, registration, recall and subscriptions. `M_KTrc` models which figures the other records of kernel, queues and memory pools show (C72), `M_TmrTrc` those of the timers (C75); records have no effect on kernel state. Names of senders are left out. The smallest room of a queue (`nmin`) in its records is that of C84.
- The ports, except the critical sections of C63 and, of `80x86/win32_mt/vc/rkhport.c`, the loop of a thread, `rkh_sma_block` and `rkh_sma_setReady` (C66, C67), of that file, `ucos/v3.03.01/rkhport.c` and `arm-cortex/ksdk_os/ucosiii/kds/rkhport.c` the thread function, activation, termination, post and get of one active object (C74, with the operating system's queue as a list), and of `80x86/linux_st/gnu/rkhport.c` and `80x86/win32_st/vc/rkhport.c` all but the console and timer threads they start, `rkh_hook_exit` and `rkh_sma_terminate` (C71); the assembler, the C compiler, the time stamp source, the tools, and third-party code except `tzparse.c`.

### Simplifications to keep in mind

- In the thread model of C66 and C67 a thread may start at any time after its object is registered (the code starts it later, at the end of the activation), no object is terminated, and activations of several objects do not overlap.
- In the model of C71 the idle hook leaves the critical section and then waits, as the ports ask for; waiting can also be interrupted by a signal. The mutex and the semaphore are destroyed when `rkh_fwk_enter` returns; entering a section after that is undefined behaviour in the model. The thread that activates the objects and then calls `rkh_fwk_enter` is two threads in the model.
- Events are addresses with signal, pool number and reference counter. Payload writes are not modelled.
- In the kernel model a critical section is one step. C63 shows for the S08, Cortex-M and (with one interrupt level) ColdFire V1 ports that sections do keep activities apart and do nest; the other ports call a library (OSA, uC/OS, pthread recursive mutex, Win32) and are not modelled. Of the processors only interrupt levels and the mask are modelled, and that registers are preserved by handlers.
- The driver of executions does not take the step of `rkh_sma_terminate` that removes an object with pending events; C24 shows that this breaks the scheduler. In `M_TmrSys` an object with a running timer is not terminated, and C56 is about objects that never were (C85 is about all). The thread models (C66, C67, C71) have no terminations.
- The driver of executions does not issue a call that would take a reference counter beyond 255; C22 shows what happens then.
- In that driver a tick is a list of posts of static events. `M_TmrSys` (C58) joins it with the timer model: there the list is the one the timers make, and every function of the timer module is one step, as it is one critical section. Timers in it have no expiry function (`rkh_hook_timeout` of C33).
- `M_Sm` treats the static variables of `rkh_sm_dispatch` as locals. C68 shows that this is the same unless an action activates an object; events are not dispatched within another dispatch (C54). Actions do not call `rkh_sm_clear_history`. In `M_SmStat` `ix_x` does not wrap, as in `M_Sm`.
- In the model of the shared resource application (C76) queues are lists, a running one-shot timer may expire at any moment, an event goes back to the pool after the turn that consumes it unless the turn defers it, publishing PAUSE is one step, and TERM is left out.
- In the models of the ahsm and subm applications (C78, C79) a key is a turn: queue and event pool are left out, and `terminate` appears in the list of calls but does not end the run.
- In the model of blinky (C80) the functions that a dispatch calls run after it, in their order, and the queue is the list of the signals in it; ESC posts its event but the stop of the framework is not modelled.
- In the model of the flush (C81) a put of one byte and the taking of a block are each one step, the sending of each byte is one step, and there is one destination (the Windows package has two). In the model of the Linux loop each access to `trcout` and `trcqty` is a step, with the memory of one processor.
- In the model of C82 a whole record is put in one step, as its macros hold a critical section from begin to end, and the filters are left out: the steps are the records that pass them. The filter test itself lies outside that section.
- A transition table is the list of its entries up to the first `RKH_ANY`; the code sees nothing beyond it either.

## 4. Findings

"Proved" marks a finding that is a theorem; the others come from reading.

Queue
- `rkh_queue_read` assigns the event to its own parameter instead of to the place it points to, so nothing is delivered (proved, C06).
- With assertions off, a post to a full queue drops the event silently while the reference counter has been incremented: the event leaks. A get from an empty owned queue wraps `qty`.

Memory pool
- The 8-bit loop counter and the 8-bit block counter wrap: with 256 blocks or more blocks overlap or the count is 0 (proved, C07).
- Returning a block twice is not detected and hands the block to two owners (proved, C11).
- With 32-bit sizes, a block size of 65536 or more is cut by a 16-bit cast.

Timers
- Timers that expire at the same tick fire in reverse order of starting (proved, C32).
- A timer restarted from its own expiry function is skewed by a tick; stopping or restarting others there can dereference NULL or make the list cyclic (proved, C33).
- `rkh_tmr_init` called again forgets running timers but leaves them marked as running, so a later start does not link them and they never post (`C28_reinit_refuted`); the statistics counters are never updated; a start with 0 ticks wraps when assertions are off.
- `RKH_TIME_MS` rounds down, so a timer fires up to two ticks before the time asked for. Tick rates that do not divide 1000 are taken for faster ones, up to a factor of two; rates above 1000 Hz make every conversion divide by zero; small integer types wrap (all proved, C61).

Events and pools
- The reference counter is 8 bits without saturation: 256 references leak the event, 257 recycle it early (proved, C22).
- `rkh_evtPool_getBlockSize` answers in 8 bits, so a pool of 256-byte blocks never serves (proved, C21). The pool statistics are bytes too (proved, C59).
- A dynamic event that is never posted is not recycled by the garbage collector (proved, C19_gc_nothing).
- `rkh_dynEvt_init` clears only the first pool slot. The init functions of the event pools and publisher/subscriber tables are called by nothing in the framework.
- Recall needs, for a moment, one more reference than is held in the end. Its assertion on the counter relies on cooperative scheduling.

Active objects and scheduler
- `rkh_sma_unregister` at priority `RKH_CFG_FWK_MAX_SMA` reads outside the table (proved, C24).
- Terminating an object with pending events makes the scheduler dereference NULL (proved, C24). With none the termination is safe, but its subscriptions stay and the next publication asserts (proved, C83). A post after the termination, by hand or by a timer that still runs, is accepted, and the next scheduler turn dereferences NULL (proved, C83). An object activated again keeps the histories of its former life, and its old states are not exited (proved, C85).
- Between selecting an object and taking its event an interrupt may make a more urgent one ready; it is served in the next turn (this is why C25 speaks of the moment of selection).
- `rkh_pubsub_publish` checks no channel bound, counts the skipped sender, and asserts when a subscriber is no longer registered. An event without subscribers is recycled.
- With critical sections that do not nest, publish and tick would run unprotected after their first post.

Statistics
- The statistics of active objects, memory pools and timers are never counted: `get_info` and `clear_info` copy and clear structures that nothing else writes. Only the queues count (C04).
- With `RKH_CFG_SMA_GET_INFO_EN` the dispatcher names a member `hinfo` (`rkhsm.c`: 167-168) that no structure has, so that configuration does not compile.

Ports
- ColdFire V1 raises the nesting counter before it masks interrupts. A handler taken in between enters its section without masking, so a more urgent handler can enter its section inside it (proved, C63_coldfire_refuted).
- The Cortex-M ports with a counter set BASEPRI to 0 on the outermost exit, whatever it was before (proved, C63_cortex_restore_refuted); all the BASEPRI ports lower a mask that was stricter than their own. The arm_cm0 port uses BASEPRI, which a Cortex-M0 does not have.
- More than eight nested sections overrun the array of the S08 port (C63_ex_s08_deep).
- With a thread for each object, `rkh_sma_recall` called by another thread than the object's own asserts, and a dynamic event posted again after it was posted, without a reservation, is used after it was freed (both proved, C66). Both are fine in the cooperative kernel.
- win32_mt, ucos and KSDK create the thread of an object before they set what its loop tests (`thread`, `running`). If the new thread runs first it unregisters itself and ends, on win32_mt after an event that was already queued, on the others at once (proved, C74_early_start_refuted).
- `rkh_sma_terminate`: on win32_mt a thread that waits is not woken, and a call before the assignment of `thread` is overwritten; on ucos and KSDK it deletes the queue, so a thread that waits, and everybody who posts or terminates later, fails an assertion. Events still in the queue are never dispatched or given back (all proved, C74).
- From reading, linux_st and win32_st: the semaphore counts posts, so the loop wakes up as often as events were posted; the idle hook runs inside the critical section; the table of active objects is read outside of it.
- linux_st and win32_st: `rkhport_fwk_stop` does not wake the loop when it sleeps; the next event wakes it and is then not dispatched. A thread that posts after the loop ended uses a destroyed mutex. On win32_st a stop in the start hook is overwritten, on linux_st it is not (all proved, C71). `rkh_fwk_exit` stops the loop on win32_st but not on linux_st (from reading).
- The trace record of `rkh_sma_get` is made outside the critical section, so its counters may be those of a later state and contradict the record of the queue (proved, C72_get_interrupted_refuted). The same holds for the record of `rkh_fwk_ae`.

Trace
- The stream needs its size plus one to fit its counter type (proved at the boundary, C34). `rkh_trc_getWholeBlock` is documented to return the last bytes but returns the oldest ones.
- After an overrun a reader may resume in the middle of a frame; the checksum then decides (C36_overrun, C37).
- Filters: "all events" has the number of a unit test event; `RKH_TE_UT_FAIL` asserts; ids beyond a group's range switch events of the next group; the unit test query reads outside its table (all proved, C40). The bound check of symbol slots is off by one; slots are cut to 8 bits; "all signals" loops with an 8-bit index (all proved, C41).
- The pool number in a trace record is that of the header (from 1) for posts, gets and references given back, and one less for new and recycled events (proved, C72_one_pool_number_refuted). The number of blocks in use after a recycling is computed from a byte (proved, C72_recycle_256_refuted).
- The trace reader of the test harness tests its limit of 512 bytes with an 8-bit counter: longer frames overrun the buffer, frames of 256 bytes are passed over, others above 255 are judged by their first bytes; messages of 16 characters overrun `symstr` (all proved, C73).
- Group numbers above 8 switch all groups, or read outside the table of groups; "all groups" ignores the request to switch the events too (both proved, C40). The filter number of the trace events addresses the filter of the active objects (proved, C41).
- `rkh_trc_flush` sends the bytes of a block after its critical section; if the stream overruns meanwhile a byte is sent twice and out of order (proved, C81_torn_refuted), and a receiver can accept a record that was never written, in spite of the checksum (proved, C82_genuine_refuted). On Linux it takes the bytes outside of a critical section, after the idle hook has left it: a put between the read and the write of `trcqty` is not counted, and bytes stay behind (proved, C81_linux_refuted).

State machines
- The entry list is filled without a bound on creation and default entry (proved, C50_depth_checked_refuted). The depth check covers only the target chain of a transition and stops before any exit action (proved, C50_too_deep).
- A dispatch may not return: completion transitions in a cycle, a default child that is its own empty history, choice points in a cycle (all proved, C53).
- A transition between two states that share a submachine exits to the wrong parent (proved, C43_shared_submachine_refuted); a deep history inside a shared submachine does not restore the parent (proved, C48_shared_submachine_refuted). History memory is shared between the uses of a submachine.
- When a completion round fails (no branch holds), the state variable keeps its old value though actions have run (proved, C51_unchanged_refuted).
- Entering a nested final state without completion transition answers "event not found" though the event was processed (proved, C64_ignored_refuted).
- The completion transition of an ancestor fires when the state's own completion guard is false, and when a nested state is complete but has no completion transition (both proved, C65).
- In ports that are not re-entrant an action must not activate an active object: the nested dispatch shares its variables with the outer one (proved, C68).
- A default child that is the history of a nested composite state skips that state's entry action (proved, C43_default_history_refuted). A submachine state as default child or as initial state: the descriptor of the submachine is read as a state (proved, C50_submachine_default_refuted, C50_submachine_initial_refuted). Both are excluded by `wf_machine`.
- A full action list is reported even when the action to add is NULL. Branch search ignores NULL guards.
- A transition between nested states is never external: the outer one of source and target is neither left nor entered, and a local transition may leave less than in UML (proved, C70).
- A transition to the history of the region the machine is in goes to the substate before the present one, because the history is read before the exits (proved, C47_own_history_refuted). Both kinds of history remember a final state (proved, C47_final_refuted).
- Without hierarchy, completion transitions are never taken and a final state has a null transition table, so the next event dereferences NULL (both proved, C60).
- The configurations with preprocessor functions, and without hierarchy but with choices or conditionals, do not compile. `RKH_EXEC_EXIT` looks at the argument setting of entry actions instead of exit actions (`rkhitl.h`: 2356, 2378).

Demos
- `demo/cross/shared`: the server forgets in its pause that it was busy; with 'p' pressed twice two clients can use the resource at once, or one client pauses when the others resume (both proved, C76). On a 64 bit machine REQ and START share a pool of four blocks, which is just enough for four clients under the native scheduler and not enough where clients may run before the server; the server's queue of four then overflows too (all proved, C76).
- `bsp_ahsm.c` turns any key into the signal `key - '0'` of 8 bits: '-' is 253, the creation event of the framework, so that pressing it makes the machine start again without leaving its states (proved, C78_minus_refuted). '.' and '/' are 254 and 255, the completion event and `RKH_ANY`; these are ignored there.

## 5. Tests of the theorems

`tools/mutate.py` applies hand-written wrong edits to the model in a scratch
copy and reports which theorems fail; its results are in `seeded/LOG.jsonl`.
`tools/automut.py` generates edits (comparison, constant, branch, dropped
update) for every definition of a model file and lists the survivors. A survivor
is either shown to be no change of behaviour or leads to a stronger theorem; both
are recorded in `seeded/LOG.jsonl`.
