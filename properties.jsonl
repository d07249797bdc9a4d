{"id": "C01", "title": "Event queue behaves as a bounded double-ended list", "statement": "After rkh_queue_init with any non-zero number of elements, any sequence of rkh_queue_put_fifo, rkh_queue_put_lifo, rkh_queue_get, rkh_queue_deplete and query calls returns exactly what a plain list would return: put_fifo appends at the back, put_lifo pushes at the front, get removes and returns the front element or NULL when empty, deplete empties. No element is lost, duplicated, reordered or invented, and no slot outside the client storage is read or written, whatever garbage the storage initially holds.", "quantifier": "every queue size, every initial storage content and every finite sequence of calls (as long as the assertion on a full put is respected)", "why_tests_cant": "wrap-around of the two indices depends on the whole history and on the size; tests try one or two sizes and a few wraps", "anchors": ["source/queue/src/rkhqueue.c: rkh_queue_init, rkh_queue_get, rkh_queue_put_fifo, rkh_queue_put_lifo, rkh_queue_deplete, rkh_queue_is_full, rkh_queue_get_num"]}
{"id": "C02", "title": "Putting into a full queue never overwrites pending events", "statement": "A put on a queue that holds nelems elements raises the assertion when assertions are on; when they are compiled out, the call changes nothing but the nfull counter: all pending elements are still delivered in order and the new element is not.", "quantifier": "every queue size, every history leading to the full state, both put operations", "why_tests_cant": "the full state is reachable by unboundedly many histories with different index positions", "anchors": ["source/queue/src/rkhqueue.c: rkh_queue_put_fifo (216-255), rkh_queue_put_lifo (257-300)"]}
{"id": "C03", "title": "Queue low-water mark is the historical minimum of free entries", "statement": "rkh_queue_get_lwm returns the minimum, over all instants since rkh_queue_init, of the number of free entries (nelems minus number of queued elements).", "quantifier": "every queue size and every finite sequence of calls", "why_tests_cant": "a minimum over an unbounded history", "anchors": ["source/queue/src/rkhqueue.c: rkh_queue_get_lwm, rkh_queue_put_fifo, rkh_queue_put_lifo, rkh_queue_init"]}
{"id": "C04", "title": "Queue statistics count what happened", "statement": "The counters returned by rkh_queue_get_info equal, modulo 2^16, the number of successful puts, the number of successful gets, the number of gets that found the queue empty and (with assertions off) the number of rejected puts since rkh_queue_clear_info/initialisation.", "quantifier": "every finite sequence of calls", "why_tests_cant": "needs equality with a count over unbounded histories, including counter wrap", "anchors": ["source/queue/src/rkhqueue.c: RKH_QUE_INFO counters nputs/ngets/nempty/nfull"]}
{"id": "C05", "title": "An active object is ready exactly while its queue holds events", "statement": "For the native cooperative scheduler, after any history of posts to and gets from the queues of any number of active objects with distinct priorities, an active object is in the ready set if and only if its event queue is non-empty.", "quantifier": "every number of active objects up to 64, every queue size, every interleaving of posts and gets", "why_tests_cant": "a missed wake-up or a stale ready bit shows only under particular post/get interleavings", "anchors": ["source/queue/src/rkhqueue.c: rkh_queue_get, rkh_queue_put_fifo, rkh_queue_put_lifo", "source/sma/src/rkhsma_sync.c", "source/fwk/src/rkhfwk_rdygrp.c"]}
{"id": "C06", "title": "rkh_queue_read neither removes nor delivers", "statement": "rkh_queue_read never changes the queue and returns RKH_QUE_EMPTY exactly when the queue is empty; contrary to its documentation it never stores the element in the caller's buffer (the pointer it assigns is its own parameter).", "quantifier": "every queue state and every caller buffer", "why_tests_cant": "absence of an effect on every state", "anchors": ["source/queue/src/rkhqueue.c: rkh_queue_read (321-343)", "source/queue/inc/rkhqueue.h: rkh_queue_read"]}
{"id": "C07", "title": "Memory pool carves disjoint blocks inside the storage", "statement": "rkh_memPool_init with a storage of ssize bytes and a block size that passes its assertion yields floor(ssize / rounded size) blocks, where the rounded size is the least multiple of the pointer size not below the request; each block lies inside the storage, is pointer-aligned when the storage is, and distinct blocks do not overlap.", "quantifier": "every storage address, storage size, block size and pointer size, within the ranges of the configured integer types (wrap of the block counter included in the model)", "why_tests_cant": "arithmetic over the whole 8/16-bit range, including the wrap-around of the block counter", "anchors": ["source/mempool/src/rkhmempool.c: rkh_memPool_init (79-139)"]}
{"id": "C08", "title": "A memory pool never hands out a block that is already in use", "statement": "For any history of rkh_memPool_get, rkh_memPool_put of blocks currently owned by the client, and arbitrary client writes into owned blocks (which overwrite the in-band free-list links), every get returns either NULL or a block of the pool that is not currently owned, and the free list never leaves the pool.", "quantifier": "every pool size, every finite sequence of get/put/write operations, every written value", "why_tests_cant": "the free list is stored inside client-writable memory and depends on the whole history", "anchors": ["source/mempool/src/rkhmempool.c: rkh_memPool_get (141-174), rkh_memPool_put (176-201)"]}
{"id": "C09", "title": "Blocks are conserved and exhaustion is exact", "statement": "At any time the number of free blocks reported plus the number of blocks owned by the client equals the number of blocks of the pool; rkh_memPool_get returns NULL if and only if the client owns all of them.", "quantifier": "every pool and every finite sequence of get/put/write operations", "why_tests_cant": "conservation law over unbounded histories", "anchors": ["source/mempool/src/rkhmempool.c: rkh_memPool_get, rkh_memPool_put, rkh_memPool_get_nfree"]}
{"id": "C10", "title": "Memory pool low-water mark is the historical minimum of free blocks", "statement": "rkh_memPool_get_low_wmark returns the minimum of the free-block count over the history since initialisation.", "quantifier": "every pool and every finite sequence of operations", "why_tests_cant": "a minimum over an unbounded history", "anchors": ["source/mempool/src/rkhmempool.c: rkh_memPool_get_low_wmark, rkh_memPool_get"]}
{"id": "C11", "title": "What rkh_memPool_put can and cannot detect", "statement": "Putting an address outside the pool, or putting when no block is outstanding, raises an assertion; putting a block that is already free while other blocks are outstanding is not detected and makes the pool hand out the same block to two owners.", "quantifier": "every pool state (detection), existence of a history (non-detection)", "why_tests_cant": "detection must hold in all states; the undetected case needs a specific history", "anchors": ["source/mempool/src/rkhmempool.c: rkh_memPool_put (176-201)"]}
{"id": "C12", "title": "Bit tables compute powers of two and the least set bit", "statement": "rkh_bittbl_getBitMask(n) is 2^n for n<8 and 0xff otherwise; rkh_bittbl_getLeastBitSetPos(x) is the position of the least significant 1 bit for every non-zero byte x.", "quantifier": "all 256 bytes, all bit numbers", "why_tests_cant": "256-entry hand-written table; unit tests sample a few entries", "anchors": ["source/fwk/src/rkhfwk_bittbl.c"]}
{"id": "C13", "title": "The ready group is a set of priorities and finds its minimum", "statement": "After any sequence of rkh_rdygrp_setReady/setUnready with valid priorities, rkh_rdygrp_isReady is true iff some priority was set ready and not set unready since, and rkh_rdygrp_findHighest returns the least such priority (priority 0 is the highest).", "quantifier": "every configured number of active objects up to 64, every finite sequence of operations", "why_tests_cant": "2^64 group states", "anchors": ["source/fwk/src/rkhfwk_rdygrp.c: rkh_rdygrp_init, rkh_rdygrp_isReady, rkh_rdygrp_setReady, rkh_rdygrp_setUnready, rkh_rdygrp_findHighest"]}
{"id": "C14", "title": "Traversal visits every member once, highest priority first", "statement": "rkh_rdygrp_traverse calls the callback exactly once for each member of the group, in ascending priority number, returns the number of members, and leaves the group unchanged.", "quantifier": "every group content up to 64 priorities, every callback", "why_tests_cant": "2^64 group states", "anchors": ["source/fwk/src/rkhfwk_rdygrp.c: rkh_rdygrp_traverse (118-142)"]}
{"id": "C15", "title": "Subscriptions are independent sets per channel", "statement": "After any sequence of subscribe, unsubscribe and unsubscribeAll, an active object is a subscriber of a channel iff its last relevant call subscribed it; operations on one channel or one active object never affect another.", "quantifier": "every number of channels, every active object priority, every finite sequence of calls", "why_tests_cant": "frame property over unbounded histories", "anchors": ["source/fwk/src/rkhfwk_pubsub.c: rkh_pubsub_subscribe, rkh_pubsub_unsubscribe, rkh_pubsub_unsubscribeAll"]}
{"id": "C16", "title": "Publishing delivers exactly one reference to each subscriber but the sender", "statement": "rkh_pubsub_publish appends the event to the queue of every subscriber of the channel other than the sender, exactly once, in ascending priority number, touches no other queue, and returns the number of subscribers.", "quantifier": "every subscription state, every queue state with room, every sender", "why_tests_cant": "needs all subscriber sets and queue contents", "anchors": ["source/fwk/src/rkhfwk_pubsub.c: publish, rkh_pubsub_publish (163-194)"]}
{"id": "C17", "title": "The reference counter of a dynamic event equals the number of its holders", "statement": "In every state reachable through event allocation, post (FIFO/LIFO), publish, defer, recall, reserve, scheduler get and garbage collection, the counter of each allocated dynamic event equals the number of references to it held in event queues and deferral queues plus the references held by active objects (event being processed, reserved events), provided the queues plus holders can never exceed 255 references.", "quantifier": "every system configuration and every finite history of kernel operations", "why_tests_cant": "reference counts depend on global, interleaved histories", "anchors": ["source/fwk/src/rkhfwk_dynevt.c", "source/sma/src/rkhsma.c", "source/fwk/src/rkhfwk_pubsub.c", "source/fwk/src/rkhfwk_sched.c", "source/fwk/inc/rkhevt.h: RKH_INC_REF"]}
{"id": "C18", "title": "No use after free of dynamic events", "statement": "In every reachable state, every event referenced from a queue, a deferral queue or held by an active object is a live allocated block (or a static event): the kernel never reads or writes the header of a recycled event and never hands the block of a referenced event to a new allocation.", "quantifier": "every system configuration and every finite history of kernel operations", "why_tests_cant": "the premature-recycle bug only shows on specific orders of post/gc/alloc", "anchors": ["source/fwk/src/rkhfwk_dynevt.c: rkh_fwk_gc, rkh_fwk_ae", "source/mempool/src/rkhmempool.c"]}
{"id": "C19", "title": "A dynamic event is recycled exactly once, when its last reference is dropped", "statement": "rkh_fwk_gc on an event with one reference returns its block to the pool it came from (free count of that pool +1, all other pools unchanged); with more references it only decrements; once all queues are drained and all holders have released their references, every block of every pool that was ever posted is free again (no leaks).", "quantifier": "every reachable state, every finite history", "why_tests_cant": "leak freedom quantifies over all complete histories", "anchors": ["source/fwk/src/rkhfwk_dynevt.c: rkh_fwk_gc (85-114)", "source/fwk/src/rkhfwk_evtpool.c: rkh_evtPool_put"]}
{"id": "C20", "title": "Static events are never modified nor recycled", "statement": "No kernel operation changes the header of a static event (pool 0) or returns it to a pool; posting it any number of times is allowed.", "quantifier": "every finite history of kernel operations", "why_tests_cant": "frame property over all histories", "anchors": ["source/fwk/inc/rkhevt.h: RKH_INC_REF", "source/fwk/src/rkhfwk_dynevt.c: rkh_fwk_gc"]}
{"id": "C21", "title": "Event allocation picks the first registered pool that is large enough", "statement": "rkh_fwk_ae(size, sig) allocates from the first registered pool whose block size is at least the requested size, stamps the signal, zero reference count and a pool number from which gc finds the same pool again; it asserts when no pool is large enough and when the chosen pool is exhausted.", "quantifier": "every list of registered pools, every size and signal", "why_tests_cant": "first-fit over arbitrary pool configurations, including block sizes beyond 255", "anchors": ["source/fwk/src/rkhfwk_dynevt.c: rkh_fwk_ae (126-154)", "source/fwk/src/rkhfwk_evtpool.c: rkh_evtPool_getPool, rkh_evtPool_getBlockSize"]}
{"id": "C22", "title": "More than 255 references break reference counting", "statement": "The reference counter is an 8-bit number without saturation: with 256 references it reads 0 and the event is never recycled; with 257 references it reads 1 and the first garbage collection recycles the event while 256 references are outstanding.", "quantifier": "existence of a history; for every event state the increment is modulo 256", "why_tests_cant": "needs more references than any unit test creates", "anchors": ["source/fwk/inc/rkhevt.h: RKH_INC_REF", "source/fwk/src/rkhfwk_dynevt.c: rkh_fwk_gc"]}
{"id": "C23", "title": "Defer/recall moves the oldest deferred event to the front of the queue", "statement": "rkh_sma_recall removes the oldest event of the deferral queue and makes it the next event the active object will get; the reference counter is unchanged in total; with an empty deferral queue it returns NULL and changes nothing observable but the empty-get counter. Deferring n events and recalling n times delivers them in reverse recall order ahead of everything already queued.", "quantifier": "every deferral queue and event queue content with room", "why_tests_cant": "interplay of two queues and the counter over all histories", "anchors": ["source/sma/src/rkhsma.c: rkh_sma_defer, rkh_sma_recall (236-285)"]}
{"id": "C24", "title": "Active object registry maps each priority to at most one object", "statement": "After any sequence of register/unregister calls that pass their assertions the table maps a priority to the object registered last and not unregistered since; registering at an occupied priority or beyond the lowest priority asserts; unregistering with priority equal to the table size reads one entry past the table.", "quantifier": "every table size, every finite sequence of calls", "why_tests_cant": "all histories; the off-by-one needs a specific priority", "anchors": ["source/sma/src/rkhsma.c: rkh_sma_register, rkh_sma_unregister (93-121)"]}
{"id": "C25", "title": "The scheduler always runs the highest-priority ready active object", "statement": "Each iteration of rkh_fwk_enter dispatches exactly one event: the front event of the non-empty queue whose active object has the least priority number; when all queues are empty it calls the idle hook and dispatches nothing.", "quantifier": "every reachable kernel state", "why_tests_cant": "all combinations of queue contents", "anchors": ["source/fwk/src/rkhfwk_sched.c: rkh_fwk_enter (105-141)"]}
{"id": "C26", "title": "Events are delivered to each active object exactly once and in posting order", "statement": "For any execution of the scheduler in which event handlers and interrupts post arbitrary events, the sequence of events dispatched to an active object followed by the content of its queue equals the sequence of events accepted for it (FIFO posts in order; LIFO posts jump ahead).", "quantifier": "every execution: every handler behaviour, every interleaving of posts", "why_tests_cant": "history property over unbounded executions", "anchors": ["source/fwk/src/rkhfwk_sched.c", "source/sma/src/rkhsma.c: rkh_sma_post_fifo, rkh_sma_post_lifo, rkh_sma_get"]}
{"id": "C27", "title": "The scheduler drains all pending work", "statement": "If handlers stop posting, the scheduler reaches the idle hook after exactly as many dispatches as there are pending events, whatever their distribution over active objects.", "quantifier": "every reachable kernel state", "why_tests_cant": "progress property over all states", "anchors": ["source/fwk/src/rkhfwk_sched.c: rkh_fwk_enter"]}
{"id": "C28", "title": "A one-shot timer expires exactly once, on the requested tick", "statement": "A timer started with itick=n>0 and period 0 posts its event exactly once, on the n-th call of rkh_tmr_tick after the start, and is stopped afterwards, whatever other timers are started, stopped or expire meanwhile (and unless it is itself restarted or stopped).", "quantifier": "every n within the type range, every set of other timers, every interleaving of start/stop/tick", "why_tests_cant": "unbounded time and arbitrary other timers in the shared list", "anchors": ["source/tmr/src/rkhtmr.c: rkh_tmr_start, rkh_tmr_tick"]}
{"id": "C29", "title": "A periodic timer keeps its period without drift", "statement": "A timer started with itick=n>0 and period p>0 posts its event on ticks n, n+p, n+2p, ... and on no other tick until stopped.", "quantifier": "every n and p in range, every k-th expiration, every behaviour of other timers", "why_tests_cant": "unbounded number of expirations", "anchors": ["source/tmr/src/rkhtmr.c: rkh_tmr_tick (127-170)"]}
{"id": "C30", "title": "A stopped timer is silent; stopping reports whether it was running", "statement": "After rkh_tmr_stop the timer never posts until started again; rkh_tmr_stop returns true iff the timer was in the running set; stopping or starting a timer never changes the remaining time of any other timer.", "quantifier": "every timer set state, every later history", "why_tests_cant": "frame and safety property over all histories", "anchors": ["source/tmr/src/rkhtmr.c: rkh_tmr_stop, rem_from_list, searchAndRemove"]}
{"id": "C31", "title": "The timer list stays well formed", "statement": "In every reachable state the linked list of running timers is acyclic, duplicate free and contains exactly the timers started and not since stopped or expired; restarting a running timer only changes its count.", "quantifier": "every finite sequence of init/start/stop/tick over any number of timers", "why_tests_cant": "linked-list shape depends on the whole history (delete while traversing)", "anchors": ["source/tmr/src/rkhtmr.c"]}
{"id": "C32", "title": "Order of simultaneous expirations", "statement": "Timers expiring on the same tick post in most-recently-linked-first order, i.e. the reverse of the order in which they were started; in particular two one-shot timers with equal counts started a then b post b before a.", "quantifier": "every list of timers", "why_tests_cant": "an ordering over arbitrary subsets of timers", "anchors": ["source/tmr/src/rkhtmr.c: rkh_tmr_start (head insertion), rkh_tmr_tick"]}
{"id": "C33", "title": "Hook restarting its own one-shot timer disturbs other timers", "statement": "If the expiration hook restarts its own one-shot timer, timers in front of it in the list are decremented twice on that tick and expire one tick early; if the hook does not touch the timer module every timer is decremented exactly once per tick.", "quantifier": "every list of timers (positive half), existence of a history (negative half)", "why_tests_cant": "re-entrancy during traversal", "anchors": ["source/tmr/src/rkhtmr.c: rkh_tmr_tick, RKH_EXEC_THOOK, rkh_tmr_start"]}
{"id": "C34", "title": "The trace stream keeps the most recent bytes", "statement": "After any sequence of bytes put into a trace stream of S bytes, the stream holds the last min(n,S) not-yet-read bytes in order; older bytes are dropped one by one; nothing outside the buffer is written. This needs S below the maximum of the configured counter type.", "quantifier": "every stream size, every byte sequence, every interleaving with reads", "why_tests_cant": "overflow behaviour over unbounded histories", "anchors": ["source/trc/src/rkhtrc_stream.c: rkh_trc_put, rkh_trc_init"]}
{"id": "C35", "title": "Block reads return the oldest bytes, contiguous and complete", "statement": "rkh_trc_get returns the oldest byte or NULL; rkh_trc_get_block returns a contiguous prefix of the unread bytes no longer than requested; rkh_trc_getWholeBlock copies exactly min(requested, available) oldest bytes in order into the destination; the bytes returned are exactly the ones removed.", "quantifier": "every stream state reachable, every requested size", "why_tests_cant": "wrap position times request size times fill level", "anchors": ["source/trc/src/rkhtrc_stream.c: rkh_trc_get, rkh_trc_get_block, rkh_trc_getWholeBlock"]}
{"id": "C36", "title": "Trace records can be decoded from the stream without ambiguity", "statement": "A receiver that splits the byte stream at flag bytes, removes the escaping and verifies the checksum recovers exactly the sequence of records written (event id, sequence number, payload bytes), for every payload content including flag and escape bytes.", "quantifier": "every sequence of records with arbitrary payload bytes that fits in the stream", "why_tests_cant": "all byte combinations in payload, checksum and sequence number", "anchors": ["source/trc/src/rkhtrc_record.c: rkh_trc_begin, rkh_trc_end, rkh_trc_u8"]}
{"id": "C37", "title": "Record checksum closes to zero", "statement": "The sum modulo 256 of all unescaped bytes of a record including its checksum byte is zero; any single-byte change of the unescaped record is detected.", "quantifier": "every record, every position, every changed value", "why_tests_cant": "all byte values at all positions", "anchors": ["source/trc/src/rkhtrc_record.c: rkh_trc_end, rkh_trc_u8"]}
{"id": "C38", "title": "Sequence numbers increase by one modulo 256", "statement": "Consecutive records carry consecutive sequence numbers modulo 256 starting from 0 after initialisation, so a receiver detects any loss of fewer than 256 consecutive records.", "quantifier": "every number of records", "why_tests_cant": "wrap of the counter", "anchors": ["source/trc/src/rkhtrc_record.c: rkh_trc_begin"]}
{"id": "C39", "title": "Multi-byte fields are little endian and lossless", "statement": "rkh_trc_u16/u32 and the formatted variants emit bytes from which the value is recovered exactly (value reduced modulo the width), least significant byte first; formatted strings and memory dumps carry the exact bytes with their length or terminator.", "quantifier": "every 8/16/32-bit value, every string and memory block (length below 256)", "why_tests_cant": "2^32 values", "anchors": ["source/trc/src/rkhtrc_record.c: rkh_trc_u16, rkh_trc_u32, rkh_trc_fmt_u8, rkh_trc_fmt_u16, rkh_trc_fmt_u32, rkh_trc_fmt_str, rkh_trc_fmt_mem"]}
{"id": "C40", "title": "Trace filters are independent switches", "statement": "After any sequence of group and event filter operations with valid arguments, a record is emitted iff its group filter and its event filter are both on; changing the filter of one event does not change that of another event whose number is inside its group's range.", "quantifier": "every finite sequence of filter operations, every event id", "why_tests_cant": "bit-packed table with shared bytes; all pairs of events", "anchors": ["source/trc/src/rkhtrc_filter.c: rkh_trc_filter_group_, rkh_trc_filter_event_, rkh_trc_isoff_"]}
{"id": "C41", "title": "Symbol filters behave as independent switches only for the first 256 slots", "statement": "For slots below 256 rkh_trc_symFil switches exactly the addressed slot (or all) and rkh_trc_symFil_isoff reports it; for slots of 256 and above the query looks at slot modulo 256, and the bounds assertion lets one slot past the table through.", "quantifier": "every table size and slot (positive half), existence (negative half)", "why_tests_cant": "needs large signal numbers and bit-level aliasing", "anchors": ["source/trc/src/rkhtrc_filter.c: rkh_trc_symFil, rkh_trc_symFil_isoff, setOneFilter, isOffFilter"]}
{"id": "C42", "title": "The innermost enabled transition is taken", "statement": "rkh_sm_dispatch takes the first transition, in table order, of the innermost active state that has a transition for the event signal with a true (or absent) guard; outer states are searched only if no inner state has one; if none exists it returns RKH_EVT_NFOUND with the active state, histories and user data untouched apart from guard evaluations.", "quantifier": "every state machine, every active state, every event, every guard behaviour", "why_tests_cant": "all hierarchies and tables", "anchors": ["source/sm/src/rkhsm.c: FIND_TRN, rkh_sm_dispatch stage 2 (459-507)"]}
{"id": "C43", "title": "Exit, transition and entry actions run in statechart order", "statement": "On a transition, exit actions run from the active state up to (not including) the innermost state that is or contains both the active state and the target, then the transition actions in path order, then the entry actions from below that state down to the target, then the default transitions of the target down to a leaf state, each exactly once; a transition from the active state to itself exits and enters it. When each submachine is used once, replaying exits and entries always gives the active configuration.", "quantifier": "every hierarchy depth within the configured maximum, every source/target pair, every transition path", "why_tests_cant": "all trees and all pairs", "anchors": ["source/sm/src/rkhsm.c: EXEC_EXIT_ACTION, addTargetSt, EXEC_ENTRY_ACTION, rkh_sm_dispatch stages 4-6"]}
{"id": "C44", "title": "The state machine always rests in a leaf state", "statement": "After initialisation and after every processed event the active state is a basic or final state of the machine, never a composite or pseudostate.", "quantifier": "every well-formed machine, every event sequence, every guard/action behaviour", "why_tests_cant": "run-to-completion invariant over all event histories", "anchors": ["source/sm/src/rkhsm.c: rkh_sm_init, rkh_sm_dispatch stages 6-8"]}
{"id": "C45", "title": "Internal transitions only run their action", "statement": "When the selected transition is internal, its action runs once and neither exit nor entry actions run; the active state and all histories are unchanged.", "quantifier": "every machine, state and event", "why_tests_cant": "all machines", "anchors": ["source/sm/src/rkhsm.c: RKH_EXEC_ACTION for internal transitions (stage 2)"]}
{"id": "C46", "title": "Choice and junction take the first true branch", "statement": "A choice or junction pseudostate takes the first branch, in table order, whose guard holds (the else branch always holds); at a junction all guards are evaluated before any action of the path runs, at a choice the actions of the path so far run first; if no branch holds the dispatch returns RKH_CND_NFOUND and the active state is unchanged.", "quantifier": "every branch table, every guard behaviour, every chain of pseudostates", "why_tests_cant": "all guard outcomes on all chains", "anchors": ["source/sm/src/rkhsm.c: stage 3 (539-577), FIND_BRANCH, rkh_sm_else"]}
{"id": "C47", "title": "Shallow history remembers the last active direct substate", "statement": "Entering a shallow history of a region returns to the direct substate of the region that was active when the region was last exited, or follows the default when it was never exited since initialisation.", "quantifier": "every machine and event history", "why_tests_cant": "depends on the full history of exits", "anchors": ["source/sm/src/rkhsm.c: UPDATE_SHALLOW_HIST, RKH_SHISTORY case"]}
{"id": "C48", "title": "Deep history remembers the last active leaf", "statement": "Entering a deep history of a region re-enters the innermost state that was active when the region was last active, also inside a submachine used in the region, provided no submachine is used by two submachine states.", "quantifier": "every machine and event history", "why_tests_cant": "depends on the full history", "anchors": ["source/sm/src/rkhsm.c: rkh_update_deep_hist, RKH_DHISTORY case"]}
{"id": "C49", "title": "Completion transitions fire without an event", "statement": "When the machine arrives at a simple or final state, the enabled completion transition of the state (or of the region it completes) fires in the same run-to-completion step.", "quantifier": "every machine, event and guard behaviour", "why_tests_cant": "all machines", "anchors": ["source/sm/src/rkhsm.c: findCompletionTrn, isCompletionTrn, rkh_sm_dispatch loop (754-756)"]}
{"id": "C50", "title": "Transition segment and hierarchy limits are enforced without memory errors", "statement": "A compound transition with more segments than RKH_CFG_SM_MAX_TRC_SEGS returns RKH_EX_TSEG, never writing past the action list; when every state of a well-formed machine is nested at most RKH_CFG_SM_MAX_HCAL_DEPTH deep no operation sequence overruns the entry list or follows a bad pointer; a transition to a deeper target returns RKH_EX_HLEVEL before any exit action, but an initial (or default) transition to a deeper state writes past the list.", "quantifier": "every machine, every limit", "why_tests_cant": "memory safety for all machines", "anchors": ["source/sm/src/rkhsm.c: rkh_add_tr_action, addTargetSt, stage 4"]}
{"id": "C51", "title": "The active state after a dispatch is the last one arrived at", "statement": "Whatever code rkh_sm_dispatch returns, the active state is the last leaf state the dispatch arrived at, and the one before the call when it arrived at none (so an error in the first step leaves it unchanged); it is not true that a code other than RKH_EVT_PROC means an unchanged state.", "quantifier": "every machine, event and guard behaviour", "why_tests_cant": "all error paths", "anchors": ["source/sm/src/rkhsm.c: rkh_sm_dispatch"]}
{"id": "C52", "title": "Interrupts posting at any point do not corrupt the kernel", "statement": "With interrupts disabled only in the critical sections the code uses, an interrupt that posts events, ticks timers or publishes between any two critical sections of a kernel operation leaves all of the above invariants intact (reference counts, ready set, queue contents).", "quantifier": "every interleaving of interrupt-level operations with the non-atomic steps of task-level operations", "why_tests_cant": "exponentially many interleavings", "anchors": ["source/fwk/src/rkhfwk_dynevt.c: rkh_fwk_gc", "source/fwk/src/rkhfwk_pubsub.c: rkh_pubsub_publish", "source/sma/src/rkhsma.c: rkh_sma_recall", "source/fwk/src/rkhfwk_sched.c"]}
{"id": "C53", "title": "A dispatch returns", "statement": "rkh_sm_init and rkh_sm_dispatch return, after a number of loop turns linear in the size of the machine, the hierarchy depth and the longest run of completion transitions, for every event and every guard behaviour, when the machine has no circular path of pseudostates, no default transition that leads back to its own composite state and no circular completion transitions; each of the three conditions is needed, there are otherwise well-formed machines for which the call never returns.", "quantifier": "every well-formed machine, every sequence of calls, every guard behaviour", "why_tests_cant": "non-termination cannot be observed by a test, and the bound quantifies over all machines", "anchors": ["source/sm/src/rkhsm.c: rkh_sm_dispatch (389-760), addTargetSt, rkh_update_deep_hist"]}
{"id": "C54", "title": "Run to completion", "statement": "At most one event is being dispatched at any moment; a dispatch begins only when no other dispatch and no action, initial transition, idle hook or interrupt routine is under way; once begun it stays the one under way until everything it called and every interrupt taken in it has returned; an active object runs its initial transition exactly once each time it is activated, and before it is handed any event.", "quantifier": "every reachable state of the kernel, every interleaving of calls and interrupts", "why_tests_cant": "a statement about all interleavings", "anchors": ["source/fwk/src/rkhfwk_sched.c: rkh_fwk_enter", "source/sma/src/rkhsma.c: rkh_sma_activate, rkh_sma_get, rkh_sma_dispatch"]}
{"id": "C55", "title": "The signal handled is the signal sent", "statement": "The signal an active object handles, read from memory when the event is dispatched, is the signal the event had when its post was accepted: for every object the signals sent are, as a multiset, those handled and those of the events waiting, and in the same order when nothing was posted at the front of the queue. No event is recycled, overwritten, lost or duplicated on the way.", "quantifier": "every execution of the kernel, every active object", "why_tests_cant": "use-after-free of events shows only in particular interleavings", "anchors": ["source/fwk/src/rkhfwk_sched.c: rkh_fwk_enter", "source/fwk/src/rkhfwk_dynevt.c: rkh_fwk_gc, rkh_fwk_ae", "source/sma/src/rkhsma.c: rkh_sma_post_fifo, rkh_sma_post_lifo, rkh_sma_get"]}
{"id": "C56", "title": "In an application each state machine runs as if it were alone", "statement": "With every active object running its own state machine under the scheduler, and no object activated from within an action (see C68), the state, history and action log of each machine whose object was not terminated are those it would reach alone, on the signals its object handled, in that order; so a well-formed machine always rests in a leaf state between dispatches (or was stopped by the assertion on the number of transition segments).", "quantifier": "every application, every interleaving of calls and interrupts", "why_tests_cant": "composition of all machines with all schedules", "anchors": ["source/sma/src/rkhsma.c: rkh_sma_dispatch, rkh_sma_activate", "source/fwk/src/rkhfwk_sched.c: rkh_fwk_enter", "source/sm/src/rkhsm.c: rkh_sm_dispatch"]}
{"id": "C57", "title": "The kernel writes only to blocks of the event pools", "statement": "Of the memory that holds events and pools, the kernel changes only the first words of blocks of registered pools: static events, the rest of the pool storage and everything outside the pools keep the contents they had at the start.", "quantifier": "every execution of the kernel, every address", "why_tests_cant": "a frame condition over all addresses and executions", "anchors": ["source/fwk/src/rkhfwk_dynevt.c: rkh_fwk_ae, rkh_fwk_gc", "source/mempool/src/rkhmempool.c: rkh_memPool_get, rkh_memPool_put"]}
{"id": "C58", "title": "A started timer delivers its event to its active object on time", "statement": "After rkh_tmr_start(t, ao, n, p), and as long as t is neither started, stopped nor initialised again and ao is not terminated, the event of t is put at the end of the queue of ao on the nth tick and then, if p is not 0, on every pth tick after it, once each time, and on no other tick; whatever the application, the scheduler, other timers and interrupts do in between. A tick changes no queue otherwise. If a queue cannot take the events of all timers that expire, the post assertion fails. After rkh_tmr_stop no event of t follows. Ticks add no other way for the system to fail.", "quantifier": "every execution of the kernel with any number of timers; every count and period in the range of the type", "why_tests_cant": "timing and interleaving of ticks with all other activity", "anchors": ["source/tmr/src/rkhtmr.c: rkh_tmr_tick, rkh_tmr_start, rkh_tmr_stop, rkh_tmr_init_", "source/sma/src/rkhsma.c: rkh_sma_post_fifo", "source/fwk/src/rkhfwk_sched.c: rkh_fwk_enter"]}
{"id": "C59", "title": "The event pool statistics are the true figures", "statement": "In every state of every execution the number of blocks, the number of blocks in use and the smallest number of free blocks so far, as an event pool reports them, are the true figures modulo 256. They are returned as bytes, so a pool of 256 blocks reports that it has none. Registering more pools than configured fails with an assertion.", "quantifier": "every execution of the kernel, every event pool", "why_tests_cant": "figures over whole histories under interleaved allocation and recycling", "anchors": ["source/fwk/src/rkhfwk_evtpool.c: rkh_evtPool_getNumUsed, rkh_evtPool_getNumMin, rkh_evtPool_getNumBlock", "source/fwk/src/rkhfwk_dynevt.c: rkh_fwk_registerEvtPool, rkh_fwk_ae, rkh_fwk_gc"]}
{"id": "C60", "title": "Disabling the hierarchy does not change a flat machine", "statement": "A state machine of basic states only, without entry and exit actions, behaves the same with RKH_CFG_SMA_HCAL_EN disabled as with it enabled: every call of rkh_sm_init and rkh_sm_dispatch returns the same, evaluates the same guards and runs the same actions in the same order, and leaves the same state. This does not extend to completion transitions, which are then never taken, nor to final states, whose transition table is then a null pointer that the next event dereferences.", "quantifier": "every flat machine, every guard behaviour, every sequence of events", "why_tests_cant": "equivalence of two builds on all machines and event sequences", "anchors": ["source/sm/src/rkhsm.c: rkh_sm_dispatch (389-760), RKH_EXEC_EXIT_ACTION (240-242), RKH_EXEC_ENTRY_ACTION (256-264)", "source/fwk/inc/rkhitl.h: 1928-1939"]}
{"id": "C61", "title": "Times are converted to the right number of ticks", "statement": "RKH_TIME_MS, RKH_TIME_SEC and RKH_TIME_MIN give the number of whole ticks in the time, exact for seconds and minutes, when the tick rate divides 1000 and the products fit the integer types. A one-shot timer started with RKH_TIME_MS(ms) then posts its event no later than ms milliseconds after the start and less than two ticks before; a time shorter than a tick gives 0 ticks, which rkh_tmr_start refuses. For other rates every tick counted is too long by (1000 mod rate)/rate ms, up to a factor of nearly two; rates above 1000 Hz divide by zero; with 8-bit tick counts and up to 3 Hz, and with 16-bit integers from 66 s, the results are wrong.", "quantifier": "every tick rate, every integer width, every time, every execution of the timers", "why_tests_cant": "exactness over all rates, widths and times; a test uses one configuration", "anchors": ["source/fwk/inc/rkhitl.h: 1600-1621 (RKH_TICK_RATE_MS, RKH_TIME_MS, RKH_TIME_SEC, RKH_TIME_MIN)", "source/tmr/src/rkhtmr.c: rkh_tmr_start, rkh_tmr_tick"]}
{"id": "C62", "title": "Publish and subscribe calls act one at a time, whatever interrupts them", "statement": "In every execution, with any nesting of interrupts and calls, each rkh_pubsub_subscribe, _unsubscribe, _unsubscribeAll and _publish call takes effect exactly once, between its start and its return, and all of them can be put in one order such that: the subscribers of a channel are always the objects whose last call subscribed them, and each publication posts its event exactly to the objects subscribed by the calls before it, except the sender, once each, in ascending order of priority number.", "quantifier": "every interleaving of tasks and interrupts, every sequence of publish/subscribe calls, every configuration", "why_tests_cant": "interruptions at every point of every call cannot be enumerated by tests", "anchors": ["source/fwk/src/rkhfwk_pubsub.c: 117-194 (rkh_pubsub_subscribe, rkh_pubsub_unsubscribe, rkh_pubsub_unsubscribeAll, publish, rkh_pubsub_publish)"]}
{"id": "C63", "title": "Critical sections of the bare-metal ports keep activities apart", "statement": "With the RKH_ENTER_CRITICAL() and RKH_EXIT_CRITICAL() of the S08, Cortex-M (BASEPRI) and stm32 ports, however sections nest (up to eight deep on the S08) and wherever interrupts come, two activities are never in a critical section at once, while one is in a section only handlers without sections are taken, and outside of sections exactly the interrupts are taken that would be without them; no array is overrun. On the ColdFire V1 port this holds when all handlers that use the framework have the same interrupt level, and fails with two levels. The counting Cortex-M ports do not restore a mask the caller had set.", "quantifier": "every program of nested sections for the task and the handlers, every sequence of interrupts at every instruction", "why_tests_cant": "races of a few instructions; tests run on a port without interrupts", "anchors": ["source/portable/s08/rkhs/cw6_3/rkhport.c: rkhport_enter_critical, rkhport_exit_critical", "source/portable/cfv1/rkhs/cw6_3/rkhport.c: 91-127", "source/portable/arm-cortex/rkhs/arm_cm4f/ciaa_nxp/rkhport.c: 84-112", "source/portable/arm-cortex/rkhs/arm_cm4f/stm32/rkhport.h: 73-100"]}
{"id": "C64", "title": "The answer to an event tells how its processing ended", "statement": "rkh_sm_dispatch takes transitions one after the other, each arriving in a state before the next begins, and a further one only after a completion event. It answers RKH_EVT_PROC exactly when the last transition was internal or arrived in a state that signals no completion; RKH_EVT_NFOUND exactly when no transition was begun or the last completion event found none; and another code (only RKH_CND_NFOUND or RKH_GRD_FALSE if assertions are on) exactly when the last transition begun did not arrive. RKH_EVT_NFOUND does not mean that the event was ignored: the transition into a final state of a composite state without completion transition is answered so.", "quantifier": "every well-formed machine, every state and history reached, every event, every guard behaviour", "why_tests_cant": "all machines and all chains of completion transitions", "anchors": ["source/sm/src/rkhsm.c: rkh_sm_dispatch (389-760)", "source/sm/inc/rkhsm.h: 1560-1600 (return codes)"]}
{"id": "C65", "title": "A completion transition is taken by the state that is complete", "statement": "If every basic state with completion transitions, and every state that contains a final state, has a completion transition without guard, then after each arrival in such a basic state or in a final state the next transition is a completion transition of that basic state, or of the state (or submachine state) that directly contains the final state. Otherwise this fails: the completion transition of an outer state that is not complete is taken when the guard of the inner one is false, or when the inner composite state has no completion transition.", "quantifier": "every well-formed machine, every state and history reached, every event, every guard behaviour", "why_tests_cant": "all machines with nested completion", "anchors": ["source/sm/src/rkhsm.c: rkh_sm_dispatch (389-760), findCompletionTrn (277), isCompletionTrn (295)"]}
{"id": "C66", "title": "A thread for each active object is as safe as the cooperative kernel", "statement": "In a port with one thread for each active object (win32_mt), in every interleaving of these threads with any number of other threads that call the framework: nothing but a full queue, an exhausted pool or no suitable pool stops the program; the reference counter of a dynamic event is the number of its holders in all queues and threads; no event in use is in a free list and no block is lost; each accepted event is dispatched once, in queue order; and no two dispatches to the same object overlap. Three rules are needed beyond those of the cooperative kernel: deferred events are recalled only by the thread of the object they are for, objects are activated one at a time, and a dynamic event is passed on only by somebody who holds it. Without the first rkh_sma_recall asserts, without the last an event is used after it was freed.", "quantifier": "every interleaving of any number of threads, every sequence of calls, every configuration", "why_tests_cant": "interleavings of threads at every critical section boundary", "anchors": ["source/portable/80x86/win32_mt/vc/rkhport.c: 97-117 (thread_function), 163-184 (rkh_sma_block, rkh_sma_setReady, rkh_sma_setUnready)", "source/queue/src/rkhqueue.c: 172-300", "source/sma/src/rkhsma.c: 240-290 (rkh_sma_defer, rkh_sma_recall)", "source/fwk/src/rkhfwk_dynevt.c: rkh_fwk_gc, rkh_fwk_reserve"]}
{"id": "C67", "title": "No wake-up of the thread of an active object is lost", "statement": "Whenever the thread of an active object waits, or has found its queue empty and is about to wait, and an event is in its queue, the Win32 event it waits for is signalled. So a thread with events in its queue can always go on by itself, whatever the other threads are doing, until it has dispatched all of them in order; and when all threads of active objects wait and none is signalled, every event accepted was dispatched.", "quantifier": "every interleaving of any number of threads, every sequence of calls, every configuration", "why_tests_cant": "the race between finding the queue empty and falling asleep is a few instructions wide", "anchors": ["source/portable/80x86/win32_mt/vc/rkhport.c: 163-178 (rkh_sma_block, rkh_sma_setReady)", "source/queue/src/rkhqueue.c: 172-214, 216-300"]}
{"id": "C68", "title": "Static variables of the dispatcher make no difference unless an action dispatches", "statement": "In ports that are not re-entrant the variables of rkh_sm_dispatch are static and shared by all state machines. As long as no action makes a dispatch, every machine still ends in the state, with the history and the sequence of actions, and every call with the answer, it would have with variables of its own, whatever earlier calls left in them; well-formed machines never use memory wrongly. It fails when an action activates another active object (rkh_sma_activate initialises its machine at once): from a transition action a null pointer is called, from an entry action the list of states to enter is overrun, from an exit action the transition actions and entry actions are skipped.", "quantifier": "every set of state machines, every sequence of calls, every content of the static variables", "why_tests_cant": "all sequences of calls of all machines that share the variables", "anchors": ["source/sm/src/rkhsm.c: 75-84 (RKH_RAM), 389-760 (rkh_sm_dispatch), 149-154 (RKH_EXEC_TRANSITION), 190-254", "source/portable/80x86/linux_st/gnu/rkhport.c: 200 (rkh_sma_activate)"]}
{"id": "C69", "title": "The trace tells how many states a transition exited and entered", "statement": "The record RKH_TE_SM_NENEX made after each external transition, also after each completion transition, has exactly the numbers of states whose exit and entry were executed for that transition, including the default descent (the number of entered states modulo 256). An internal transition exits and enters nothing.", "quantifier": "every machine, every state, every event, every content of the static variables", "why_tests_cant": "all machines and transitions", "anchors": ["source/sm/src/rkhsm.c: 190-254 (RKH_EXEC_EXIT_ACTION, RKH_EXEC_ENTRY_ACTION), 722, 740-742"]}
{"id": "C70", "title": "Where source and target lie decides what a transition leaves and enters", "statement": "A transition whose source and target are not nested in one another, and a transition from the active state to itself, exit and enter exactly the states a UML external transition does. When the target is in the source (or is the source) and the source is not the active state, the source is neither exited nor entered, as in a UML local transition; a state in the source that contains both the active state and the target stays active as well, unlike in UML. A transition to a state around the source neither exits nor enters that state.", "quantifier": "every machine, every active state, every source and target, every path of the transition", "why_tests_cant": "all hierarchies and all pairs of source and target", "anchors": ["source/sm/src/rkhsm.c: 190-238 (RKH_EXEC_EXIT_ACTION), 245-254 (RKH_EXEC_ENTRY_ACTION), 350-371 (addTargetSt), 681-721"]}
{"id": "C71", "title": "The loop of the single-thread host ports is safe, complete and loses no wake-up", "statement": "In the Linux and Windows ports with one thread for all active objects, in every interleaving of the thread in rkh_fwk_enter with any number of other threads that call the framework, and as long as nobody calls rkhport_fwk_stop: nothing but a full queue, an exhausted pool or no suitable pool stops the program. Reference counters, free lists and queues are what the holders and the log say, and never are two dispatches in progress. Whenever the loop sleeps or is about to and an event is in any queue, what it sleeps on is signalled; so the loop alone can always go on until all queues are empty, each queue in its order and the more urgent objects first; and when it sleeps unsignalled every accepted event was dispatched. After rkhport_fwk_stop at most one more event is dispatched. But a stop does not wake a sleeping loop, events in the queues are then left, on Windows a stop in the start hook is forgotten, and after the loop has ended a call by another thread uses a destroyed mutex.", "quantifier": "every interleaving of any number of threads, every sequence of calls, every configuration, every largest value of the semaphore", "why_tests_cant": "interleavings of threads at every critical section boundary; races between finding nothing and falling asleep", "anchors": ["source/portable/80x86/linux_st/gnu/rkhport.c: 98-188", "source/portable/80x86/win32_st/vc/rkhport.c: 95-179", "source/queue/src/rkhqueue.c: 172-300"]}
{"id": "C72", "title": "The figures in the trace records of the kernel are the true ones", "statement": "In every reachable state, with tracing on: the records of a post (RKH_TE_QUE_FIFO/LIFO, RKH_TE_SMA_FIFO/LIFO) show the number of events now in the queue, and the pool and true number of holders of the event; a publication makes them for each receiver in the order of priorities with one more reference each time; the records of a get show the number of events left, or that it was the last. The records of the memory pools show the number of unused blocks and the smallest number of free blocks so far; the record of a new event shows its pool, no reference and the blocks in use; the record of a reference given back shows the holders left; the record of a recycled event shows its pool, and the blocks in use afterwards if at most 255 are in use. At any time the number of posts recorded for an object minus the gets is the number of events in its queue, and the number of events created from a pool minus those recycled is the number of its blocks in use, up to the calls in progress. But the record of rkh_sma_get is made outside the critical section and can contradict the one of the queue; pools are counted from 1 in some records and from 0 in others; with 256 blocks in use the figure of a recycled event is larger than the pool.", "quantifier": "every execution with any calls and any nesting of interrupts, every configuration", "why_tests_cant": "all interleavings; the relation of the records to what really holds the events", "anchors": ["source/sma/src/rkhsma.c: 164-248", "source/queue/src/rkhqueue.c: 172-300", "source/mempool/src/rkhmempool.c: 149-200", "source/fwk/src/rkhfwk_dynevt.c: 85-154", "source/fwk/src/rkhfwk_pubsub.c: 163-194", "source/trc/inc/rkhtrc_record.h: 110-132, 183-228, 269-272, 352-426, 475-479, 1149-1206"]}
{"id": "C73", "title": "The reader of the trace in the test harness reports every record once and nothing else", "statement": "trazer_parse, given any bytes in frames of up to 255 (and failure reports with messages of up to 15 characters), stays inside its buffers, reports each frame with a right checksum once, in order and unescaped, each frame with a wrong one as a checksum error, and no other; a failure report arrives with its line and message. It reads back what RKH writes into the stream; from start-up also after an overrun, from the first whole record on. But 513 bytes without a flag, or a message of 16 characters, are written past the end of an array; a record of 256 bytes is passed over; longer ones are judged by their first bytes only; after trazer_init the rest of an overrun record is reported as an error.", "quantifier": "every sequence of bytes, every list of records, every stream size and record format", "why_tests_cant": "all byte sequences; the harness is what the tests rely on", "anchors": ["third-party/unitrazer/tzparse.c: 16-199", "third-party/unitrazer/tzlink.c: 85-109", "third-party/unitrazer/unitrazer.h: 386-403", "source/trc/src/rkhtrc_record.c"]}
{"id": "C74", "title": "The thread of an active object serves every event, and rkh_sma_terminate ends it", "statement": "In the ports with a thread for each active object (win32_mt, ucos, KSDK with uC/OS-III): as long as nobody calls rkh_sma_terminate, the events dispatched, the one in hand and those in the queue are the events posted, in order; the object stays registered; the only assertion that fails is that of a post into a full queue; when nobody posts, the thread dispatches all there is and waits. After rkh_sma_terminate from an action of the object itself no further event is dispatched, the thread ends and the object is unregistered; after one from elsewhere at most one more event is dispatched, and on win32_mt the next event ends the thread. This needs that the new thread does not run before the activation has finished: otherwise the object may end without being terminated. An object terminated while its thread waits stays on win32_mt until the next post and fails an assertion on the others; later posts and terminations fail there too; events still queued are never dispatched; on win32_mt a termination during the activation is lost.", "quantifier": "every interleaving of activation, posts, terminations and thread, any number of events, every queue size", "why_tests_cant": "all interleavings of several threads; ports that need another operating system than the tests", "anchors": ["source/portable/80x86/win32_mt/vc/rkhport.c: 97-117, 242-292", "source/portable/ucos/v3.03.01/rkhport.c: 70-87, 156-300", "source/portable/arm-cortex/ksdk_os/ucosiii/kds/rkhport.c: 88-107, 227-342"]}
{"id": "C75", "title": "The trace records of the timers tell which timers run", "statement": "With tracing on, for any sequence of calls of rkh_tmr_init_, rkh_tmr_start, rkh_tmr_stop and rkh_tmr_tick: each call makes exactly the records it should (RKH_TE_TMR_INIT, START, STOP; TOUT for each timer that expires in a tick, before its event is posted and in the order of the posts; REM for each timer that leaves the list); somebody who sees only the records START and REM knows which timers run and in which order they are linked; only a running timer is recorded to expire or to be removed; the ticks in the record of a stop are zero exactly if the timer was not running, and otherwise those after which its event would have been posted. The records change nothing. But the period in the record of a stop means nothing for a timer never started.", "quantifier": "every sequence of calls, any number of timers, any tick counts, every width of the counters", "why_tests_cant": "all sequences of calls; a debugging tool that is trusted when the tests fail", "anchors": ["source/tmr/src/rkhtmr.c: 97-242", "source/trc/inc/rkhtrc_record.h: 981-1061"]}
{"id": "C76", "title": "In the shared resource application at most one client uses the resource, first come, first served", "statement": "In demo/cross/shared, unless 'p' is pressed: at most one client uses the resource at a time; the clients are served in the order in which they ask, none is forgotten, and once no client asks any more all that asked can still be served; no event is lost from the pool, and the server's counters are right. Order, requests, events and counters are also right when 'p' is pressed, any number of times, and when nothing is under way any more and the server is not paused nobody waits. With a pool and a server's queue of one more than there are clients no assertion fails under any scheduler; under the native one, where the server has the highest priority, a pool of as many blocks as clients is enough. The four blocks that the application gets on a 64 bit machine and its queues of four are not enough in ports with a thread for each object. After pressing 'p' twice two clients may use the resource at the same time, and a client may stay paused while the others go on, also under the native scheduler.", "quantifier": "any number of clients, every queue and pool size, every interleaving of turns, timer expiries and presses of 'p'", "why_tests_cant": "all interleavings; the demo has no tests, and the failures need events in an unlucky order", "anchors": ["demo/cross/shared/server.c", "demo/cross/shared/client.c", "demo/cross/shared/main.c", "demo/libbsp/platform/80x86/linux/bsp_shared.c: 70-106, 269-283"]}
{"id": "C77", "title": "A dispatch never uses a cell of its work arrays before writing it", "statement": "The automatic (or static) arrays al and sentry of rkh_sm_dispatch are not initialised. Whatever they contain at the start of a call, the call returns the same code, leaves the same state and histories, and calls the same guards, actions, entries and exits in the same order: for an ordinary event on every machine, well-formed or not, for the initial transition on every well-formed machine, and for whole executions. With static variables the result is the same too. An initial transition that leads to a referenced submachine itself does take its new state from an unwritten cell.", "quantifier": "every machine, guard, state, event, configuration, and every contents of the arrays", "why_tests_cant": "uninitialised memory shows only with particular leftovers on the stack", "anchors": ["source/sm/src/rkhsm.c: rkh_sm_dispatch (389-760), 415 (sentry), 418 (al), 149-154, 190-254, 305-320, 350-371"]}
{"id": "C78", "title": "The ahsm demo does what its diagram says", "statement": "In demo/80x86/ahsm, whatever keys but '-' are pressed, in any number and order: nothing stops the application, the active state, x, y and what the histories remember follow the diagram, and so do, key by key, whether the key is processed and the functions called in their order. x is 1, 2, 3 in S111, S112, S12, y is 0 in S1, C1 always finds a branch and C2 never takes its ELSE. The key '-' posts the framework's creation event and starts the machine again without leaving its states.", "quantifier": "every sequence of keys, every contents of the dispatcher's work arrays", "why_tests_cant": "unboundedly many sequences; the application has no tests", "anchors": ["demo/80x86/ahsm/my.c", "demo/libbsp/platform/80x86/linux/bsp_ahsm.c: 66-67, 127-142", "source/sm/src/rkhsm.c: rkh_sm_dispatch (389-760)"]}
{"id": "C79", "title": "The subm demo does what its diagram says", "statement": "In demo/80x86/subm, whose submachine SB is used by S12 and S2: whatever keys but '-' are pressed, nothing stops the application, the active state and the use of the submachine it is in follow the diagram, and so do, key by key, whether it is processed and the functions called; the exit points lead out of the use that was entered.", "quantifier": "every sequence of keys, every contents of the dispatcher's work arrays", "why_tests_cant": "unboundedly many sequences; a mix-up of the two uses shows only after particular ones", "anchors": ["demo/80x86/subm/my.c", "source/sm/src/rkhsm.c: rkh_sm_dispatch (389-760), 626-663"]}
{"id": "C80", "title": "Blinky blinks in time", "statement": "Both blinky demos (cross, without hierarchy; 80x86, with it): for any on and off times from 1 to 65535 ticks and any order of ticks and turns of the object, nothing stops the application, a queue of one place is enough, and the LED is switched exactly when a wall clock says so: at the first turn at which the time of the present state has passed. If the object runs after every tick the LED is on after n ticks exactly if n modulo (on + off) is below on, so in the demos it changes every 200 ticks, for ever. ESC keys, fewer than the queue has places, disturb neither the alternation nor the shortest times; cnt counts the calls of bsp_ledOn modulo 256. As many as the queue has places stop the application at the timer's post.", "quantifier": "every pair of times, every sequence of ticks, turns and keys, every contents of the dispatcher's work memory and of the timer's memory at the start", "why_tests_cant": "a drift or a lost timeout shows only after long runs or under particular delays of the object", "anchors": ["demo/cross/blinky/blinky.c", "demo/80x86/blinky/src/blinky.c", "source/tmr/src/rkhtmr.c", "source/sm/src/rkhsm.c: rkh_sm_dispatch (389-760)"]}
{"id": "C81", "title": "The trace is flushed in order while it is written", "statement": "The loops of rkh_trc_flush, which take blocks (or bytes) of the trace stream in a critical section and send them after it, with any bytes put in between: never a read or write outside the buffer; every byte sent was put; from any point between two blocks on, as long as no more than the size of the stream is put and not yet sent, the bytes are sent in the order of the puts, none twice and none lost, and when the loop ends all are sent; with no more puts it ends after at most two steps for each byte and one. With more puts than that a block can be written over while it is sent, so a byte can be sent twice and out of order. The Linux package takes the bytes outside of a critical section: a single put between the read and the write of trcqty makes the loop end with a byte left.", "quantifier": "every size of the stream, every block size, every sequence and interleaving of puts and steps of the loop, every past with or without overrun", "why_tests_cant": "the window between the end of the critical section and the use of the pointer is a few instructions wide, and the tests of the stream call the functions one after the other", "anchors": ["source/trc/src/rkhtrc_stream.c: rkh_trc_get (84-103), rkh_trc_get_block (105-145), rkh_trc_put", "demo/libbsp/platform/80x86/win/trace_io.c: rkh_trc_flush (166-195)", "demo/libbsp/platform/80x86/linux/trace_io.c: rkh_trc_flush (172-189)", "demo/libbsp/platform/80x86/linux/hook.c: rkh_hook_idle"]}
{"id": "C82", "title": "Trace records arrive", "statement": "Records are written at any moments, each in a critical section, while the loop of rkh_trc_flush sends the stream: as long as no more bytes are written and not yet sent than the stream holds, a receiver on the line has at every moment decoded exactly the first records written, with identifier, sequence number, time stamp and payload, and all of them when the loop ends; the reader of the test harness reports the same. Nothing stops the application in any case. Without that condition a receiver can accept, checksum and all, a record that was never written: the start of one and the end of another.", "quantifier": "every configuration of the recorder, stream and block size, every sequence of records with any contents, every interleaving with the loop", "why_tests_cant": "needs the framing, escaping, checksum, ring buffer, block reads and the interleaving together; unit tests replace the stream or the recorder by mocks", "anchors": ["source/trc/src/rkhtrc_record.c", "source/trc/src/rkhtrc_stream.c", "source/trc/inc/rkhtrc_define.h: 571-700", "demo/libbsp/platform/80x86/win/trace_io.c: rkh_trc_flush (166-195)", "third-party/unitrazer/tzparse.c"]}
{"id": "C83", "title": "Terminating an active object that has nothing waiting", "statement": "With rkh_sma_terminate among the calls an application makes, by the object itself or by another one, as long as the queue of the object is empty at that moment, everything said of executions of the kernel stays true (C05, C17-C23, C25-C27, C52, C54, C55, C57-C59, C62, C72). The call takes the object out of the registry and changes nothing else; an object that is not registered has nothing waiting and is handed no event; it can be activated again, with other storage, and has an empty queue then. Its subscriptions stay, so a later publication on such a channel fails an assertion unless it unsubscribed before.", "quantifier": "every execution of the kernel, any interleaving of calls and interrupts, any number of terminations and activations", "why_tests_cant": "needs all histories of activations and terminations; the unit tests check one call with mocks", "anchors": ["source/sma/src/rkhsma.c: rkh_sma_terminate (138-145), rkh_sma_unregister (108-121), rkh_sma_activate (147-161)", "source/fwk/src/rkhfwk_pubsub.c: publish (163-175)", "source/fwk/src/rkhfwk_sched.c: rkh_fwk_enter"]}
{"id": "C84", "title": "The statistics of every queue are true in the whole application", "statement": "In every state of an application, for the queue of each active object since its last activation and for each deferral queue: what waits is what was put less what was taken; it never was more than the queue holds; rkh_queue_get_lwm, and the last field of the trace records of the queue, is the least room there was at any time; the counters of rkh_queue_get_info are the numbers of events put and taken modulo 65536 and no full queue.", "quantifier": "every execution of the kernel, any interleaving of calls and interrupts, every queue", "why_tests_cant": "a low mark can be wrong for years before a queue is sized by it; needs all interleavings of posts and gets", "anchors": ["source/queue/src/rkhqueue.c: 172-300, 345-354", "source/sma/src/rkhsma.c: 147-285", "source/trc/inc/rkhtrc_record.h: 183-228, 352-426"]}
{"id": "C85", "title": "The next life of an active object", "statement": "With terminations and activations at any time, the state machine of every active object is where it would be alone, started as often as the object was activated and given the signals it handled, in that order. What a machine does from an activation on depends on its earlier lives by its histories and its record of entered submachines only, not by the state it was in, as long as its guards do not look at other data. It is not like new, though: histories survive rkh_sma_terminate and rkh_sma_activate, and the states of the former life are never exited.", "quantifier": "every execution of the kernel with terminations, every machine, every two contents of its RAM, every later sequence of events", "why_tests_cant": "needs all executions, all machines and all pasts; tests activate a freshly started object once", "anchors": ["source/sma/src/rkhsma.c: 147-181, 229-233", "source/sm/src/rkhsm.c: 375-760"]}
