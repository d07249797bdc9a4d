(** Theorems about the statistics of the queues of an application. *)
From Verif Require Import Base L_Base M_Queue M_Kernel S_Kernel L_KProps P_KExample P_KTerm M_KTrc S_KQStat L_KQStat.
Local Open Scope nat_scope.

(** * C84 The statistics of every queue are true in the whole application *)
(** In every state of every execution, for the queue of each active object, since its
    last activation, and for each deferral queue: what waits is what came and did not
    go; it was never more than the queue holds; rkh_queue_get_lwm is the least room
    there was at any time; rkh_queue_get_info counts, as 16 bit numbers, the events
    put and those taken, and no full queue. *)
Theorem C84_figures :
  forall c mem0 statics prios dqs pools rs x nm q, sys_ok c mem0 statics prios dqs pools rs ->
  reachable c mem0 statics prios dqs pools x -> the_queue (c_s x) nm = Some q ->
  let l := since_init nm (c_log x) in let n := q_nelems q in
  length (waiting (c_s x) nm) + outs nm l = ins nm l /\
  (forall pre post, l = pre ++ post -> outs nm pre <= ins nm pre <= outs nm pre + n) /\
  (forall pre post, l = pre ++ post -> queue_get_lwm q <= n - (ins nm pre - outs nm pre)) /\
  (exists pre post, l = pre ++ post /\ queue_get_lwm q = n - (ins nm pre - outs nm pre)) /\
  nputs (queue_get_info q) = (N.of_nat (ins nm l) mod 65536)%N /\ ngets (queue_get_info q) = (N.of_nat (outs nm l) mod 65536)%N /\
  nreads (queue_get_info q) = 0%N /\ nfull (queue_get_info q) = 0%N.
Proof. intros c mem0 statics prios dqs pools rs x nm q SO. exact (queue_figures c mem0 statics prios dqs pools rs SO x nm q). Qed.

(** The trace records of a queue (C72) show what waits in it and that least room. *)
Theorem C84_records :
  forall c mem0 statics prios dqs pools rs x nm q, sys_ok c mem0 statics prios dqs pools rs ->
  reachable c mem0 statics prios dqs pools x -> the_queue (c_s x) nm = Some q ->
  exists m, que_at (c_s x) nm = Ok (N.of_nat (length (waiting (c_s x) nm)), N.of_nat m) /\
    let l := since_init nm (c_log x) in let n := q_nelems q in
    (forall pre post, l = pre ++ post -> m <= n - (ins nm pre - outs nm pre)) /\
    (exists pre post, l = pre ++ post /\ m = n - (ins nm pre - outs nm pre)).
Proof.
  intros c mem0 statics prios dqs pools rs x nm q SO H Hq. destruct (C84_figures _ _ _ _ _ _ _ x nm q SO H Hq) as (_ & _ & A & B & _).
  exists (queue_get_lwm q). split; [|auto]. destruct nm as [o|d]; cbn [the_queue que_at waiting] in *; unfold ao_view, dq_view.
  - destruct (nth_error (k_ao (c_s x)) o) as [a|] eqn:Ea; [|discriminate]. injection Hq as <-.
    rewrite (proj2 (rd_ok _ _ _) Ea). cbn [bind]. now rewrite L_KQueue.q_view_length.
  - rewrite (proj2 (rd_ok _ _ _) Hq), Hq. cbn [bind]. now rewrite L_KQueue.q_view_length.
Qed.

(** Object 1 had its queue of two full and handles the second event; object 0 has three
    of four places taken; an event is deferred.  Later object 1 has been activated
    again, with a queue of three. *)
Definition C84_fig (chs : list choice) (nm : qname) :=
  let x := K_at chs in
  match the_queue (c_s x) nm with
  | Some q => Some (q_nelems q, length (waiting (c_s x) nm), queue_get_lwm q, nputs (queue_get_info q), ngets (queue_get_info q),
                    ins nm (since_init nm (c_log x)), outs nm (since_init nm (c_log x)))
  | None => None
  end.
Example C84_ex :
  K_reach (K_at K_turns) /\ K_reach (K_at K_again) /\
  C84_fig K_turns (QAo 1) = Some (2, 0, 0, 2%N, 2%N, 2, 2) /\ C84_fig K_turns (QAo 0) = Some (4, 3, 1, 3%N, 0%N, 3, 0) /\
  C84_fig K_turns (QDq 0) = Some (3, 1, 2, 1%N, 0%N, 1, 0) /\ C84_fig K_again (QAo 1) = Some (3, 0, 2, 1%N, 1%N, 1, 1).
Proof. split; [apply K_reachable; vm_compute; reflexivity|]. split; [apply K_reachable; vm_compute; reflexivity|]. vm_compute. auto 10. Qed.
(** Events that object 1 got before it was terminated do not count any more. *)
Definition C84_chs : list choice :=
  K_boot ++ (ChCall (OPost false 1 50) :: go 2) ++ (ChCall (OPost false 1 60) :: go 2) ++ go 13 ++ (ChCall (OTerm 1) :: go 3) ++
  (ChCall (OActivate 1 [None; None; None] 3) :: go 5) ++ (ChCall (OPost true 1 60) :: go 2).
Example C84_again_ex : K_reach (K_at C84_chs) /\
  ins (QAo 1) (c_log (K_at C84_chs)) = 3 /\ C84_fig C84_chs (QAo 1) = Some (3, 1, 2, 1%N, 0%N, 1, 0).
Proof. split; [apply K_reachable; vm_compute; reflexivity|]. vm_compute. auto 10. Qed.

Print Assumptions C84_figures.
Print Assumptions C84_records.
