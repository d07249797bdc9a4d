(** Properties C01-C04, C06: the event queue. *)
From Verif Require Import Base M_RdyGrp M_Queue S_Queue L_Queue.

(** C01: for every size, initial storage content, owner and call sequence the
    ring buffer gives the results of the abstract list (same values, and the
    same assertion when one fires). *)
Theorem C01_queue_is_list : forall (E : Type) (c : qcfg) (sto : list (option E)) n sma ops,
  (1 <= max_sma (q_rg c) <= 64)%N -> sma_ok c sma ->
  (q_asrt c = true \/ sma = None) -> 0 < n -> n <= length sto ->
  outs (run (q_step c) (queue_init sto n sma, rg_init (q_rg c)) ops) =
  outs (run (aq_step (q_asrt c) (owned sma) n) (aq_init n) ops).
Proof. exact @queue_refines. Qed.
Print Assumptions C01_queue_is_list.

(** C01: no slot of the client storage beyond the declared size changes. *)
Theorem C01_storage_frame : forall (E : Type) (c : qcfg) (sto : list (option E)) n sma ops s rs,
  (1 <= max_sma (q_rg c) <= 64)%N -> sma_ok c sma ->
  (q_asrt c = true \/ sma = None) -> 0 < n -> n <= length sto ->
  run (q_step c) (queue_init sto n sma, rg_init (q_rg c)) ops = Ok (s, rs) ->
  length (q_sto (fst s)) = length sto /\
  forall j, n <= j -> nth_error (q_sto (fst s)) j = nth_error sto j.
Proof. exact @queue_frame. Qed.
Print Assumptions C01_storage_frame.

Definition C01_cfg := mkQCfg true 255 (mkRgCfg 8 true).
Definition C01_ops : list (qop nat) :=
  [QPutFifo (Some 1); QPutFifo (Some 2); QGet; QPutFifo (Some 3); QPutLifo (Some 4);
   QIsFull; QGet; QGet; QLwm; QGet; QDeplete; QPutLifo (Some 5); QNum; QGet; QInfo].
(** A three-slot queue with garbage in its storage, owned by priority 2. *)
Example C01_ex :
  let sto := [Some 77; None; Some 99; Some 55] in
  outs (run (q_step C01_cfg) (queue_init sto 3 (Some 2%N), rg_init (q_rg C01_cfg)) C01_ops) =
  Ok [OUnit; OUnit; OPtr (Some 1); OUnit; OUnit; OBool true; OPtr (Some 4); OPtr (Some 2);
      ONum 0; OPtr (Some 3); OUnit; OUnit; ONum 1; OPtr (Some 5); OInfo (mkQI 5 5 0 0 0)] /\
  sma_ok C01_cfg (Some 2%N) /\ 3 <= length sto.
Proof. split; [vm_compute; reflexivity|]. split; [reflexivity | simpl; lia]. Qed.

(** C02: a put on a full queue asserts, or with assertions off changes nothing
    but the [nfull] counter, whatever history filled the queue. *)
Theorem C02_full_put : forall (E : Type) (c : qcfg) (sto : list (option E)) n sma ops s rs pe,
  (1 <= max_sma (q_rg c) <= 64)%N -> sma_ok c sma ->
  (q_asrt c = true \/ sma = None) -> 0 < n -> n <= length sto ->
  run (q_step c) (queue_init sto n sma, rg_init (q_rg c)) ops = Ok (s, rs) ->
  queue_is_full (fst s) = true ->
  (q_asrt c = true -> pe <> None) ->
  if q_asrt c then
    queue_put_fifo c (fst s) (snd s) pe = Fault (FAssert 223) /\
    queue_put_lifo c (fst s) (snd s) pe = Fault (FAssert 265)
  else
    let q' := set_info (fst s) (iu_full (q_info (fst s))) in
    queue_put_fifo c (fst s) (snd s) pe = Ok (q', snd s) /\
    queue_put_lifo c (fst s) (snd s) pe = Ok (q', snd s).
Proof. exact @queue_full_put. Qed.
Print Assumptions C02_full_put.

(** With assertions off, three puts into two slots: the third is dropped. *)
Example C02_ex :
  let c := mkQCfg false 255 (mkRgCfg 8 false) in
  outs (run (q_step c) (queue_init [None; None] 2 None, rg_init (q_rg c))
        [QPutFifo (Some 1); QPutFifo (Some 2); QIsFull; QPutFifo (Some 3); QPutLifo (Some 4);
         QGet; QGet; QGet; QInfo]) =
  Ok [OUnit; OUnit; OBool true; OUnit; OUnit; OPtr (Some 1); OPtr (Some 2); OPtr None;
      OInfo (mkQI 2 2 0 1 2)].
Proof. vm_compute. reflexivity. Qed.

(** C03: the low-water mark is a lower bound of the free entries at every
    earlier instant, and is attained at one of them. *)
Theorem C03_low_water_mark : forall (E : Type) (c : qcfg) (sto : list (option E)) n sma ops s rs,
  (1 <= max_sma (q_rg c) <= 64)%N -> sma_ok c sma ->
  (q_asrt c = true \/ sma = None) -> 0 < n -> n <= length sto ->
  let s0 := (queue_init sto n sma, rg_init (q_rg c)) in
  run (q_step c) s0 ops = Ok (s, rs) ->
  (forall k s1 rs1, run (q_step c) s0 (firstn k ops) = Ok (s1, rs1) ->
     queue_get_lwm (fst s) <= n - queue_get_num (fst s1)) /\
  (exists k s1 rs1, run (q_step c) s0 (firstn k ops) = Ok (s1, rs1) /\
     queue_get_lwm (fst s) = n - queue_get_num (fst s1)).
Proof. exact @queue_lwm_spec. Qed.
Print Assumptions C03_low_water_mark.

Example C03_ex :
  exists s rs, run (q_step C01_cfg) (queue_init [None; None; None; None] 4 None, rg_init (q_rg C01_cfg))
    [QPutFifo (Some 1); QPutFifo (Some 2); QPutFifo (Some 3); QGet; QGet; QPutLifo (Some 9)] = Ok (s, rs)
    /\ queue_get_lwm (fst s) = 1 /\ queue_get_num (fst s) = 2.
Proof. do 2 eexists. split; [vm_compute; reflexivity|]. split; reflexivity. Qed.

(** C04: the statistics are the counts over the visible trace since the last
    clear, modulo 2^16. *)
Theorem C04_statistics : forall (E : Type) (c : qcfg) (sto : list (option E)) n sma ops s rs,
  (1 <= max_sma (q_rg c) <= 64)%N -> sma_ok c sma ->
  q_asrt c = true -> 0 < n -> n <= length sto ->
  run (q_step c) (queue_init sto n sma, rg_init (q_rg c)) ops = Ok (s, rs) ->
  let tr := since_clear (combine ops rs) in
  queue_get_info (fst s) =
  mkQI (count is_put tr mod 65536)
       ((count is_get tr - count is_empty_get tr) mod 65536)
       ((count is_read tr - count is_empty_read tr) mod 65536)
       ((count is_empty_get tr + count is_empty_read tr) mod 65536) 0.
Proof. exact @queue_info_spec. Qed.
Print Assumptions C04_statistics.

Example C04_ex :
  exists s rs, run (q_step C01_cfg) (queue_init [None; None] 2 None, rg_init (q_rg C01_cfg))
    [QPutFifo (Some 1); QClear; QPutFifo (Some 2); QGet; QGet; QGet; QRead None] = Ok (s, rs)
    /\ queue_get_info (fst s) = mkQI 1 2 0 2 0.
Proof. do 2 eexists. split; vm_compute; reflexivity. Qed.

(** C06: reading changes nothing but the statistics, reports emptiness
    exactly, and leaves the caller's object as it was. *)
Theorem C06_read_effect : forall (E : Type) (c : qcfg) (sto : list (option E)) n sma ops s rs buf,
  (1 <= max_sma (q_rg c) <= 64)%N -> sma_ok c sma ->
  (q_asrt c = true \/ sma = None) -> 0 < n -> n <= length sto ->
  run (q_step c) (queue_init sto n sma, rg_init (q_rg c)) ops = Ok (s, rs) ->
  exists i st, queue_read (fst s) buf = Ok (set_info (fst s) i, st, buf) /\
            (st = QUE_EMPTY <-> queue_get_num (fst s) = 0).
Proof. exact @queue_read_spec. Qed.
Print Assumptions C06_read_effect.

(** C06, finding: rkh_queue_read is documented to copy the front element to
    the caller; it does not. *)
Theorem C06_read_delivers_refuted : exists (q : queue nat) g buf q' buf' q2 g2 e,
  queue_read q buf = Ok (q', QUE_OK, buf') /\
  queue_get C01_cfg q g = Ok (q2, g2, e) /\ buf' <> e.
Proof.
  exists (mkQ [Some 7] 1 0 0 1 0 None qinfo0), (rg_init (q_rg C01_cfg)), (Some 0).
  do 5 eexists. split; [reflexivity|]. split; [reflexivity|]. discriminate.
Qed.
Print Assumptions C06_read_delivers_refuted.
