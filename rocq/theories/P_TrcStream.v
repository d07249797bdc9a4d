(** Properties C34 and C35: the trace stream. *)
From Verif Require Import Base L_Base M_TrcStream S_TrcStream L_TrcStream.

(** C34, C35: any interleaving of puts and reads behaves as the specification
    [st_specs] of a window on a byte sequence; nothing is read or written
    outside the buffer (such an access would be a fault). *)
Theorem C34_stream_is_window : forall c buf ops,
  st_cfg_ok c -> length buf = sz c -> Forall (stop_ok c) ops ->
  exists s0 s rs l, st_init c buf = Ok s0 /\ run (st_step c) s0 ops = Ok (s, rs) /\
    st_specs (sz c) [0x7E%N] ops rs l /\ length (sb_buf s) = sz c.
Proof. intros c buf ops Hc. exact (hist_stream c Hc buf ops). Qed.
Print Assumptions C34_stream_is_window.

Definition C34_ops : list stop :=
  [SPut 1%N; SPut 2%N; SGet; SPut 3%N; SPut 4%N; SPut 5%N; SBlock 3; SWhole 2 [0%N; 0%N; 9%N]; SGet].
Example C34_ex :
  let c := mkStCfg 4 256 in
  st_cfg_ok c /\ Forall (stop_ok c) C34_ops /\
  exists s0 s, st_init c [0; 0; 0; 0]%N = Ok s0 /\
    run (st_step c) s0 C34_ops =
      Ok (s, [SOUnit; SOUnit; SOByte (Some 126%N); SOUnit; SOUnit; SOUnit;
              SOBlock (Some [2; 3]%N) 2; SOWhole 2 [4; 5; 9]%N; SOByte None]).
Proof.
  cbn zeta. split; [unfold st_cfg_ok; cbn; lia|]. split; [repeat constructor; cbn; lia|].
  do 2 eexists. split; vm_compute; reflexivity.
Qed.

(** C34: after any number of puts the stream holds exactly the most recent
    bytes. *)
Theorem C34_most_recent : forall c buf bs dest,
  st_cfg_ok c -> length buf = sz c -> sz c <= length dest ->
  exists s0 s rs s', st_init c buf = Ok s0 /\ run (st_step c) s0 (puts bs) = Ok (s, rs) /\
    let l := lastn (sz c) (0x7E%N :: bs) in
    st_whole c s dest (sz c) = Ok (s', (l ++ skipn (length l) dest, length l)).
Proof. intros c buf bs dest Hc. exact (hist_recent c Hc buf bs dest). Qed.
Print Assumptions C34_most_recent.

Example C34_recent_ex :
  let c := mkStCfg 3 256 in
  st_cfg_ok c /\ lastn 3 (0x7E%N :: [1; 2; 3; 4])%N = [2; 3; 4]%N /\
  exists s0 s rs s', st_init c [0; 0; 0]%N = Ok s0 /\
    run (st_step c) s0 (puts [1; 2; 3; 4]%N) = Ok (s, rs) /\
    st_whole c s [0; 0; 0; 7]%N 3 = Ok (s', ([2; 3; 4; 7]%N, 3)).
Proof.
  cbn zeta. split; [unfold st_cfg_ok; cbn; lia|]. split; [reflexivity|].
  do 4 eexists. split; [vm_compute; reflexivity|]. split; vm_compute; reflexivity.
Qed.

(** C34, the bound is sharp: with a counter whose range is one more than the
    size (255 bytes and an 8-bit counter, what the guard in
    trc/inc/rkhtrc_define.h: 1245 excludes) the number of bytes wraps and the
    whole contents is lost. *)
Theorem C34_counter_bound_refuted :
  exists c buf bs dest s0 s rs, 0 < sz c /\ sz c + 1 = qmod c /\
    length buf = sz c /\ sz c <= length dest /\
    st_init c buf = Ok s0 /\ run (st_step c) s0 (puts bs) = Ok (s, rs) /\
    sz c <= length bs /\ st_whole c s dest (sz c) = Ok (s, (dest, 0)).
Proof.
  exists (mkStCfg 3 4), [0; 0; 0]%N, [1; 2; 3]%N, [0; 0; 0]%N. do 3 eexists.
  split; [cbn; lia|]. split; [reflexivity|]. split; [reflexivity|]. split; [cbn; lia|].
  split; [vm_compute; reflexivity|]. split; [vm_compute; reflexivity|].
  split; [cbn; lia|]. vm_compute. reflexivity.
Qed.
Print Assumptions C34_counter_bound_refuted.

(** C35: from every reachable state, each kind of read; [l] are the unread
    bytes, the ones [st_specs] computes from the history. *)
Theorem C35_reads : forall c buf ops n dest,
  st_cfg_ok c -> length buf = sz c -> Forall (stop_ok c) ops ->
  n < qmod c -> n <= length dest ->
  exists s0 s rs l, st_init c buf = Ok s0 /\ run (st_step c) s0 ops = Ok (s, rs) /\
    st_specs (sz c) [0x7E%N] ops rs l /\
    (exists s' b, st_step c s SGet = Ok (s', SOByte b) /\ b = hd_error l) /\
    (exists s' k, st_step c s (SBlock n) = Ok (s', SOBlock (match l with [] => None | _ => Some (firstn k l) end) k) /\
       k <= n /\ k <= length l /\ (0 < n -> l <> [] -> 0 < k)) /\
    (exists s', st_step c s (SWhole n dest) =
       Ok (s', SOWhole (Nat.min n (length l)) (firstn n l ++ skipn (Nat.min n (length l)) dest))).
Proof. intros c buf ops n dest Hc. exact (hist_reads c Hc buf ops n dest). Qed.
Print Assumptions C35_reads.

Example C35_ex :
  let c := mkStCfg 4 256 in
  exists s0 s rs, st_init c [0; 0; 0; 0]%N = Ok s0 /\
    run (st_step c) s0 (puts [1; 2; 3; 4; 5]%N) = Ok (s, rs) /\
    exists s', st_step c s (SBlock 4) = Ok (s', SOBlock (Some [2; 3]%N) 2).
Proof.
  cbn zeta. do 3 eexists. split; [vm_compute; reflexivity|]. split; [vm_compute; reflexivity|].
  eexists. vm_compute. reflexivity.
Qed.
