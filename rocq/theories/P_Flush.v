(** The trace is flushed while it is written. *)
From Verif Require Import Base L_Base M_TrcStream S_TrcStream L_TrcStream M_Flush S_Flush L_Flush.

(** The flush from the initialised stream. *)
Definition started (c : stcfg) (buf : list N) (f : fst_) : Prop :=
  exists s, st_init c buf = Ok s /\ f = mkF s FTake.

Lemma started_sound c buf f : st_cfg_ok c -> length buf = sz c -> started c buf f -> sound c [FLG] f.
Proof.
  intros Hc Hb (s & E & ->). destruct (st_init_rel c Hc buf Hb) as (s' & E' & R). rewrite E in E'. injection E' as <-.
  constructor; cbn; [|discriminate]. exists [FLG]. split; [exact R|]. exists []. reflexivity.
Qed.
Lemma resting_exact c f l : resting f -> st_rel c (f_stm f) l -> exact_ c l f.
Proof. unfold resting, exact_. destruct (f_pc f); tauto. Qed.

(** C81: whatever is put, and whenever, neither the puts nor the loop reads or
    writes outside the buffer. *)
Theorem C81_never_faults : forall c r buf f ops, st_cfg_ok c -> reader_ok c r -> length buf = sz c -> started c buf f ->
  exists f' xs, runs (f_step c r) f ops = Ok (f', xs).
Proof.
  intros c r buf f ops Hc Hr Hb Hf. destruct (sound_run c Hc r Hr ops _ _ (started_sound c buf f Hc Hb Hf)) as (f' & xs & E & _). eauto.
Qed.

(** Every byte sent has been put (or is the flag of the start). *)
Theorem C81_no_invention : forall c r buf f ops f' xs, st_cfg_ok c -> reader_ok c r -> length buf = sz c -> started c buf f ->
  runs (f_step c r) f ops = Ok (f', xs) -> forall b, In b (bytes_sent xs) -> b = FLG \/ In b (bytes_put xs).
Proof.
  intros c r buf f ops f' xs Hc Hr Hb Hf E b Hi.
  destruct (sound_run c Hc r Hr ops _ _ (started_sound c buf f Hc Hb Hf)) as (f2 & xs2 & E2 & _ & H). rewrite E in E2. injection E2 as <- <-.
  destruct (H b Hi) as [<- | K]; auto.
Qed.

(** Take any past.  When the loop is between two blocks, the stream holds the last
    bytes put, [l].  From there on, as long as no more than the size of the stream
    is put and not yet sent, the bytes are sent in the order in which they were put,
    none twice and none lost, and when the loop ends all of them have been sent. *)
Theorem C81_in_order : forall c r buf f0 ops0 f xs0, st_cfg_ok c -> reader_ok c r -> length buf = sz c -> started c buf f0 ->
  runs (f_step c r) f0 ops0 = Ok (f, xs0) -> resting f ->
  exists l, suffix l (FLG :: bytes_put xs0) /\ length l <= sz c /\ (ops0 = [] -> l = [FLG]) /\
    forall ops f' xs, runs (f_step c r) f ops = Ok (f', xs) -> fits (sz c) (length l) xs ->
      prefix (bytes_sent xs) (l ++ bytes_put xs) /\
      (forall ys, xs = ys ++ [ONull] -> bytes_sent xs = l ++ bytes_put xs).
Proof.
  intros c r buf f0 ops0 f xs0 Hc Hr Hb Hf E0 Hrest.
  destruct (sound_run c Hc r Hr ops0 _ _ (started_sound c buf f0 Hc Hb Hf)) as (f2 & xs2 & E2 & S & _).
  rewrite E0 in E2. injection E2 as <- <-. destruct S as [(l & R & Hs) _]. exists l. split; [exact Hs|]. split; [exact (sr_cap _ _ _ R)|].
  split.
  - intros ->. cbn in E0. injection E0 as <- <-. destruct Hf as (s & Es & ->). destruct (st_init_rel c Hc buf Hb) as (s' & E' & R').
    rewrite Es in E'. injection E' as <-. cbn [f_stm] in R. destruct Hs as [t Ht]. cbn in Ht.
    pose proof (sr_qty _ _ _ R) as Q. rewrite (sr_qty _ _ _ R') in Q. cbn in Q.
    destruct t as [|x t]; [cbn in Ht; congruence|]. destruct l as [|y l]; [discriminate|]. destruct t; discriminate.
  - intros ops f' xs E F. destruct (exact_run c Hc r Hr ops l f (resting_exact c f l Hrest R) f' xs E F) as (rest & E1 & _ & E3).
    split; [exists rest; exact E1|]. intros ys Hy. rewrite E1, (E3 ys Hy), app_nil_r. reflexivity.
Qed.

(** When no more is put the loop ends: at most two steps for each byte, and one. *)
Theorem C81_ends : forall c r buf f0 ops0 f xs0, st_cfg_ok c -> reader_ok c r -> length buf = sz c -> started c buf f0 ->
  runs (f_step c r) f0 ops0 = Ok (f, xs0) -> resting f ->
  exists l n f' ys, suffix l (FLG :: bytes_put xs0) /\ n <= 2 * length l + 1 /\
    runs (f_step c r) f (repeat FStep n) = Ok (f', ys ++ [ONull]) /\ bytes_sent ys = l.
Proof.
  intros c r buf f0 ops0 f xs0 Hc Hr Hb Hf E0 Hrest.
  destruct (sound_run c Hc r Hr ops0 _ _ (started_sound c buf f0 Hc Hb Hf)) as (f2 & xs2 & E2 & S & _).
  rewrite E0 in E2. injection E2 as <- <-. destruct S as [(l & R & Hs) _].
  destruct (flush_ends c Hc r Hr (2 * length l + 1) l f (resting_exact c f l Hrest R)) as (n & f' & ys & Hn & E & S1 & _).
  - unfold left_. unfold resting in Hrest. destruct (f_pc f); tauto || lia.
  - exists l, n, f', ys. auto.
Qed.

(** * What does not hold *)
Definition c4 : stcfg := mkStCfg 4 256.
Definition at_ (c : stcfg) : fst_ := mkF (ok_or (mkStm [] 0 0 0) (st_init c (repeat 0%N (sz c)))) FTake.
Lemma c4_ok : st_cfg_ok c4. Proof. split; cbn; lia. Qed.
Lemma at_started c : st_cfg_ok c -> started c (repeat 0%N (sz c)) (at_ c).
Proof.
  intros Hc. destruct (st_init_rel c Hc (repeat 0%N (sz c)) (repeat_length _ _)) as (s & E & _). exists s. split; [exact E|]. unfold at_. rewrite E. reflexivity.
Qed.

(** The oldest bytes are lost when too many are put; one might expect that what is
    sent is still in order: some of the bytes put.  It is not: the bytes of a block
    that is being sent can be written over, since the pointer is used after the
    critical section. *)
Definition C81_torn : Prop := forall c r buf f ops f' xs, st_cfg_ok c -> reader_ok c r -> length buf = sz c -> started c buf f ->
  runs (f_step c r) f ops = Ok (f', xs) -> subseq (bytes_sent xs) (FLG :: bytes_put xs).
Lemma subseq_len {A} (a b : list A) : subseq a b -> length a <= length b.
Proof. induction 1; cbn; lia. Qed.
Theorem C81_torn_refuted : ~ C81_torn.
Proof.
  intros H.
  pose (ops := [FPut 1%N; FPut 2%N; FPut 3%N; FStep; FPut 5%N] ++ repeat FStep 6).
  destruct (C81_never_faults c4 (ByBlock 128) _ (at_ c4) ops c4_ok ltac:(cbn; lia) (repeat_length _ _) (at_started c4 c4_ok)) as (f' & xs & E).
  specialize (H c4 (ByBlock 128) _ (at_ c4) ops f' xs c4_ok ltac:(cbn; lia) (repeat_length _ _) (at_started c4 c4_ok) E).
  assert (Hx : bytes_sent xs = [5; 1; 2; 3; 5]%N /\ bytes_put xs = [1; 2; 3; 5]%N).
  { revert E. vm_compute. intros E. injection E as _ <-. split; reflexivity. }
  destruct Hx as [H1 H2]. rewrite H1, H2 in H. inversion H as [|? ? ? H3|]; subst. apply subseq_len in H3. cbn in H3. lia.
Qed.

(** * The loop of the Linux board support package *)
(** There rkh_trc_get is called outside of a critical section (linux/trace_io.c:
    177; the idle hook has left it, linux/hook.c: 157-163), so that a put can come
    between the read and the write of a variable. *)
Definition C81_linux : Prop := forall c buf s ops f' xs, st_cfg_ok c -> length buf = sz c -> st_init c buf = Ok s ->
  runs (l_step c) (mkL s LTest) ops = Ok (f', xs) -> fits (sz c) 1 xs ->
  forall ys, xs = ys ++ [ONull] -> bytes_sent xs = FLG :: bytes_put xs.
(** One put between them: the count is one too low, the
    loop ends, and the byte put is not sent. *)
Theorem C81_linux_refuted : ~ C81_linux.
Proof.
  intros H. set (ops := repeat FStep 4 ++ [FPut 7%N] ++ repeat FStep 4).
  destruct (st_init c4 (repeat 0%N 4)) as [s|] eqn:Es; [|discriminate].
  destruct (runs (l_step c4) (mkL s LTest) ops) as [[f' xs]|] eqn:E.
  - specialize (H c4 (repeat 0%N 4) s ops f' xs c4_ok eq_refl Es E). revert Es E H. vm_compute. intros Es. injection Es as <-. intros E. injection E as _ <-.
    intros H. specialize (H ltac:(repeat split; lia) [OTake; OTake; OTake; OTake; OPut 7%N; OTake; OTake; OSent 126%N] eq_refl). discriminate.
  - revert Es E. vm_compute. intros Es. injection Es as <-. discriminate.
Qed.

(** * Cases *)
(** Puts between, and while a block is sent; the block ends at the end of the
    buffer; the loop ends when all is sent. *)
Example C81_case :
  let ops := [FPut 1; FPut 2; FStep; FStep; FPut 3; FStep; FPut 4; FStep; FPut 5; FStep; FStep; FStep; FStep; FStep; FStep]%N in
  exists f' ys, runs (f_step c4 (ByBlock 128)) (at_ c4) ops = Ok (f', ys ++ [ONull]) /\ fits 4 1 (ys ++ [ONull]) /\
    bytes_sent ys = [FLG; 1; 2; 3; 4; 5]%N /\ bytes_put ys = [1; 2; 3; 4; 5]%N.
Proof.
  eexists _, [OPut 1; OPut 2; OTake; OSent FLG; OPut 3; OSent 1; OPut 4; OSent 2; OPut 5; OTake; OSent 3; OTake; OSent 4; OSent 5]%N.
  split; [vm_compute; reflexivity|]. split; [cbn; lia|]. split; reflexivity.
Qed.
Example C81_case_byte :
  let ops := [FPut 1; FStep; FStep; FStep; FPut 2; FStep; FStep; FStep; FStep]%N in
  exists f' ys, runs (f_step c4 ByByte) (at_ c4) ops = Ok (f', ys ++ [ONull]) /\ fits 4 1 (ys ++ [ONull]) /\
    bytes_sent ys = [FLG; 1; 2]%N.
Proof.
  eexists _, [OPut 1; OTake; OSent FLG; OTake; OPut 2; OSent 1; OTake; OSent 2]%N.
  split; [vm_compute; reflexivity|]. split; [cbn; lia | reflexivity].
Qed.
(** A past in which bytes were lost, and a loop between two blocks. *)
Example C81_past :
  exists f xs, runs (f_step c4 (ByBlock 2)) (at_ c4) [FPut 1; FPut 2; FPut 3; FPut 4; FPut 5; FStep; FStep; FStep]%N = Ok (f, xs) /\
    resting f /\ bytes_sent xs = [2; 3]%N.
Proof. eexists _, _. split; [vm_compute; reflexivity|]. split; [exact I | reflexivity]. Qed.

Print Assumptions C81_never_faults.
Print Assumptions C81_no_invention.
Print Assumptions C81_in_order.
Print Assumptions C81_ends.
Print Assumptions C81_torn_refuted.
Print Assumptions C81_linux_refuted.
