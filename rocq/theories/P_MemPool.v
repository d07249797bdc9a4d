(** Properties C07-C11: fixed-size memory pools.

    In every statement [V] is the type of memory cells, [mk_link] writes a
    free-list link, [get_link] reads one; the only thing assumed of them is
    that a link that was written can be read back. *)
From Verif Require Import Base L_Base M_MemPool S_MemPool L_MemPool.
Local Open Scope N_scope.

(** C07: the blocks a storage area is divided into are inside it, disjoint,
    aligned, at least as big as requested, and no further block would fit. *)
Theorem C07_layout : forall (c : mpcfg) sstart ssize bsize r,
  mp_cfg_ok c -> mp_args_ok c sstart ssize bsize r ->
  let n := N.to_nat (ssize / r) in let B := blocks sstart r n in
  bsize <= r /\ length B = n /\
  (forall b, In b B -> sstart <= b /\ b + r <= sstart + ssize) /\
  (forall b b', In b B -> In b' B -> b <> b' -> b + r <= b' \/ b' + r <= b) /\
  NoDup B /\
  ((psz c | sstart) -> forall b, In b B -> (psz c | b)) /\
  sstart + ssize < sstart + (ssize / r + 1) * r.
Proof. intros. apply mp_layout; assumption. Qed.
Print Assumptions C07_layout.

(** C07: [rkh_memPool_init] builds a pool of exactly these blocks: it reports
    the rounded size and their number, writes nothing outside the storage, and
    that many gets return each of them, lowest address first. *)
Theorem C07_init_blocks : forall (V : Type) (mk_link : N -> V) (get_link : V -> option N) (c : mpcfg),
  (forall a, get_link (mk_link a) = Some a) -> mp_cfg_ok c ->
  forall (m : mem) sstart ssize bsize r,
  mp_args_ok c sstart ssize bsize r -> mapped m sstart ssize -> ssize / r < nb_mod c ->
  let n := N.to_nat (ssize / r) in
  exists p m', mp_init mk_link get_link c m sstart ssize bsize = Ok (p, m') /\
    mp_get_bsize p = r /\ mp_get_nfree p = ssize / r /\
    (forall x, x < sstart \/ sstart + ssize <= x -> m' x = m x) /\
    exists s, run (mp_step mk_link get_link c) (mkMS p m' []) (repeat MpGet n) =
              Ok (s, blocks sstart r n).
Proof. exact @mp_init_drain. Qed.
Print Assumptions C07_init_blocks.

(** C07: bad arguments are rejected by an assertion. *)
Theorem C07_init_rejects : forall (V : Type) (mk_link : N -> V) (get_link : V -> option N) (c : mpcfg),
  mp_cfg_ok c -> forall (m : mem) sstart ssize bsize,
  mp_asrt c = true -> bsize < bs_mod c ->
  (sstart = 0 \/ ssize < psz c \/ bs_mod c <= bsize + psz c) ->
  mp_init mk_link get_link c m sstart ssize bsize = Fault (FAssert 92).
Proof. exact @mp_init_rejects. Qed.
Print Assumptions C07_init_rejects.

Theorem C07_init_too_big : forall (V : Type) (mk_link : N -> V) (get_link : V -> option N) (c : mpcfg),
  mp_cfg_ok c -> forall (m : mem) sstart ssize bsize r,
  mp_asrt c = true -> sstart <> 0 -> psz c <= ssize -> bsize + psz c < bs_mod c ->
  rounds_up (psz c) bsize r -> r < 65536 -> ssize < r ->
  mp_init mk_link get_link c m sstart ssize bsize = Fault (FAssert 113).
Proof. exact @mp_init_too_big. Qed.
Print Assumptions C07_init_too_big.

(** The pool used in the examples: 100 bytes at address 1000, blocks of 20
    bytes asked, 8-byte pointers; cells hold plain numbers. *)
Definition C07_cfg := mkMpCfg true 8 256 256.
Definition area (start size : N) : mem :=
  fun a => if (start <=? a) && (a <? start + size) then Some 12345 else None.
Definition lk (n : N) : option N := Some n.
Definition C07_init := mp_init (fun n => n) lk C07_cfg (area 1000 100) 1000 100 20.

Lemma rounds_up_intro w n r k :
  1 <= k -> r = k * w -> n <= r -> (k = 1 \/ (k - 1) * w < n) -> rounds_up w n r.
Proof.
  intros Hk -> Hn Hor. split; [eauto|]. split; [exact Hn|].
  intros j Hj Hle. destruct Hor as [->|Hlt]; [nia|]. assert (k <= j) by nia. nia.
Qed.

Example C07_ex : mp_cfg_ok C07_cfg /\ mp_args_ok C07_cfg 1000 100 20 24 /\
  mapped (area 1000 100) 1000 100 /\ 100 / 24 < nb_mod C07_cfg /\
  exists p m s, C07_init = Ok (p, m) /\ mp_get_nfree p = 4 /\
    run (mp_step (fun n => n) lk C07_cfg) (mkMS p m []) [MpGet; MpGet; MpGet; MpGet; MpGet] =
    Ok (s, [1000; 1024; 1048; 1072; 0]).
Proof.
  split; [repeat split; discriminate|]. split.
  { repeat split; try discriminate; try reflexivity.
    - exists 3; split; [discriminate | reflexivity].
    - intros k Hk H. change (psz C07_cfg) with 8 in *. lia. }
  split.
  { intros a Ha. unfold area. replace ((1000 <=? a) && (a <? 1000 + 100)) with true by lia. discriminate. }
  split; [reflexivity|].
  do 3 eexists. split; [vm_compute; reflexivity|]. split; [reflexivity|]. vm_compute. reflexivity.
Qed.

(** C07, finding: with a 16-bit block size and an 8-bit block counter a block
    of 257 pointers makes the local counter wrap to 1; the links then lie one
    pointer apart and the pool hands out overlapping blocks. *)
Theorem C07_init_wrap_refuted : exists c m sstart ssize bsize p m' s b b',
  mp_cfg_ok c /\ mp_asrt c = true /\ mapped m sstart ssize /\
  mp_init (fun n => n) lk c m sstart ssize bsize = Ok (p, m') /\
  run (mp_step (fun n => n) lk c) (mkMS p m' []) [MpGet; MpGet] = Ok (s, [b; b']) /\
  b <> 0 /\ b < b' < b + bsize.
Proof.
  set (c := mkMpCfg true 8 65536 256). set (m := area 4096 8224).
  set (i := mp_init (fun n => n) lk c m 4096 8224 2056).
  set (d := (mkMP 0 0 0 0 0 0 0, m)). set (s0 := mkMS (fst (ok_or d i)) (snd (ok_or d i)) []).
  set (x := run (mp_step (fun n => n) lk c) s0 [MpGet; MpGet]).
  exists c, m, 4096, 8224, 2056, (fst (ok_or d i)), (snd (ok_or d i)),
    (fst (ok_or (s0, []) x)), 4096, 4104.
  split; [repeat split; discriminate|]. split; [reflexivity|]. split.
  { intros a Ha. unfold m, area. replace ((4096 <=? a) && (a <? 4096 + 8224)) with true by lia. discriminate. }
  split.
  { rewrite <- surjective_pairing. apply ok_or_eq. vm_compute. reflexivity. }
  split.
  { change (x = Ok (fst (ok_or (s0, []) x), [4096; 4104])).
    replace [4096; 4104] with (snd (ok_or (s0, []) x)) by (vm_compute; reflexivity).
    rewrite <- surjective_pairing. apply ok_or_eq. vm_compute. reflexivity. }
  split; [discriminate|]. split; reflexivity.
Qed.
Print Assumptions C07_init_wrap_refuted.

(** C07, finding: with 8-bit counters, a storage for 256 blocks is accepted
    and yields a pool that reports no free block; its first get asserts. *)
Theorem C07_init_count_refuted : exists c m sstart ssize bsize p m',
  mp_cfg_ok c /\ mp_asrt c = true /\ mapped m sstart ssize /\
  mp_init (fun n => n) lk c m sstart ssize bsize = Ok (p, m') /\
  mp_get_nfree p = 0 /\ mp_get lk c p m' = Fault (FAssert 155).
Proof.
  set (c := mkMpCfg true 4 256 256). set (m := area 4096 1024).
  set (i := mp_init (fun n => n) lk c m 4096 1024 4). set (d := (mkMP 0 0 0 0 0 0 0, m)).
  exists c, m, 4096, 1024, 4, (fst (ok_or d i)), (snd (ok_or d i)).
  split; [repeat split; discriminate|]. split; [reflexivity|]. split.
  { intros a Ha. unfold m, area. replace ((4096 <=? a) && (a <? 4096 + 1024)) with true by lia. discriminate. }
  split.
  { rewrite <- surjective_pairing. apply ok_or_eq. vm_compute. reflexivity. }
  split; vm_compute; reflexivity.
Qed.
Print Assumptions C07_init_count_refuted.

(** C08: whatever the history of gets, puts of owned blocks and stores of any
    value into owned blocks, no call faults, and a get returns NULL or a block
    of the pool that nobody owns. *)
Theorem C08_no_double_allocation :
  forall (V : Type) (mk_link : N -> V) (get_link : V -> option N) (c : mpcfg),
  (forall a, get_link (mk_link a) = Some a) -> mp_cfg_ok c ->
  forall (m : mem) sstart ssize bsize r p0 m0,
  mp_args_ok c sstart ssize bsize r -> mapped m sstart ssize -> ssize / r < nb_mod c ->
  mp_init mk_link get_link c m sstart ssize bsize = Ok (p0, m0) ->
  forall ops s rs, run (mp_step mk_link get_link c) (mkMS p0 m0 []) ops = Ok (s, rs) ->
  let B := blocks sstart r (N.to_nat (ssize / r)) in
  NoDup (ms_owned s) /\ incl (ms_owned s) B /\
  exists p' b, mp_get get_link c (ms_pool s) (ms_mem s) = Ok (p', b) /\
    (b = 0 \/ In b B /\ ~ In b (ms_owned s)).
Proof. exact @hist_get. Qed.
Print Assumptions C08_no_double_allocation.

Theorem C08_never_faults :
  forall (V : Type) (mk_link : N -> V) (get_link : V -> option N) (c : mpcfg),
  (forall a, get_link (mk_link a) = Some a) -> mp_cfg_ok c ->
  forall (m : mem) sstart ssize bsize r p0 m0,
  mp_args_ok c sstart ssize bsize r -> mapped m sstart ssize -> ssize / r < nb_mod c ->
  mp_init mk_link get_link c m sstart ssize bsize = Ok (p0, m0) ->
  forall ops, exists s rs, run (mp_step mk_link get_link c) (mkMS p0 m0 []) ops = Ok (s, rs).
Proof. exact @hist_total_run. Qed.
Print Assumptions C08_never_faults.

(** C08: the pool does not disturb what the client keeps in its blocks. *)
Theorem C08_contents_safe :
  forall (V : Type) (mk_link : N -> V) (get_link : V -> option N) (c : mpcfg),
  (forall a, get_link (mk_link a) = Some a) -> mp_cfg_ok c ->
  forall (m : mem) sstart ssize bsize r p0 m0,
  mp_args_ok c sstart ssize bsize r -> mapped m sstart ssize -> ssize / r < nb_mod c ->
  mp_init mk_link get_link c m sstart ssize bsize = Ok (p0, m0) ->
  forall ops s rs o s' x b a,
  run (mp_step mk_link get_link c) (mkMS p0 m0 []) ops = Ok (s, rs) ->
  mp_step mk_link get_link c s o = Ok (s', x) ->
  In b (ms_owned s) -> In b (ms_owned s') -> b <= a < b + r ->
  (forall v, o <> MpStore a v) -> ms_mem s' a = ms_mem s a.
Proof. exact @hist_contents. Qed.
Print Assumptions C08_contents_safe.

(** A history with stores over the links, puts out of order and exhaustion. *)
Example C08_ex : exists p m s,
  C07_init = Ok (p, m) /\
  run (mp_step (fun n => n) lk C07_cfg) (mkMS p m [])
    [MpGet; MpStore 1000 0; MpGet; MpStore 1024 777; MpGet; MpPut 1000; MpPut 1048; MpStore 1000 5;
     MpGet; MpGet; MpGet; MpGet] =
  Ok (s, [1000; 0; 1024; 0; 1048; 0; 0; 0; 1048; 1000; 1072; 0]) /\
  ms_owned s = [1072; 1000; 1048; 1024] /\ ms_mem s 1024 = Some 777.
Proof.
  do 3 eexists. split; [vm_compute; reflexivity|]. split; [vm_compute; reflexivity|].
  split; reflexivity.
Qed.

(** C09: free + owned = all, and NULL means that the client owns them all. *)
Theorem C09_conservation :
  forall (V : Type) (mk_link : N -> V) (get_link : V -> option N) (c : mpcfg),
  (forall a, get_link (mk_link a) = Some a) -> mp_cfg_ok c ->
  forall (m : mem) sstart ssize bsize r p0 m0,
  mp_args_ok c sstart ssize bsize r -> mapped m sstart ssize -> ssize / r < nb_mod c ->
  mp_init mk_link get_link c m sstart ssize bsize = Ok (p0, m0) ->
  forall ops s rs, run (mp_step mk_link get_link c) (mkMS p0 m0 []) ops = Ok (s, rs) ->
  mp_get_nfree (ms_pool s) + N.of_nat (length (ms_owned s)) = ssize / r /\
  ((exists p', mp_get get_link c (ms_pool s) (ms_mem s) = Ok (p', 0)) <->
   N.of_nat (length (ms_owned s)) = ssize / r).
Proof. exact @hist_count. Qed.
Print Assumptions C09_conservation.

Example C09_ex : exists p m s rs, C07_init = Ok (p, m) /\
  run (mp_step (fun n => n) lk C07_cfg) (mkMS p m []) [MpGet; MpGet; MpGet; MpPut 1024] = Ok (s, rs) /\
  mp_get_nfree (ms_pool s) = 2 /\ length (ms_owned s) = 2%nat.
Proof. do 4 eexists. split; [vm_compute; reflexivity|]. split; [vm_compute; reflexivity|]. split; reflexivity. Qed.

(** C10: the low-water mark bounds every earlier free count and is attained. *)
Theorem C10_low_water_mark :
  forall (V : Type) (mk_link : N -> V) (get_link : V -> option N) (c : mpcfg),
  (forall a, get_link (mk_link a) = Some a) -> mp_cfg_ok c ->
  forall (m : mem) sstart ssize bsize r p0 m0,
  mp_args_ok c sstart ssize bsize r -> mapped m sstart ssize -> ssize / r < nb_mod c ->
  mp_init mk_link get_link c m sstart ssize bsize = Ok (p0, m0) ->
  forall ops s rs, run (mp_step mk_link get_link c) (mkMS p0 m0 []) ops = Ok (s, rs) ->
  (forall k s1 rs1, run (mp_step mk_link get_link c) (mkMS p0 m0 []) (firstn k ops) = Ok (s1, rs1) ->
     mp_get_low_wmark (ms_pool s) <= mp_get_nfree (ms_pool s1)) /\
  (exists k s1 rs1, run (mp_step mk_link get_link c) (mkMS p0 m0 []) (firstn k ops) = Ok (s1, rs1) /\
     mp_get_low_wmark (ms_pool s) = mp_get_nfree (ms_pool s1)).
Proof. exact @hist_low. Qed.
Print Assumptions C10_low_water_mark.

Example C10_ex : exists p m s rs, C07_init = Ok (p, m) /\
  run (mp_step (fun n => n) lk C07_cfg) (mkMS p m [])
    [MpGet; MpGet; MpGet; MpPut 1024; MpPut 1000; MpGet] = Ok (s, rs) /\
  mp_get_low_wmark (ms_pool s) = 1 /\ mp_get_nfree (ms_pool s) = 2.
Proof. do 4 eexists. split; [vm_compute; reflexivity|]. split; [vm_compute; reflexivity|]. split; reflexivity. Qed.

(** C11: put rejects an address outside the pool, and any address when no
    block is outstanding. *)
Theorem C11_put_detects :
  forall (V : Type) (mk_link : N -> V) (get_link : V -> option N) (c : mpcfg),
  (forall a, get_link (mk_link a) = Some a) -> mp_cfg_ok c ->
  forall (m : mem) sstart ssize bsize r p0 m0,
  mp_args_ok c sstart ssize bsize r -> mapped m sstart ssize -> ssize / r < nb_mod c ->
  mp_init mk_link get_link c m sstart ssize bsize = Ok (p0, m0) ->
  forall ops s rs b, run (mp_step mk_link get_link c) (mkMS p0 m0 []) ops = Ok (s, rs) ->
  mp_asrt c = true ->
  b < sstart \/ sstart + ssize <= b \/ ms_owned s = [] ->
  mp_put mk_link c (ms_pool s) (ms_mem s) b = Fault (FAssert 185).
Proof. exact @hist_put_detects. Qed.
Print Assumptions C11_put_detects.

(** C11: while any block is outstanding, putting a block that is already free
    is accepted; the next get hands it out although the old free list, which
    still contains it, is untouched. *)
Theorem C11_double_put_undetected :
  forall (V : Type) (mk_link : N -> V) (get_link : V -> option N) (c : mpcfg),
  (forall a, get_link (mk_link a) = Some a) -> mp_cfg_ok c ->
  forall (m : mem) sstart ssize bsize r p0 m0,
  mp_args_ok c sstart ssize bsize r -> mapped m sstart ssize -> ssize / r < nb_mod c ->
  mp_init mk_link get_link c m sstart ssize bsize = Ok (p0, m0) ->
  forall ops s rs b, run (mp_step mk_link get_link c) (mkMS p0 m0 []) ops = Ok (s, rs) ->
  In b (blocks sstart r (N.to_nat (ssize / r))) -> ~ In b (ms_owned s) -> ms_owned s <> [] ->
  exists p1 m1 p2, mp_put mk_link c (ms_pool s) (ms_mem s) b = Ok (p1, m1) /\
    mp_get get_link c p1 m1 = Ok (p2, b) /\ mp_free p2 = mp_free (ms_pool s).
Proof. exact @hist_put_undetected. Qed.
Print Assumptions C11_double_put_undetected.

(** ... and the pool then gives the same block to two owners. *)
Theorem C11_double_put_refuted : exists p m p1 p2 p3 m3 p4 m4 p5 p6 b,
  C07_init = Ok (p, m) /\ mp_get lk C07_cfg p m = Ok (p1, b) /\
  mp_get lk C07_cfg p1 m = Ok (p2, 1024) /\
  mp_put (fun n => n) C07_cfg p2 m b = Ok (p3, m3) /\
  mp_put (fun n => n) C07_cfg p3 m3 b = Ok (p4, m4) /\
  mp_get lk C07_cfg p4 m4 = Ok (p5, b) /\ mp_get lk C07_cfg p5 m4 = Ok (p6, b) /\ b <> 0.
Proof.
  do 11 eexists. repeat (split; [vm_compute; reflexivity|]). discriminate.
Qed.
Print Assumptions C11_double_put_refuted.
