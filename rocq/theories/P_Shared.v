(** C76: the application of demo/cross/shared. *)
From Coq Require Import Lia.
From Verif Require Import Base L_Base M_MemPool M_Shared S_Shared L_Shared L_SharedP.
Local Open Scope nat_scope.

(** The sizes of the demo (main.c: 24, server.c: 24) with a pool of four blocks, see
    [C76_pool_x86_64]. *)
Definition demo : shcfg := mkSh 4 4 8 4.
Definition final (r : res sys) : sys := ok_or (mkS None [] [] 0 [] [] 0 []) r.
Local Ltac now_it := vm_compute; reflexivity.
Local Ltac all_it := lazymatch goal with |- _ /\ _ => split; [now_it | all_it] | _ => now_it end.

(** Client 1 asks and uses the resource; clients 2 and 3 ask meanwhile. *)
Definition two_wait : list op :=
  [OWait 0; OClient 0; OServer; OClient 0; OWait 1; OClient 1; OServer; OWait 2; OClient 2; OServer].

(** Unless 'p' is pressed, whatever the scheduler does, at most one client uses the
    resource at a time: the calls say who, and the clients' states agree. *)
Theorem C76_exclusive h n ops s : no_pause ops -> exec h n ops = Ok s ->
  exists w, owner None (s_log s) = Some w /\ users s = match w with None => [] | Some p => [p] end.
Proof.
  intros N H. destruct (exec_inv h n ops s N H) as (b & d & phs & I).
  destruct (i_own _ _ _ _ _ I) as (w & Hw & K). exists w. split; [exact Hw|]. rewrite (users_ids _ _ _ _ _ I).
  pose proof (ids_len isUsing phs 0) as L. destruct w as [c|].
  - destruct K as (i & p & -> & Hi & Hp). assert (Hin : In (S i) (ids isUsing 0 phs)) by (apply ids_in; exists i, p; auto).
    pose proof (i_tok _ _ _ _ _ I) as T. rewrite cnt_holds in T. assert (Hc : cnt isUsing phs <= 1) by (destruct b; cbn [b2n] in T; lia).
    destruct (ids isUsing 0 phs) as [| x [| y l]]; [destruct Hin | destruct Hin as [-> | []]; reflexivity | cbn [length] in L; lia].
  - rewrite K in L. destruct (ids isUsing 0 phs); [reflexivity | discriminate].
Qed.
Example C76_exclusive_ex : exists s, exec demo 4 two_wait = Ok s /\ users s = [1] /\ waiters s = [2; 3] /\ owner None (s_log s) = Some (Some 1).
Proof. exists (final (exec demo 4 two_wait)). all_it. Qed.

(** First come, first served, and no request is lost: the clients are served in the
    order in which they asked, use the resource in the order in which they are served
    and end in that order; and exactly those wait that asked and do not yet use it. *)
Theorem C76_in_order h n ops s : no_pause ops -> exec h n ops = Ok s ->
  exists r1 r2 r3, asked (s_log s) = served (s_log s) ++ r1 /\ served (s_log s) = used (s_log s) ++ r2 /\
    used (s_log s) = finished (s_log s) ++ r3 /\ NoDup (r3 ++ r2 ++ r1) /\ length (r3 ++ r2) <= 1 /\
    (forall p, In p (r2 ++ r1) <-> In p (waiters s)) /\ (forall p, In p r3 <-> In p (users s)).
Proof.
  intros N H. destruct (exec_inv h n ops s N H) as (b & d & phs & I).
  destruct (i_use _ _ _ _ _ I) as (r2 & H2 & K2). destruct (i_fin _ _ _ _ _ I) as (r3 & H3 & K3).
  exists (line b (s_q s) d), r2, r3. pose proof (i_tok _ _ _ _ _ I) as T. rewrite cnt_holds in T.
  assert (Hc : cnt isStart phs + cnt isUsing phs <= 1) by (destruct b; cbn [b2n] in T; lia).
  assert (E2 : r2 = ids isStart 0 phs).
  { pose proof (ids_len isStart phs 0) as L. destruct K2 as [[-> K] | (i & -> & Hi)].
    - rewrite K in L. destruct (ids isStart 0 phs); [reflexivity | discriminate].
    - assert (Hin : In (S i) (ids isStart 0 phs)) by (apply ids_in; exists i, PStart; auto).
      destruct (ids isStart 0 phs) as [| x [| y l]]; [destruct Hin | destruct Hin as [-> | []]; reflexivity | cbn [length] in L; lia]. }
  assert (E3 : r3 = ids isUsing 0 phs).
  { pose proof (ids_len isUsing phs 0) as L. destruct K3 as [[-> K] | (i & p & -> & Hi & Hp)].
    - rewrite K in L. destruct (ids isUsing 0 phs); [reflexivity | discriminate].
    - assert (Hin : In (S i) (ids isUsing 0 phs)) by (apply ids_in; exists i, p; auto).
      destruct (ids isUsing 0 phs) as [| x [| y l]]; [destruct Hin | destruct Hin as [-> | []]; reflexivity | cbn [length] in L; lia]. }
  assert (Diff : forall f g c, In c (ids f 0 phs) -> In c (ids g 0 phs) -> exists p, f p = true /\ g p = true).
  { intros f g c A B. apply ids_in in A as (i & p & -> & Hi & Hp). apply ids_in in B as (j & q & E & Hj & Hq).
    assert (i = j) by lia. subst j. rewrite Hi in Hj. injection Hj as <-. eauto. }
  split; [apply I|]. split; [exact H2|]. split; [exact H3|]. split; [| split; [| split]].
  - subst r2 r3. rewrite app_assoc.
    assert (ND : forall l l' : list nat, NoDup l -> NoDup l' -> (forall x, In x l -> In x l' -> False) -> NoDup (l ++ l')).
    { clear. induction l as [| x l IH]; intros l' A B C; [exact B|]. inversion_clear A. cbn [app]. constructor.
      - rewrite in_app_iff. intros [K | K]; [auto | eapply C; [left; reflexivity | exact K]].
      - apply IH; auto. intros y K1 K2. eapply C; [right; exact K1 | exact K2]. }
    apply ND; [apply ND; [apply ids_nodup | apply ids_nodup|] | apply I |].
    + intros x A B. destruct (Diff _ _ _ A B) as (p & P1 & P2). destruct p; discriminate.
    + intros x A B. apply (line_all _ _ _ _ _ _ I) in B. apply in_app_iff in A as [A | A]; destruct (Diff _ _ _ A B) as (p & P1 & P2); destruct p; discriminate.
  - subst r2 r3. rewrite app_length, !ids_len. lia.
  - intros p. rewrite in_app_iff, (line_all _ _ _ _ _ _ I), (waiters_ids _ _ _ _ _ I), E2, !ids_in. split.
    + intros [(i & q & -> & Hi & Hq) | (i & q & -> & Hi & Hq)]; exists i, q; repeat split; auto; destruct q; auto; discriminate.
    + intros (i & q & -> & Hi & Hq). destruct q; try discriminate; [right; exists i, PReq; auto | left; exists i, PStart; auto].
  - intros p. rewrite (users_ids _ _ _ _ _ I), E3. reflexivity.
Qed.
Example C76_in_order_ex :
  let s := final (exec demo 4 (two_wait ++ [OUse 0; OClient 0; OWait 0; OServer; OServer; OClient 0; OServer; OClient 1])) in
  asked (s_log s) = [1; 2; 3; 1] /\ served (s_log s) = [1; 2] /\ used (s_log s) = [1; 2] /\ finished (s_log s) = [1] /\ waiters s = [1; 3].
Proof. cbv zeta. all_it. Qed.

(** Also when 'p' is pressed, at any time and any number of times: first come, first
    served, and no request is lost: each client that waits is either in line, once, or
    was told to start. *)
Theorem C76_in_order_pause h n ops s : exec h n ops = Ok s ->
  exists r, asked (s_log s) = served (s_log s) ++ r /\ NoDup r /\
    (forall p, In p (waiters s) <-> In p r \/ called s p) /\ (forall p, In p r -> called s p -> False).
Proof.
  intros H. destruct (exec_j h n ops s H) as (st & d & I). exists (line (not_idle st) (s_q s) d).
  assert (T : forall i k, nth_error (s_cli s) i = Some k ->
    count_occ Nat.eq_dec (line (not_idle st) (s_q s) d) (S i) + n_of START (c_q k) = b2n (is_waiting k)).
  { intros i k Hi. rewrite line_count. apply (j_cli _ _ _ _ I _ _ Hi). }
  assert (Get : forall c, In c (line (not_idle st) (s_q s) d) -> exists i k, c = S i /\ nth_error (s_cli s) i = Some k).
  { intros c Hc. destruct (line_ids _ _ _ _ _ I Hc) as (i & Li & ->). rewrite <- (j_n _ _ _ _ I) in Li. apply nth_error_Some in Li.
    destruct (nth_error (s_cli s) i) as [k|] eqn:E; [eauto | congruence]. }
  assert (W : forall k, is_waiting k = true <-> c_st k = Some client_waiting).
  { intros k. unfold is_waiting. destruct (c_st k) as [x|]; [| split; discriminate]. rewrite Nat.eqb_eq. split; congruence. }
  split; [apply I|]. split; [| split].
  - apply (NoDup_count_occ Nat.eq_dec). intros c. destruct (in_dec Nat.eq_dec c (line (not_idle st) (s_q s) d)) as [Hc | Hc].
    + destruct (Get c Hc) as (i & k & -> & Hi). specialize (T i k Hi). destruct (is_waiting k); cbn [b2n] in T; lia.
    + apply (count_occ_not_In Nat.eq_dec) in Hc. lia.
  - intros p. unfold waiters. rewrite clients_in_spec. split.
    + intros (i & k & -> & Hi & E). cbn [Nat.add]. specialize (T i k Hi). apply W in E. rewrite E in T. cbn [b2n] in T.
      destruct (Nat.eq_dec (n_of START (c_q k)) 0) as [Z | Z].
      * left. apply (count_occ_In Nat.eq_dec). lia.
      * right. apply n_pos in Z as (e & He & Es). exists i, k, e. auto.
    + intros [Hp | (i & k & e & -> & Hi & He & Es)].
      * destruct (Get p Hp) as (i & k & -> & Hi). exists i, k. split; [reflexivity|]. split; [exact Hi|]. apply W. specialize (T i k Hi).
        apply (count_occ_In Nat.eq_dec) in Hp. destruct (is_waiting k); [reflexivity | cbn [b2n] in T; lia].
      * exists i, k. split; [reflexivity|]. split; [exact Hi|]. apply W. specialize (T i k Hi).
        assert (Z : n_of START (c_q k) <> 0) by (apply n_pos; eauto). destruct (is_waiting k); [reflexivity | cbn [b2n] in T; lia].
  - intros p Hp (i & k & e & -> & Hi & He & Es). specialize (T i k Hi). apply (count_occ_In Nat.eq_dec) in Hp.
    assert (Z : n_of START (c_q k) <> 0) by (apply n_pos; eauto). destruct (is_waiting k); cbn [b2n] in T; lia.
Qed.
(** Client 1 uses the resource and clients 2 and 3 wait in line when 'p' is pressed;
    client 1 ends in the pause; after it client 2 is served, and told. *)
Definition pause_line : list op :=
  two_wait ++ [OPause; OServer; OClient 0; OClient 1; OClient 2; OClient 3; OUse 0; OClient 0; OServer; OPause; OServer; OServer].
Example C76_in_order_pause_ex : exists s, exec demo 4 pause_line = Ok s /\
  asked (s_log s) = [1; 2; 3] /\ served (s_log s) = [1; 2] /\ waiters s = [2; 3] /\ s_def s = [mkMsg REQ 3] /\ called s 2.
Proof.
  exists (final (exec demo 4 pause_line)). split; [now_it|]. split; [now_it|]. split; [now_it|]. split; [now_it|]. split; [now_it|].
  exists 1, (mkC (Some client_waiting) [mkMsg PAUSE 0; mkMsg START 2] false false), (mkMsg START 2).
  split; [reflexivity|]. split; [now_it|]. split; [right; left; reflexivity | reflexivity].
Qed.

(** Nor does 'p' bring the system to a halt: when nothing is under way any more and the
    server is not paused, nobody waits. *)
Theorem C76_not_stuck h n ops s : exec h n ops = Ok s -> quiet s -> s_st s <> Some server_paused ->
  waiters s = [] /\ s_st s = Some server_idle /\ s_def s = [] /\ s_dyn s = 0 /\ asked (s_log s) = served (s_log s).
Proof.
  intros H [Q C] P. destruct (exec_j h n ops s H) as (st & d & I). destruct (j_st _ _ _ _ I) as [Es Ls].
  assert (Nb : st <> server_busy).
  { intros E. destruct (j_busy _ _ _ _ I E) as (i & k & Hi & W); [rewrite Q; reflexivity | rewrite Q; reflexivity|].
    apply nth_error_In in Hi. destruct (proj1 (Forall_forall _ _) C k Hi) as [C1 C2].
    destruct W as [(_ & pre & post & j & K & _) | (_ & _ & [K | K])]; [rewrite C1 in K; destruct pre; discriminate | congruence | rewrite C1 in K; apply K; reflexivity]. }
  assert (E0 : st = server_idle).
  { unfold server_idle, server_busy, server_paused in *. destruct st as [| [| [| st]]]; [reflexivity | congruence | congruence | lia]. }
  assert (D : d = []).
  { destruct d as [| c d]; [reflexivity|]. destruct (j_rec _ _ _ _ I E0) as (c' & q' & K); [discriminate|]. rewrite Q in K. discriminate. }
  assert (W : filter is_waiting (s_cli s) = []).
  { destruct (filter is_waiting (s_cli s)) as [| k l] eqn:E; [reflexivity|]. assert (K : In k (filter is_waiting (s_cli s))) by (rewrite E; left; reflexivity).
    apply filter_In in K as [K1 K2]. destruct (proj1 (Forall_forall _ _) C k K1) as [C1 _]. apply In_nth_error in K1 as (i & Hi).
    destruct (j_cli _ _ _ _ I _ _ Hi) as (_ & _ & T). unfold ask_pending in T. rewrite Q, D, C1, K2 in T. discriminate. }
  split; [| split; [| split; [| split]]].
  - unfold waiters. pose proof (waiters_len (s_cli s) 0) as L. rewrite W in L. destruct (clients_in client_waiting 0 (s_cli s)); [reflexivity | discriminate].
  - congruence.
  - rewrite (j_d _ _ _ _ I), D. reflexivity.
  - rewrite (j_dyn _ _ _ _ I), W. reflexivity.
  - rewrite (j_ask _ _ _ _ I), Q, D, E0. cbn. rewrite app_nil_r. reflexivity.
Qed.
Definition pause_end : list op :=
  pause_line ++ [OClient 0; OClient 1; OClient 1; OClient 2; OClient 3; OUse 1; OClient 1; OServer; OServer; OClient 2; OUse 2; OClient 2; OServer].
Example C76_not_stuck_ex : exists s, exec demo 4 pause_end = Ok s /\ quiet s /\ s_st s = Some server_idle /\ served (s_log s) = [1; 2; 3].
Proof.
  exists (final (exec demo 4 pause_end)). split; [now_it|]. split; [| split; now_it]. split; [now_it|]. vm_compute. repeat constructor.
Qed.

(** No event is lost from the pool, also with 'p': as many are taken as clients wait. *)
Theorem C76_no_leak h n ops s : exec h n ops = Ok s -> s_dyn s = length (waiters s).
Proof.
  intros H. destruct (exec_j h n ops s H) as (st & d & I). unfold waiters. rewrite waiters_len. apply I.
Qed.
Example C76_no_leak_ex : s_dyn (final (exec demo 4 two_wait)) = 2 /\ s_dyn (final (exec demo 4 pause_line)) = 2.
Proof. all_it. Qed.

(** What the server shows when it pauses: how often it served, all clients and each. *)
Theorem C76_counters h n ops s : exec h n ops = Ok s ->
  s_ntot s = (N.of_nat (length (served (s_log s))) mod 2 ^ 32)%N /\ length (s_ncr s) = n /\
  forall i, i < n -> nth_error (s_ncr s) i = Some (N.of_nat (count_occ Nat.eq_dec (served (s_log s)) (S i)) mod 2 ^ 32)%N.
Proof. intros H. destruct (exec_j h n ops s H) as (st & d & I). split; [apply I | apply I]. Qed.
Example C76_counters_ex :
  let s := final (exec demo 4 (two_wait ++ [OUse 0; OClient 0; OServer; OServer])) in s_ntot s = 2%N /\ s_ncr s = [1; 1; 0; 0]%N.
Proof. cbv zeta. all_it. Qed.

(** With a server's queue and a pool of one more than there are clients, a queue of
    requests of their number and clients' queues of one, no assertion fails, whatever
    the scheduler does. *)
Theorem C76_no_fault h n ops : roomy h n -> Forall (valid n) ops -> no_pause ops -> exists s, exec h n ops = Ok s.
Proof.
  intros R V N. unfold exec. destruct (main_inv h n) as (s & E & I & _). rewrite E. cbn [bind]. eapply run_total; eassumption.
Qed.
Example C76_no_fault_ex : roomy (mkSh 5 1 4 5) 4 /\ Forall (valid 4) two_wait /\ no_pause two_wait.
Proof. split; [unfold roomy; cbn; lia|]. split; [repeat constructor | reflexivity]. Qed.

(** Under the native scheduler, where the server goes before the clients, a pool of as
    many blocks as clients is enough, and so is a server's queue of one. *)
Theorem C76_no_fault_priority h n ops s : fitting h n -> Forall (valid n) ops -> no_pause ops ->
  main h n = Ok s -> by_priority h s ops -> exists s', run h s ops = Ok s'.
Proof.
  intros R V N E P. destruct (main_inv h n) as (s0 & E0 & I & Q). rewrite E in E0. injection E0 as <-.
  eapply run_total_prio; try eassumption. split; [rewrite Q; cbn; lia|]. rewrite cnt_idle by reflexivity. destruct R as (_ & _ & _ & _ & R). lia.
Qed.
Example C76_no_fault_priority_ex : fitting demo 4 /\ by_priority demo (final (main demo 4)) two_wait.
Proof.
  split; [unfold fitting; cbn; lia|]. unfold two_wait. cbn [by_priority].
  repeat (split; [first [exact Logic.I | now_it] |]; let s := fresh "s" in let E := fresh "E" in intros s E; vm_compute in E; injection E as <-).
  exact Logic.I.
Qed.

(** Whatever happened, once no client asks any more the system can serve all that
    asked: there is always a way on that ends with nobody waiting and the resource
    free. *)
Theorem C76_all_served h n ops s : roomy h n -> no_pause ops -> exec h n ops = Ok s ->
  exists ops' s', no_ask ops' /\ no_pause ops' /\ run h s ops' = Ok s' /\ waiters s' = [] /\ users s' = [] /\
    s_q s' = [] /\ s_def s' = [] /\ s_dyn s' = 0 /\ asked (s_log s') = finished (s_log s').
Proof.
  intros R N H. destruct (exec_inv h n ops s N H) as (b & d & phs & I).
  destruct (drain h n R _ s b d phs I (Nat.le_refl _)) as (ops' & s' & phs' & A1 & A2 & A3 & I' & A4 & A5 & A6).
  exists ops', s'. split; [exact A1|]. split; [exact A2|]. split; [exact A3|]. rewrite cnt_holds in A6.
  pose proof (ids_len isUsing phs' 0) as L1. pose proof (ids_len isDyn phs' 0) as L2. rewrite cnt_dyn in L2.
  rewrite (waiters_ids _ _ _ _ _ I'), (users_ids _ _ _ _ _ I'), (i_d _ _ _ _ _ I'), (i_dyn _ _ _ _ _ I').
  split; [destruct (ids isDyn 0 phs'); [reflexivity | cbn [length] in L2; lia]|].
  split; [destruct (ids isUsing 0 phs'); [reflexivity | cbn [length] in L1; lia]|].
  split; [exact A4|]. split; [reflexivity|]. split; [lia|].
  rewrite (i_ask _ _ _ _ _ I'), A4. cbn. rewrite app_nil_r.
  destruct (i_use _ _ _ _ _ I') as (r2 & -> & K2). destruct (i_fin _ _ _ _ _ I') as (r3 & -> & K3).
  destruct K2 as [[-> _] | (i & _ & Hi)]; [| pose proof (cnt_pos isStart _ _ _ Hi eq_refl); lia].
  destruct K3 as [[-> _] | (i & p & _ & Hi & Hp)]; [| pose proof (cnt_pos isUsing _ _ _ Hi Hp); lia].
  rewrite !app_nil_r. reflexivity.
Qed.
Example C76_all_served_ex :
  let s := final (run demo (final (exec demo 4 two_wait))
    [OUse 0; OClient 0; OServer; OServer; OClient 1; OUse 1; OClient 1; OServer; OServer; OClient 2; OUse 2; OClient 2; OServer]) in
  waiters s = [] /\ users s = [] /\ asked (s_log s) = [1; 2; 3] /\ finished (s_log s) = [1; 2; 3].
Proof. cbv zeta. all_it. Qed.

(** The pool the application gets on a machine with pointers of eight bytes: its
    events of four bytes come from the first pool, 32 bytes for events of three
    (bsp_shared.c: 71-72, 269), whose blocks are then of eight bytes: there are four. *)
Definition pool_x86_64 : res (mpool * mem (V := N)) :=
  mp_init (fun a => a) (fun a => Some a) (mkMpCfg true 8 256 256) (fun a => if (a <? 2048)%N then Some 0%N else None) 1024 32 3.
Theorem C76_pool_x86_64 : exists p m, pool_x86_64 = Ok (p, m) /\ mp_nblocks p = N.of_nat (h_pool demo) /\ (4 <= mp_bsize p)%N.
Proof.
  exists (fst (ok_or (mkMP 0 0 0 0 0 0 0, fun _ => None) pool_x86_64)), (snd (ok_or (mkMP 0 0 0 0 0 0 0, fun _ => None) pool_x86_64)).
  split; [| split; [vm_compute; reflexivity | vm_compute; discriminate]].
  unfold pool_x86_64. vm_compute. reflexivity.
Qed.

(** The sizes of the application are not enough where the server may be overtaken, as
    in the multi-threaded ports: all four clients ask before the server runs, and there
    is no block for the fifth event, START. *)
Definition all_ask : list op := [OWait 0; OWait 1; OWait 2; OWait 3; OClient 0; OClient 1; OClient 2; OClient 3].
Theorem C76_pool_exhausted_refuted : exists ops, no_pause ops /\ Forall (valid 4) ops /\ exec demo 4 ops = Fault (FAssert 144).
Proof. exists (all_ask ++ [OServer]). split; [now_it|]. split; [repeat constructor; lia|]. now_it. Qed.
(** And with a larger pool the server's queue overflows: a client gives the resource
    back and asks again behind the requests of the three others. *)
Theorem C76_queue_full_refuted : exists ops, no_pause ops /\ Forall (valid 4) ops /\ exec (mkSh 4 4 8 8) 4 ops = Fault (FAssert 223).
Proof.
  exists [OWait 0; OClient 0; OServer; OClient 0; OWait 1; OClient 1; OWait 2; OClient 2; OWait 3; OClient 3; OUse 0; OClient 0; OWait 0; OClient 0].
  split; [now_it|]. split; [repeat constructor; lia|]. now_it.
Qed.

(** With 'p' the claim fails, also under the native scheduler: client 1 uses the
    resource, clients 2 and 3 wait, the system is paused and, just when client 1's time
    is over, resumed: the server, that forgets in its pause that it was busy, serves
    client 2; then the end of client 1 is taken for the end of client 2, and client 3
    is served as well. *)
Definition paused_use : list op :=
  two_wait ++ [OPause; OServer; OClient 0; OClient 1; OClient 2; OClient 3; OUse 0; OPause; OServer; OServer; OClient 0; OServer; OServer;
               OClient 0; OClient 1; OClient 1; OClient 2; OClient 2].
Theorem C76_exclusive_pause_refuted : exists ops s0 s, main demo 4 = Ok s0 /\ by_priority demo s0 ops /\ run demo s0 ops = Ok s /\
  users s = [2; 3] /\ owner None (s_log s) = None.
Proof.
  exists paused_use, (final (main demo 4)), (final (exec demo 4 paused_use)). split; [now_it|]. split; [| all_it].
  unfold paused_use, two_wait. cbn [app by_priority].
  repeat (split; [first [exact Logic.I | now_it] |]; let s := fresh "s" in let E := fresh "E" in intros s E; vm_compute in E; injection E as <-).
  exact Logic.I.
Qed.
(** And the system does not come back from a pause as it was: client 1 asks, 'p' is
    pressed before the server runs, and pressed again: all is resumed but client 1,
    which then pauses. *)
Definition out_of_phase : list op :=
  [OWait 0; OClient 0; OPause; OServer; OServer; OClient 0; OClient 0; OClient 1; OClient 2; OClient 3;
   OPause; OServer; OClient 0; OClient 1; OClient 2; OClient 3].
Theorem C76_resume_refuted : exists ops s0 s, main demo 4 = Ok s0 /\ by_priority demo s0 ops /\ run demo s0 ops = Ok s /\
  s_q s = [] /\ Forall (fun k => c_q k = []) (s_cli s) /\ length (filter is_pause ops) = 2 /\
  s_st s = Some server_idle /\ clients_in client_paused 0 (s_cli s) = [1].
Proof.
  exists out_of_phase, (final (main demo 4)), (final (exec demo 4 out_of_phase)). split; [now_it|]. split.
  - unfold out_of_phase. cbn [by_priority].
    repeat (split; [first [exact Logic.I | now_it] |]; let s := fresh "s" in let E := fresh "E" in intros s E; vm_compute in E; injection E as <-).
    exact Logic.I.
  - split; [now_it|]. split; [now_it|]. split; [vm_compute; repeat constructor|]. all_it.
Qed.

Print Assumptions C76_exclusive.
Print Assumptions C76_in_order.
Print Assumptions C76_in_order_pause.
Print Assumptions C76_not_stuck.
Print Assumptions C76_no_leak.
Print Assumptions C76_counters.
Print Assumptions C76_no_fault.
Print Assumptions C76_no_fault_priority.
Print Assumptions C76_all_served.
Print Assumptions C76_pool_x86_64.
Print Assumptions C76_pool_exhausted_refuted.
Print Assumptions C76_queue_full_refuted.
Print Assumptions C76_exclusive_pause_refuted.
Print Assumptions C76_resume_refuted.
