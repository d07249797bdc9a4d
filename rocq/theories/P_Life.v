(** C74.  The thread of an active object serves every event posted to it, once and in
    order, and rkh_sma_terminate ends it: what holds and what does not in the ports with
    one thread for each active object. *)
From Verif Require Import Base L_Base M_Life S_Life L_Life.
Local Open Scope N_scope.

Local Ltac now_it := vm_compute; reflexivity.

(** ** Serving *)
Theorem C74_serves p cap l s : live p cap life0 l = Some (Ok s) -> calm false l -> ~ In Terminate l ->
  l_out s ++ in_hand s ++ queued s = posted l /\
  (In ACreate l -> l_reg s = true /\ l_pc s <> PUnreg /\ l_pc s <> PClose /\ l_pc s <> PEnd).
Proof.
  intros E Hc Ht. destruct (served p cap l s E Hc Ht) as [Hp Ho]. split; [exact Ho|]. intros H.
  destruct (act_mono p cap l _ _ E) as (_ & _ & _ & Hs). unfold phase, start_pc in Hp. destruct (Hs H) as [Ha | Ha]; rewrite Ha in Hp.
  - destruct Hp as (-> & _ & _ & ->). now destruct (is_win32 p).
  - destruct Hp as (Hp & _ & _ & ->). destruct (l_pc s); easy.
Qed.
(** The only assertion that may fail is that of a post into a full queue. *)
Theorem C74_no_fault p cap l f : live p cap life0 l = Some (Fault f) -> calm false l -> ~ In Terminate l ->
  exists l' e s, l = l' ++ [Post e] /\ live p cap life0 l' = Some (Ok s) /\ (cap <= length (queued s))%nat /\
    f = FAssert (match p with Win32 => 223 | Ucos => 235 | Ksdk => 289 end).
Proof. exact (no_fault p cap l f). Qed.
(** And a full queue takes no more, terminations or not. *)
Theorem C74_bounded p cap l s : live p cap life0 l = Some (Ok s) -> (length (queued s) <= cap)%nat.
Proof. intros E. apply (bounded p cap l _ _ E). cbn. lia. Qed.
(** When nobody posts any more the thread dispatches all there is, then waits. *)
Theorem C74_drains p cap l s : live p cap life0 l = Some (Ok s) -> calm false l -> ~ In Terminate l -> In ASet l ->
  exists l' s', only_thread l' /\ live p cap s l' = Some (Ok s') /\ l_out s' = posted l /\ queued s' = [] /\
    l_reg s' = true /\ lstep p cap s' Thread = None.
Proof. exact (drained p cap l s). Qed.
Definition work : list lab := [AInit; Post 7; ACreate; Post 8; ASet; Thread; Post 9; Thread; Thread].
Example C74_serves_ex : calm false work /\ ~ In Terminate work /\ In ASet work /\
  forall p, exists s, live p 3 life0 work = Some (Ok s) /\ in_hand s ++ queued s <> [].
Proof.
  split; [cbn; auto|]. split; [cbn; intuition discriminate|]. split; [cbn; auto 10|].
  intros [| |]; eexists; (split; [now_it|]); cbn; discriminate.
Qed.
Example C74_no_fault_ex : forall p, exists f, live p 2 life0 [AInit; Post 7; ACreate; Post 8; ASet; Post 9] = Some (Fault f).
Proof. intros [| |]; eexists; now_it. Qed.

(** ** Termination by the object itself *)
(** Called from an action of the object, or while its thread is elsewhere between two
    gets: no other event is dispatched, whatever happens next, and the thread ends. *)
Theorem C74_own_terminate p cap l s l' s' : live p cap life0 l = Some (Ok s) -> In ASet l -> in_turn s ->
  live p cap s (Terminate :: l') = Some (Ok s') -> l_out s' ++ in_hand s' = l_out s ++ in_hand s.
Proof. exact (own_terminate p cap l s l' s'). Qed.
Theorem C74_own_ends p cap l s : live p cap life0 l = Some (Ok s) -> calm false l -> ~ In Terminate l -> In ASet l -> in_turn s ->
  exists l' s', only_thread l' /\ live p cap s (Terminate :: l') = Some (Ok s') /\ l_pc s' = PEnd /\ l_reg s' = false /\
    l_out s' = l_out s ++ in_hand s.
Proof. exact (own_ends p cap l s). Qed.
Definition busy : list lab := [AInit; ACreate; Post 8; ASet; Post 9; Thread; Thread].
Example C74_own_ex : calm false busy /\ ~ In Terminate busy /\ In ASet busy /\
  exists s, live Win32 2 life0 busy = Some (Ok s) /\ in_turn s /\ queued s = [9] /\
    exists s', live Win32 2 s [Terminate; Post 10; Thread; Thread; Thread; Thread] = Some (Ok s') /\ queued s' = [9; 10].
Proof.
  split; [cbn; auto|]. split; [cbn; intuition discriminate|]. split; [cbn; auto 10|].
  eexists. split; [now_it|]. split; [exact I|]. split; [now_it|]. eexists. split; now_it.
Qed.
Example C74_own_os_ex : forall p, exists s, live p 2 life0 (AInit :: ACreate :: Post 8 :: ASet :: repeat Thread 2) = Some (Ok s) /\
  exists s', live p 2 s (Terminate :: repeat Thread 4) = Some (Ok s') /\ l_reg s' = false.
Proof.
  intros [| |]; eexists; (split; [now_it|]). 2, 3: eexists; split; now_it.
  eexists. split; now_it.
Qed.

(** ** Termination by others *)
(** After the activation at most one more event is dispatched. *)
Theorem C74_at_most_one p cap l s l' s' : live p cap life0 l = Some (Ok s) -> In ASet l ->
  live p cap s (Terminate :: l') = Some (Ok s') -> (length (l_out s') <= length (l_out s) + 1)%nat.
Proof. exact (one_more p cap l s l' s'). Qed.
(** Win32: if any event is posted afterwards, the thread ends. *)
Theorem C74_win32_next_event cap l s e : live Win32 cap life0 l = Some (Ok s) -> calm false l -> ~ In Terminate l -> In ASet l ->
  (length (queued s) < cap)%nat ->
  exists l' s', only_thread l' /\ live Win32 cap s (Terminate :: Post e :: l') = Some (Ok s') /\ l_pc s' = PEnd /\ l_reg s' = false.
Proof. exact (next_ends cap l s e). Qed.
Example C74_at_most_one_ex : exists s s', live Win32 2 life0 [AInit; ACreate; ASet; Post 8; Post 9] = Some (Ok s) /\
  live Win32 2 s (Terminate :: repeat Thread 4) = Some (Ok s') /\ l_out s = [] /\ l_out s' = [8].
Proof. eexists. eexists. split; [now_it|]. split; [now_it|]. split; now_it. Qed.
Example C74_win32_next_event_ex : let l := [AInit; ACreate; ASet; Post 8; Thread; Thread; Thread; Thread] in
  calm false l /\ ~ In Terminate l /\ In ASet l /\ exists s, live Win32 2 life0 l = Some (Ok s) /\ l_pc s = PGet /\ queued s = [].
Proof. cbn. split; [auto 10|]. split; [intuition discriminate|]. split; [auto|]. eexists. split; [now_it|]. split; now_it. Qed.

(** ** What does not hold *)
(** Activation creates the thread before it sets what the thread tests: the object ends
    though nobody terminated it, and an event posted to it stays in its queue. *)
Theorem C74_early_start_refuted : forall p cap, (1 <= cap)%nat -> exists l s,
  live p cap life0 l = Some (Ok s) /\ ~ In Terminate l /\ In ASet l /\ l_reg s = false /\ l_pc s = PEnd /\ queued s = [9] /\
  forall l' s', live p cap s l' = Some (Ok s') -> l_out s' = l_out s.
Proof.
  assert (D : forall p cap l s s', live p cap s l = Some (Ok s') -> l_act s = A3 -> l_pc s = PEnd -> l_out s' = l_out s).
  { intros p cap. induction l as [|x l IH]; intros s s' E Ha Hp; cbn [live] in E; [now injection E as <-|].
    destruct (lstep p cap s x) as [[s1|f]|] eqn:Es; [|now destruct l|discriminate].
    assert (G : l_act s1 = A3 /\ l_pc s1 = PEnd /\ l_out s1 = l_out s).
    { destruct s as [q rg fl a pc ou]. cbn in Ha, Hp. subst. unfold lstep, thread_step in Es. cbn [l_act l_q l_reg l_flag l_pc l_out] in Es. destruct x; try discriminate.
      - destruct q as [q|]; [|discriminate]. destruct (_ <? _)%nat; [|discriminate]. now injection Es as <-.
      - destruct (is_win32 p); [|destruct q; [|discriminate]]; now injection Es as <-. }
    destruct G as (G1 & G2 & G3). rewrite <- G3. exact (IH s1 s' E G1 G2). }
  intros p cap Hc. destruct cap as [|cap]; [lia|]. destruct p.
  - exists ([AInit; ACreate; Post 8] ++ repeat Thread 6 ++ [ASet; Post 9]). eexists. split; [now_it|].
    split; [cbn; intuition discriminate|]. split; [cbn; auto 15|]. repeat (split; [now_it|]). intros l' s' E. now apply (D _ _ _ _ _ E).
  - exists [AInit; ACreate; Thread; Thread; ASet; Post 9]. eexists. split; [now_it|].
    split; [cbn; intuition discriminate|]. split; [cbn; auto 15|]. repeat (split; [now_it|]). intros l' s' E. now apply (D _ _ _ _ _ E).
  - exists [AInit; ACreate; Thread; Thread; ASet; Post 9]. eexists. split; [now_it|].
    split; [cbn; intuition discriminate|]. split; [cbn; auto 15|]. repeat (split; [now_it|]). intros l' s' E. now apply (D _ _ _ _ _ E).
Qed.
(** Win32: an object terminated while its thread waits stays registered, its thread
    alive, until somebody posts to it. *)
Theorem C74_asleep_win32_refuted : exists l s, forall cap, live Win32 cap life0 (l ++ [Terminate]) = Some (Ok s) /\ calm false l /\ In ASet l /\
  forall l' s', live Win32 cap s l' = Some (Ok s') -> posted l' = [] -> l_reg s' = true /\ l_pc s' = PGet.
Proof.
  exists [AInit; ACreate; ASet]. eexists. intros cap. split; [now_it|]. split; [cbn; auto|]. split; [cbn; auto|].
  intros l' s' E Hn. destruct (asleep cap l' _ s' E) as (H1 & H2 & _); auto.
Qed.
(** The others: an assertion fails in the thread of the object terminated. *)
Theorem C74_asleep_os_refuted : forall p cap, p <> Win32 ->
  live p cap life0 [AInit; ACreate; ASet; Thread; Terminate; Thread] = Some (Fault (FAssert (match p with Ksdk => 332 | _ => 290 end))).
Proof. intros [| |] cap H; [congruence|now_it..]. Qed.
(** The others: so it does in whoever posts to it, or terminates it, afterwards. *)
Theorem C74_post_after_refuted : forall p cap e, p <> Win32 ->
  let ended := [AInit; ACreate; ASet; Terminate; Thread; Thread] in
  (exists s, live p cap life0 ended = Some (Ok s) /\ l_pc s = PEnd) /\
  live p cap life0 (ended ++ [Post e]) = Some (Fault (FAssert (match p with Ksdk => 289 | _ => 235 end))) /\
  live p cap life0 (ended ++ [Terminate]) = Some (Fault (FAssert (match p with Ksdk => 234 | _ => 163 end))).
Proof. intros [| |] cap e H; [congruence|..]; (split; [eexists; split; now_it|split; now_it]). Qed.
(** Win32: a termination between the creation of the thread and the end of the
    activation is lost: all that is posted later is served. *)
Theorem C74_lost_terminate_refuted : exists l s, forall cap, (2 <= cap)%nat -> live Win32 cap life0 l = Some (Ok s) /\
  calm false l /\ l = AInit :: ACreate :: Terminate :: tl (tl (tl l)) /\ posted l = [7; 8; 9] /\ l_out s = [7; 8; 9] /\ l_reg s = true.
Proof.
  exists (AInit :: ACreate :: Terminate :: ASet :: Post 7 :: Thread :: Post 8 :: Post 9 :: repeat Thread 10). eexists. intros [|[|cap]] H; try lia.
  split; [now_it|]. split; [cbn; auto 20|]. repeat split.
Qed.
(** Events that were in the queue are never dispatched: Win32 leaves them there, with
    the references they hold; the others delete them with the queue. *)
Theorem C74_left_behind_refuted : forall p cap, (2 <= cap)%nat -> exists l s s',
  live p cap life0 l = Some (Ok s) /\ calm false l /\ queued s = [9] /\ in_turn s /\
  live p cap s (Terminate :: repeat Thread (if is_win32 p then 4 else 3)) = Some (Ok s') /\
  l_pc s' = PEnd /\ l_out s' = [8] /\ l_q s' = (if is_win32 p then Some [9] else None).
Proof.
  intros p [|[|cap]] H; try lia. exists (AInit :: ACreate :: ASet :: Post 8 :: Post 9 :: repeat Thread (if is_win32 p then 2 else 3)).
  destruct p; do 2 eexists; (split; [now_it|]); (split; [cbn; auto 20|]); (split; [now_it|]); (split; [exact I|]); repeat split.
Qed.

Print Assumptions C74_serves.
Print Assumptions C74_no_fault.
Print Assumptions C74_bounded.
Print Assumptions C74_drains.
Print Assumptions C74_own_terminate.
Print Assumptions C74_own_ends.
Print Assumptions C74_at_most_one.
Print Assumptions C74_win32_next_event.
Print Assumptions C74_early_start_refuted.
Print Assumptions C74_asleep_win32_refuted.
Print Assumptions C74_asleep_os_refuted.
Print Assumptions C74_post_after_refuted.
Print Assumptions C74_lost_terminate_refuted.
Print Assumptions C74_left_behind_refuted.
