(** Theorems about software timers (C28 - C33).

    Everywhere: [h] is the arbitrary content of the timer structures before
    initialisation; the calls of the history are those of S_Tmr with arguments
    in range; [hook] is the family of expiration hooks. *)
From Verif Require Import Base L_Base M_Tmr S_Tmr L_Tmr.
Local Open Scope N_scope.

Definition ex_cfg : tmcfg := mkTmCfg true 65536.
Definition ex_heap : N -> tmr := fun _ => mkTmr (Some 77) 5 3 false.

(** A hook that restarts timer 7 with count 4 whenever it is running. *)
Definition ex_hook (t : N) (s : tmst) (w : list N) : res (tmst * list N) :=
  if tm_used (ts_heap s 7) then do s <- tm_start ex_cfg s 7 4 0; Ok (s, w) else Ok (s, w).

Lemma ex_hook_ok : hook_ok ex_cfg ex_hook.
Proof.
  intros t s w. unfold ex_hook. destruct (tm_used (ts_heap s 7)) eqn:Eu.
  - unfold tm_start. simpl. rewrite Eu. eexists. split; [reflexivity|]. split; [reflexivity|].
    intros x. simpl. destruct (N.eqb_spec x 7) as [->|]; simpl; repeat split; auto; try lia; congruence.
  - exists s. repeat split; auto; lia.
Qed.

Lemma ex_hook_spares t0 : t0 <> 7 -> hook_spares t0 ex_hook.
Proof.
  intros Hne t s w s' w'. unfold ex_hook. destruct (tm_used (ts_heap s 7)) eqn:Eu.
  - unfold tm_start. simpl. rewrite Eu. intros H. inversion H; subst. simpl.
    apply N.eqb_neq in Hne. now rewrite Hne.
  - intros H. inversion H; auto.
Qed.

(** C28: started with count n and no period, a timer posts on the n-th
    following tick and on no other, whatever is done to other timers. *)
Theorem C28_one_shot : forall c hook, hook_ok c hook ->
  forall h ops0 s led rs0 t n ops s' r rs, hook_spares t hook ->
  Forall (tmop_ok c) ops0 -> Forall (tmop_ok c) (TStart t n 0 :: ops) ->
  run (tm_step c hook) (tm_init h, []) ops0 = Ok ((s, led), rs0) -> In t led ->
  run (tm_step c hook) (s, led) (TStart t n 0 :: ops) = Ok (s', r :: rs) ->
  Forall (spares t) ops ->
  forall j ps, nth_error (ticks_of rs) j = Some ps ->
  count_occ N.eq_dec ps t = if N.of_nat j + 1 =? n then 1%nat else 0%nat.
Proof. exact C28_proof. Qed.
Print Assumptions C28_one_shot.

Example C28_ex :
  let ops0 := [TInit 7; TInit 3; TStart 7 1 0; TInit 4] in
  let ops := [TTick; TStart 4 1 2; TTick; TStop 7; TTick; TTick; TStop 3] in
  exists s led rs0 s' r rs,
  run (tm_step ex_cfg ex_hook) (tm_init ex_heap, []) ops0 = Ok ((s, led), rs0) /\
  run (tm_step ex_cfg ex_hook) (s, led) (TStart 3 3 0 :: ops) = Ok (s', r :: rs) /\
  In 3 led /\ Forall (spares 3) (firstn 6 ops) /\
  ticks_of rs = [[7]; [4]; [3]; [4]] /\ last rs TOSkip = TOStop false.
Proof.
  do 6 eexists. split; [vm_compute; reflexivity|]. split; [vm_compute; reflexivity|].
  split; [simpl; auto|]. split; [repeat constructor; simpl; congruence|]. split; reflexivity.
Qed.

(** C28, a second rkh_tmr_init: a timer that was running when the list was
    forgotten stays marked as running, so starting it again links nothing and
    no number of ticks makes it post. *)
Theorem C28_reinit_refuted : forall c hook s led t n p k,
  tm_used (ts_heap s t) = true -> In t led -> 0 < n ->
  exists s', run (tm_step c hook) (tm_init (ts_heap s), led) (TStart t n p :: repeat TTick k) =
             Ok (s', TOUnit :: repeat (TOTick []) k).
Proof.
  intros c hook s led t n p k Hu Hin Hn.
  assert (Hk : existsb (N.eqb t) led = true)
    by (apply existsb_exists; exists t; split; [exact Hin|apply N.eqb_refl]).
  assert (Hz : (n =? 0) = false) by (apply N.eqb_neq; lia).
  assert (Hr : forall k st, ts_head st = None ->
            run (tm_step c hook) (st, led) (repeat TTick k) = Ok ((st, led), repeat (TOTick []) k)).
  { induction k0 as [|k0 IH]; intros st Hh; [reflexivity|].
    cbn [repeat run tm_step]. unfold tm_tick. rewrite Hh. destruct (length led); cbn; rewrite (IH st Hh); reflexivity. }
  cbn [run tm_step]. rewrite Hk. unfold tm_start. rewrite Hz. cbn [negb].
  replace (rassert (tm_asrt c) 202 true) with (Ok tt) by (destruct (tm_asrt c); reflexivity).
  cbn [bind tm_init ts_heap]. rewrite Hu. cbn [bind]. rewrite Hr by reflexivity. eexists; reflexivity.
Qed.
Print Assumptions C28_reinit_refuted.

Example C28_reinit_ex : exists s led rs,
  run (tm_step ex_cfg no_hook) (tm_init ex_heap, []) [TInit 7; TInit 3; TStart 3 2 0; TTick] = Ok ((s, led), rs) /\
  tm_used (ts_heap s 3) = true /\ In 3 led /\
  exists s', run (tm_step ex_cfg no_hook) (tm_init (ts_heap s), led) (TStart 3 2 0 :: repeat TTick 3) =
             Ok (s', [TOUnit; TOTick []; TOTick []; TOTick []]).
Proof.
  do 3 eexists. split; [vm_compute; reflexivity|]. split; [vm_compute; reflexivity|].
  split; [simpl; auto|]. eexists. vm_compute. reflexivity.
Qed.

(** C29: with period p > 0 it posts on ticks n, n+p, n+2p, ... and no other. *)
Theorem C29_periodic : forall c hook, hook_ok c hook ->
  forall h ops0 s led rs0 t n p ops s' r rs, hook_spares t hook -> 0 < p ->
  Forall (tmop_ok c) ops0 -> Forall (tmop_ok c) (TStart t n p :: ops) ->
  run (tm_step c hook) (tm_init h, []) ops0 = Ok ((s, led), rs0) -> In t led ->
  run (tm_step c hook) (s, led) (TStart t n p :: ops) = Ok (s', r :: rs) ->
  Forall (spares t) ops ->
  forall j ps, nth_error (ticks_of rs) j = Some ps ->
  count_occ N.eq_dec ps t =
    if (n <=? N.of_nat j + 1) && ((N.of_nat j + 1 - n) mod p =? 0) then 1%nat else 0%nat.
Proof. exact C29_proof. Qed.
Print Assumptions C29_periodic.

Example C29_ex :
  let ops0 := [TInit 5; TInit 7; TStart 7 2 2] in
  exists s led rs0 s' r rs,
  run (tm_step ex_cfg ex_hook) (tm_init ex_heap, []) ops0 = Ok ((s, led), rs0) /\
  run (tm_step ex_cfg ex_hook) (s, led) (TStart 5 2 3 :: repeat TTick 9) = Ok (s', r :: rs) /\
  In 5 led /\ map (fun ps => count_occ N.eq_dec ps 5) (ticks_of rs) = [0; 1; 0; 0; 1; 0; 0; 1; 0]%nat.
Proof.
  do 6 eexists. split; [vm_compute; reflexivity|]. split; [vm_compute; reflexivity|].
  split; [simpl; auto|]. reflexivity.
Qed.

(** C30: no history faults, and with respect to every timer that the hooks do
    not touch, the results of all calls are those of an independent countdown. *)
Theorem C30_never_faults : forall c hook, hook_ok c hook ->
  forall h ops, Forall (tmop_ok c) ops ->
  exists s rs, run (tm_step c hook) (tm_init h, []) ops = Ok (s, rs).
Proof. exact hist_total. Qed.
Print Assumptions C30_never_faults.

Theorem C30_countdown : forall c hook, hook_ok c hook ->
  forall h ops s led rs t, hook_spares t hook -> Forall (tmop_ok c) ops ->
  run (tm_step c hook) (tm_init h, []) ops = Ok ((s, led), rs) ->
  agrees t None (combine ops rs).
Proof. exact hist_agrees. Qed.
Print Assumptions C30_countdown.

(** C30: stop tells whether the timer was running, and silences it. *)
Theorem C30_stop_silent : forall c hook, hook_ok c hook ->
  forall h ops0 s led rs0 t ops s' r rs, hook_spares t hook ->
  Forall (tmop_ok c) ops0 -> Forall (tmop_ok c) ops ->
  run (tm_step c hook) (tm_init h, []) ops0 = Ok ((s, led), rs0) -> In t led ->
  run (tm_step c hook) (s, led) (TStop t :: ops) = Ok (s', r :: rs) ->
  Forall (spares t) ops ->
  r = TOStop (running (track t None (combine ops0 rs0))) /\
  forall ps, In ps (ticks_of rs) -> ~ In t ps.
Proof. exact hist_after_stop. Qed.
Print Assumptions C30_stop_silent.

Example C30_ex :
  let ops0 := [TInit 1; TInit 2; TInit 7; TStart 1 3 3; TStart 2 2 0; TStart 7 1 0; TTick] in
  let ops := [TStop 1; TTick; TTick; TStop 7; TTick; TTick] in
  exists s led rs0 s' r rs,
  run (tm_step ex_cfg ex_hook) (tm_init ex_heap, []) ops0 = Ok ((s, led), rs0) /\
  run (tm_step ex_cfg ex_hook) (s, led) ops = Ok (s', r :: rs) /\
  running (track 1 None (combine ops0 rs0)) = true /\ r = TOStop true /\
  ticks_of rs = [[2]; []; []; []].
Proof.
  do 6 eexists. split; [vm_compute; reflexivity|]. split; [vm_compute; reflexivity|].
  repeat split; reflexivity.
Qed.

(** C31: in every reachable state the linked list is finite, duplicate free,
    and holds exactly the running timers. *)
Theorem C31_list_well_formed : forall c hook, hook_ok c hook ->
  forall h ops s led rs, (forall t, hook_spares t hook) -> Forall (tmop_ok c) ops ->
  run (tm_step c hook) (tm_init h, []) ops = Ok ((s, led), rs) ->
  exists l, path (ts_heap s) (ts_head s) l /\ NoDup l /\ incl l led /\
    forall t, In t l <-> running (track t None (combine ops rs)) = true.
Proof. exact hist_list. Qed.
Print Assumptions C31_list_well_formed.

Theorem C31_restart_in_place : forall c hook, hook_ok c hook ->
  forall h ops s led rs t n p, (forall t, hook_spares t hook) -> Forall (tmop_ok c) ops ->
  run (tm_step c hook) (tm_init h, []) ops = Ok ((s, led), rs) ->
  In t led -> 0 < n -> running (track t None (combine ops rs)) = true ->
  exists s', tm_start c s t n p = Ok s' /\ ts_head s' = ts_head s /\
    (forall x, tm_next (ts_heap s' x) = tm_next (ts_heap s x)) /\
    (forall x, x <> t -> ts_heap s' x = ts_heap s x).
Proof. exact hist_restart. Qed.
Print Assumptions C31_restart_in_place.

Example C31_ex :
  let ops := [TInit 1; TInit 2; TInit 3; TStart 1 1 0; TStart 2 1 4; TStart 3 6 0; TTick; TStart 1 2 0; TStop 3] in
  exists s led rs,
  run (tm_step ex_cfg no_hook) (tm_init ex_heap, []) ops = Ok ((s, led), rs) /\
  path (ts_heap s) (ts_head s) [1; 2] /\
  map (fun t => running (track t None (combine ops rs))) [1; 2; 3] = [true; true; false].
Proof.
  do 3 eexists. split; [vm_compute; reflexivity|]. split; [|reflexivity]. vm_compute. auto.
Qed.

(** C32: without hooks the results of all calls, including the order of the
    posts of a tick, are those of a list with the most recently linked timer
    in front. *)
Theorem C32_exact_order : forall c h ops, Forall (tmop_ok c) ops ->
  exists s, run (tm_step c no_hook) (tm_init h, []) ops = Ok (s, lk_run ([], []) ops).
Proof. exact lk_refines_top. Qed.
Print Assumptions C32_exact_order.

(** C32: of two timers started one after the other the later one posts first
    whenever both expire on the same tick. *)
Theorem C32_later_first : forall c hook, hook_ok c hook ->
  forall h ops0 s led rs0 a b na pa nb pb ops s' ra rb rs, a <> b ->
  (forall t, hook_spares t hook) ->
  Forall (tmop_ok c) ops0 -> Forall (tmop_ok c) (TStart a na pa :: TStart b nb pb :: ops) ->
  run (tm_step c hook) (tm_init h, []) ops0 = Ok ((s, led), rs0) -> In a led -> In b led ->
  running (track a None (combine ops0 rs0)) = false ->
  running (track b None (combine ops0 rs0)) = false ->
  run (tm_step c hook) (s, led) (TStart a na pa :: TStart b nb pb :: ops) = Ok (s', ra :: rb :: rs) ->
  Forall (spares a) ops -> Forall (spares b) ops ->
  forall ps, In ps (ticks_of rs) -> In a ps -> In b ps -> before b a ps.
Proof. exact hist_order. Qed.
Print Assumptions C32_later_first.

Example C32_ex :
  let ops0 := [TInit 1; TInit 2; TInit 3; TStart 3 2 2] in
  exists s led rs0 s' rs,
  run (tm_step ex_cfg no_hook) (tm_init ex_heap, []) ops0 = Ok ((s, led), rs0) /\
  run (tm_step ex_cfg no_hook) (s, led) [TStart 1 4 2; TStart 2 1 3; TTick; TTick; TTick; TTick] = Ok (s', rs) /\
  ticks_of rs = [[2]; [3]; []; [2; 1; 3]] /\ before 2 1 [2; 1; 3].
Proof.
  do 5 eexists. split; [vm_compute; reflexivity|]. split; [vm_compute; reflexivity|].
  split; [reflexivity|]. exists [], [], [3]. reflexivity.
Qed.

(** C33, positive half: if no hook touches the timers, one tick decrements
    every running timer exactly once ([agrees] for every timer). *)
Theorem C33_undisturbed : forall c hook, hook_ok c hook -> (forall t, hook_spares t hook) ->
  forall h ops s led rs, Forall (tmop_ok c) ops ->
  run (tm_step c hook) (tm_init h, []) ops = Ok ((s, led), rs) ->
  forall t, agrees t None (combine ops rs).
Proof. exact C33_proof. Qed.
Print Assumptions C33_undisturbed.

(** C33, negative half: whenever the hook of an expiring one-shot timer [x]
    restarts it, all timers in front of [x] lose two ticks at once. *)
Theorem C33_self_restart_skews : forall c s pre x post n p fuel,
  path (ts_heap s) (ts_head s) (pre ++ x :: post) -> NoDup (pre ++ x :: post) ->
  (forall y, In y (pre ++ x :: post) -> tm_used (ts_heap s y) = true) ->
  tm_ntick (ts_heap s x) = 1 -> tm_period (ts_heap s x) = 0 -> 1 < tnt_mod c ->
  (forall y, In y pre -> 2 < tm_ntick (ts_heap s y) < tnt_mod c) ->
  (forall y, In y post -> 1 < tm_ntick (ts_heap s y) < tnt_mod c) ->
  0 < n ->
  exists s', tm_tick c (self_restart c x n p) tm_post
               (length pre + (1 + (length (pre ++ post) + fuel))) s [] = Ok (s', [x]) /\
    path (ts_heap s') (ts_head s') (x :: pre ++ post) /\
    tm_ntick (ts_heap s' x) = n /\
    (forall y, In y pre -> tm_ntick (ts_heap s' y) = tm_ntick (ts_heap s y) - 2) /\
    (forall y, In y post -> tm_ntick (ts_heap s' y) = tm_ntick (ts_heap s y) - 1).
Proof. exact self_restart_tick. Qed.
Print Assumptions C33_self_restart_skews.

(** A timer started with count 2 expires on the first tick: the countdown claim
    is false for hooks that restart their own one-shot timer. *)
Theorem C33_early_refuted : exists s rs,
  let ops := [TInit 1; TInit 2; TInit 3; TStart 1 1 0; TStart 2 2 0; TTick] in
  run (tm_step ex_cfg (self_restart ex_cfg 1 5 0)) (tm_init ex_heap, []) ops = Ok (s, rs) /\
  ticks_of rs = [[1; 2]] /\ ~ agrees 2 None (combine ops rs).
Proof.
  do 2 eexists. split; [vm_compute; reflexivity|]. split; [reflexivity|].
  vm_compute. intros [H _]. discriminate H.
Qed.
Print Assumptions C33_early_refuted.

(** The hook of the timer at the head starts another timer while a one-shot
    timer behind it expires on the same tick: [tprev] is NULL. *)
Theorem C33_null_refuted :
  run (tm_step ex_cfg (self_restart ex_cfg 1 5 0)) (tm_init ex_heap, [])
    [TInit 1; TInit 2; TStart 2 1 0; TStart 1 1 0; TTick] = Fault (FUB UB_null).
Proof. vm_compute. reflexivity. Qed.
Print Assumptions C33_null_refuted.

(** The hook of a periodic timer stops it while the one-shot timer behind it
    expires: that timer stays linked though marked unused; starting it again
    makes the list cyclic and the next tick never ends. *)
Definition ex_cyc : res ((tmst * list N) * list tmout) :=
  run (tm_step ex_cfg (self_stop 3 2)) (tm_init ex_heap, [])
    [TInit 1; TInit 2; TInit 3; TStart 3 1 0; TStart 2 1 5; TStart 1 10 10; TTick; TStart 3 5 5].

Theorem C33_cycle_refuted : exists s led rs,
  ex_cyc = Ok ((s, led), rs) /\ ticks_of rs = [[2; 3]] /\
  forall fuel, tm_tick ex_cfg no_hook tm_post fuel s [] = Fault FFuel.
Proof.
  set (d := ((tm_init ex_heap, @nil N), @nil tmout)).
  exists (fst (fst (ok_or d ex_cyc))), (snd (fst (ok_or d ex_cyc))), (snd (ok_or d ex_cyc)).
  split.
  { assert (H : is_ok ex_cyc = true) by (vm_compute; reflexivity).
    rewrite (ok_or_eq d _ H) at 1. destruct (ok_or d ex_cyc) as [[? ?] ?]. reflexivity. }
  split; [vm_compute; reflexivity|]. intros fuel. unfold tm_tick.
  assert (Hh : ts_head (fst (fst (ok_or d ex_cyc))) = Some 3) by (vm_compute; reflexivity).
  rewrite Hh. apply (tm_loop_cycle ex_cfg tm_post 3 1);
    [intros t w; eexists; reflexivity | left; reflexivity | vm_compute; reflexivity | vm_compute; reflexivity
    | vm_compute; reflexivity | vm_compute; reflexivity | vm_compute; congruence | vm_compute; congruence].
Qed.
Print Assumptions C33_cycle_refuted.
