(** C75: the trace records of the timers tell the truth about them. *)
From Verif Require Import Base L_Base M_Tmr S_Tmr L_Tmr M_TmrTrc S_TmrTrc L_TmrTrc.
Local Open Scope N_scope.

(** Every call makes the records it should, for any sequence of calls. *)
Theorem C75_records : forall c h ops, Forall (tmop_ok c) ops ->
  exists s rss, run (tm_step_t c) (tm_init h, []) ops = Ok (s, rss) /\ trace_ok ([], []) ops rss.
Proof.
  intros c h ops Hf. destruct (hist_t c ops (tm_init h) [] [] (tm_init_inv c h) Hf) as (s' & led & l & rss & outs & E & _ & _ & T & _).
  exists (s', led), rss. auto.
Qed.
(** With the records the timers do what they do without, and the posts of a tick are
    those that C32 tells. *)
Theorem C75_no_effect : forall c h ops s rss, Forall (tmop_ok c) ops -> run (tm_step_t c) (tm_init h, []) ops = Ok (s, rss) ->
  exists outs, run (tm_step c no_hook) (tm_init h, []) ops = Ok (s, outs) /\
    map posts_of rss = map (fun out => match out with TOTick ps => ps | _ => [] end) outs.
Proof.
  intros c h ops s rss Hf E0. destruct (hist_t c ops (tm_init h) [] [] (tm_init_inv c h) Hf) as (s' & led & l & rss' & outs & E & E2 & _ & _ & _ & _ & P).
  rewrite E in E0. injection E0 as <- <-. eauto.
Qed.
(** From the records alone the list of running timers can be told, in its order. *)
Theorem C75_replay : forall c h ops s led rss, Forall (tmop_ok c) ops -> run (tm_step_t c) (tm_init h, []) ops = Ok ((s, led), rss) ->
  path (ts_heap s) (ts_head s) (replay (concat rss)) /\ NoDup (replay (concat rss)) /\
  forall t, In t led -> (In t (replay (concat rss)) <-> tm_used (ts_heap s t) = true).
Proof.
  intros c h ops s led rss Hf E0.
  destruct (hist_t c ops (tm_init h) [] [] (tm_init_inv c h) Hf) as (s' & led' & l & rss' & outs & E & E2 & Hi & _ & R & _).
  rewrite E in E0. injection E0 as <- <- <-. unfold replay. rewrite R. destruct Hi. split; [exact ti_path|]. split; [exact ti_nd|].
  intros t Ht. split; [intros H; apply (ti_in t H)|]. intros Hu. destruct (in_dec N.eq_dec t l) as [|Hn]; [assumption|].
  destruct (ti_out t Ht Hn) as [Hf' _]. congruence.
Qed.
(** Only a timer that runs, as far as the records tell, expires or is removed. *)
Theorem C75_only_running : forall c h ops s rss, Forall (tmop_ok c) ops -> run (tm_step_t c) (tm_init h, []) ops = Ok (s, rss) ->
  sound [] (concat rss).
Proof.
  intros c h ops s rss Hf E0.
  destruct (hist_t c ops (tm_init h) [] [] (tm_init_inv c h) Hf) as (s' & led' & l & rss' & outs & E & _ & _ & _ & _ & So & _).
  rewrite E in E0. injection E0 as <- <-. exact So.
Qed.
(** The ticks in the record of a stop are those that were missing: had they come instead
    of the stop, the last of them, and none before, would have posted the event. *)
Theorem C75_stop_figure : forall c h ops s led rss t n p rs s1, Forall (tmop_ok c) ops ->
  run (tm_step_t c) (tm_init h, []) ops = Ok ((s, led), rss) -> tm_step_t c (s, led) (TStop t) = Ok (s1, RStop t n p :: rs) ->
  (n = 0 <-> ~ In t (replay (concat rss))) /\
  (0 < n -> forall ops' s' rs', Forall (tmop_ok c) ops' -> Forall (spares t) ops' ->
    run (tm_step c no_hook) (s, led) ops' = Ok (s', rs') ->
    forall j ps, nth_error (ticks_of rs') j = Some ps -> N.of_nat j < n ->
    count_occ N.eq_dec ps t = (if N.of_nat j + 1 =? n then 1%nat else 0%nat)).
Proof.
  intros c h ops s led rss t n p rs s1 Hf E0 Es.
  destruct (hist_t c ops (tm_init h) [] [] (tm_init_inv c h) Hf) as (s' & led' & l & rss' & outs & E & E2 & Hi & _ & R & _).
  rewrite E in E0. injection E0 as <- <- <-. unfold replay. rewrite R.
  destruct (step_t c s' led' l (TStop t) Hi I) as (s2 & led2 & l2 & rs2 & out & F1 & _ & _ & F2 & _). rewrite Es in F1. injection F1 as -> <-.
  cbn [recs_ok] in F2. rewrite lkl_find in F2. destruct (existsb (N.eqb t) led'); [|discriminate].
  destruct (in_dec N.eq_dec t l) as [Hin|Hin].
  - injection F2 as -> -> _. destruct (ti_in c s' led' l Hi t Hin) as [_ [Hr _]].
    split; [split; [lia|tauto]|]. intros _ ops' s3 rs3 Ho Hs Er j ps Hj Hlt.
    destruct (tm_run_agrees c no_hook (no_hook_ok c) t (no_hook_spares t) ops' s' led' l Hi Ho) as (s4 & led4 & l4 & rs4 & E4 & _ & Ha & _).
    rewrite Er in E4. injection E4 as E41 E42. subst s3 rs4. pose proof (run_len _ _ _ _ _ _ Er) as HL.
    rewrite (agrees_nth t ops' rs3 _ HL Ha Hs j ps Hj). unfold cd. destruct (in_dec N.eq_dec t l) as [_|]; [|tauto].
    assert (T : forall j n p, N.of_nat j < n -> ticked j (Some (n, p)) = Some (n - N.of_nat j, p)).
    { clear. induction j as [|j IH]; intros n p H; cbn [ticked]; [now rewrite N.sub_0_r|]. cbn [after_tick].
      replace (n =? 1) with false by lia. rewrite IH by lia. do 2 f_equal. lia. }
    rewrite T by exact Hlt. cbn [fires]. destruct (N.eqb_spec (N.of_nat j + 1) (tm_ntick (ts_heap s' t))) as [Hq|Hq].
    + replace (_ =? 1) with true by lia. reflexivity.
    + replace (_ =? 1) with false by lia. reflexivity.
  - destruct F2 as [p2 F2]. injection F2 as -> _ _. split; [tauto|lia].
Qed.
(** Three timers, two of which expire in the same tick, one for the last time; one is
    stopped and started again, one initialised while it runs. *)
Definition tt_cfg : tmcfg := mkTmCfg true 65536.
Definition tt_ops : list tmop :=
  [TInit 1; TInit 2; TInit 3; TStart 1 2 0; TStart 2 1 1; TStart 3 9 4; TTick; TTick; TStop 1; TStop 3; TStart 1 5 0; TInit 2; TTick].
Example C75_ex : Forall (tmop_ok tt_cfg) tt_ops /\
  exists s, run (tm_step_t tt_cfg) (tm_init (fun _ => mkTmr (Some 77) 5 3 false), []) tt_ops = Ok (s,
   [[RInit 1]; [RInit 2]; [RInit 3]; [RStart 1 2 0]; [RStart 2 1 1]; [RStart 3 9 4];
    [RTout 2; RPost 2]; [RTout 2; RPost 2; RTout 1; RRem 1; RPost 1];
    [RStop 1 0 0]; [RStop 3 7 4; RRem 3]; [RStart 1 5 0]; [RRem 2; RInit 2]; []]).
Proof.
  split; [repeat constructor; vm_compute; auto; discriminate|]. eexists. vm_compute. reflexivity.
Qed.
(** A timer that was never started has no period, but the record of its stop shows one. *)
Theorem C75_period_refuted : forall p, exists h s, 
  run (tm_step_t tt_cfg) (tm_init h, []) [TInit 1; TStop 1] = Ok (s, [[RInit 1]; [RStop 1 0 p]]).
Proof. intros p. exists (fun _ => mkTmr None 5 p false). eexists. reflexivity. Qed.

Print Assumptions C75_records.
Print Assumptions C75_no_effect.
Print Assumptions C75_replay.
Print Assumptions C75_only_running.
Print Assumptions C75_stop_figure.
Print Assumptions C75_period_refuted.
