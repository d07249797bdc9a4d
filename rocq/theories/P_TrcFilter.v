(** Properties C40 and C41: trace filters. *)
From Verif Require Import Base M_BitTbl M_TrcFilter S_TrcFilter L_TrcFilter.
Local Open Scope N_scope.

(** C40: after any sequence of operations with valid arguments,
    [rkh_trc_isoff_] answers the conjunction of the switch of the group and the
    switch of the event, as the independent switches of [w_step] compute them. *)
Theorem C40_switches : forall c nsig nsma ops g e,
  fl_cfg_ok c nsig nsma -> Forall (fop_ok nsig nsma) ops -> ev_ok g e ->
  exists f, f_run c (fl_init nsig nsma) ops = Ok f /\
    fl_isoff c f (evid c g e) = Ok (w_grp (w_run w_init ops) g && w_evt (w_run w_init ops) g e).
Proof. intros c nsig nsma ops g e Hc. exact (switches c nsig nsma Hc ops g e). Qed.
Print Assumptions C40_switches.

(** C40: a record is emitted iff all the switches it depends on are on. *)
Theorem C40_record_emitted : forall c nsig nsma ops g e p s,
  fl_cfg_ok c nsig nsma -> Forall (fop_ok nsig nsma) ops -> ev_ok g e ->
  (fl_sma_en c = true -> p < 8 * N.of_nat nsma) ->
  (fl_sig_en c = true -> s <> fl_compl c -> s < 8 * N.of_nat nsig) ->
  let w := w_run w_init ops in
  exists f, f_run c (fl_init nsig nsma) ops = Ok f /\
    fl_gate c f (evid c g e) p s =
      Ok (w_grp w g && w_evt w g e && (if fl_sma_en c then w_sma w p else true) &&
          (if fl_sig_en c then (s =? fl_compl c) || w_sig w s else true)).
Proof. intros c nsig nsma ops g e p s Hc. exact (gate c nsig nsma Hc ops g e p s). Qed.
Print Assumptions C40_record_emitted.

Definition C40_cfg : fcfg := mkFCfg true 5 256 256 true true 254.
Definition C40_ops : list fop :=
  [FGroupEvts true 3; FEvent false 3 20; FEvent true 7 7; FGroup false 7; FAllSig true; FSig false 5;
   FSma true 2; FEvent true 6 31].
Example C40_ex :
  fl_cfg_ok C40_cfg 6 2 /\ Forall (fop_ok 6 2) C40_ops /\ ev_ok 3 20 /\ ev_ok 3 21 /\
  exists f, f_run C40_cfg (fl_init 6 2) C40_ops = Ok f /\
    fl_isoff C40_cfg f (evid C40_cfg 3 21) = Ok true /\
    fl_isoff C40_cfg f (evid C40_cfg 3 20) = Ok false /\
    fl_isoff C40_cfg f (evid C40_cfg 7 7) = Ok false /\
    fl_gate C40_cfg f (evid C40_cfg 3 21) 2 7 = Ok true /\
    fl_gate C40_cfg f (evid C40_cfg 3 21) 2 5 = Ok false /\
    fl_gate C40_cfg f (evid C40_cfg 3 21) 1 7 = Ok false.
Proof.
  split; [|split; [|split; [|split]]].
  - split; [left; split; reflexivity|]. cbn. repeat split; lia.
  - repeat constructor; cbn; try lia; intros; lia.
  - split; reflexivity.
  - split; reflexivity.
  - eexists. split; [vm_compute; reflexivity|]. repeat split; vm_compute; reflexivity.
Qed.

(** C40, the restriction on the unit-test group is needed: the event
    RKH_TE_UT_SUCCESS (inside the range of its group) has the number of
    RKH_TRC_ALL_EVENTS. Switching it on switches on everything, and
    RKH_TE_UT_FAIL is rejected by the assertion. *)
Theorem C40_unit_test_events_refuted :
  ev_ok 7 8 /\ ev_ok 7 9 /\
  (exists f, f_step C40_cfg (fl_init 6 2) (FEvent true 7 8) = Ok f /\
     forall g e, ev_ok g e -> fl_isoff C40_cfg f (evid C40_cfg g e) = Ok true) /\
  f_step C40_cfg (fl_init 6 2) (FEvent true 7 9) = Fault (FAssert 243).
Proof. exact ut_events. Qed.
Print Assumptions C40_unit_test_events_refuted.

(** C40, the restriction to the range of the group is needed: the event with
    number 8 of the memory pool group (the identifier has room for 32) shares
    its filter with the first event of the queue group. *)
Theorem C40_out_of_range_refuted :
  exists f, f_run C40_cfg (fl_init 6 2) [FGroup true 1; FEvent true 0 8] = Ok f /\
    fl_isoff C40_cfg f (evid C40_cfg 1 0) = Ok true /\ ~ ev_ok 0 8 /\ evid C40_cfg 0 8 < 32.
Proof.
  eexists. split; [vm_compute; reflexivity|]. split; [vm_compute; reflexivity|].
  split; [intros [_ H]; vm_compute in H; discriminate|reflexivity].
Qed.
Print Assumptions C40_out_of_range_refuted.

(** C40: asking about an unused event of the last group reads past the table. *)
Theorem C40_query_bounds_refuted :
  exists f, f_run C40_cfg (fl_init 6 2) [FGroup true 7] = Ok f /\
    fl_isoff C40_cfg f (evid C40_cfg 7 16) = Fault (FUB UB_bounds).
Proof. eexists. split; vm_compute; reflexivity. Qed.
Print Assumptions C40_query_bounds_refuted.

(** C41: for tables of up to 256 slots the symbol filters are independent
    switches. *)
Theorem C41_symbols : forall c nsig nsma ops s p,
  fl_cfg_ok c nsig nsma -> Forall (fop_ok nsig nsma) ops ->
  s < 8 * N.of_nat nsig -> p < 8 * N.of_nat nsma ->
  exists f, f_run c (fl_init nsig nsma) ops = Ok f /\
    fl_sym_isoff c f 1 s = Ok (w_sig (w_run w_init ops) s) /\
    fl_sym_isoff c f 2 p = Ok (w_sma (w_run w_init ops) p).
Proof. intros c nsig nsma ops s p Hc. exact (symbols c nsig nsma Hc ops s p). Qed.
Print Assumptions C41_symbols.

(** C41: a filter that does not exist and a slot past the end of the table by
    more than one are rejected, whatever the state of the filters. *)
Theorem C41_misuse_rejected : forall c f fd slot mode,
  fl_asrt c = true -> slot < fl_fsm c ->
  (3 <= fd -> fl_sym c f fd slot mode = Fault (FAssert 209) /\ fl_sym_isoff c f fd slot = Fault (FAssert 209)) /\
  (fd = 1 -> 8 * N.of_nat (length (f_sig f)) < slot ->
     fl_sym c f fd slot mode = Fault (FAssert 287) /\ fl_sym_isoff c f fd slot = Fault (FAssert 308)) /\
  (fd = 2 -> 8 * N.of_nat (length (f_sma f)) < slot ->
     fl_sym c f fd slot mode = Fault (FAssert 287) /\ fl_sym_isoff c f fd slot = Fault (FAssert 308)).
Proof.
  intros c f fd slot mode Ha Hs. unfold fl_sym, fl_sym_isoff, getFilterTable. rewrite Ha. unfold rassert.
  rewrite (N.mod_small slot) by exact Hs. split; [|split].
  - intros H. assert (Hf : (fd <? 3) = false) by (apply N.ltb_ge; exact H). rewrite Hf. split; reflexivity.
  - intros -> H. change (1 <? 3) with true. change (1 =? 1) with true. cbn [negb orb andb bind].
    assert (Hle : (slot <=? 8 * N.of_nat (length (f_sig f))) = false) by (apply N.leb_gt; exact H). rewrite Hle. split; reflexivity.
  - intros -> H. change (2 <? 3) with true. change (2 =? 1) with false. cbn [negb orb andb bind].
    assert (Hle : (slot <=? 8 * N.of_nat (length (f_sma f))) = false) by (apply N.leb_gt; exact H). rewrite Hle. split; reflexivity.
Qed.
Print Assumptions C41_misuse_rejected.
Example C41_misuse_ex :
  fl_sym C40_cfg (fl_init 6 2) 3 0 1 = Fault (FAssert 209) /\ fl_sym_isoff C40_cfg (fl_init 6 2) 2 17 = Fault (FAssert 308).
Proof. split; reflexivity. Qed.

Example C41_ex :
  w_sig (w_run w_init C40_ops) 5 = false /\ w_sig (w_run w_init C40_ops) 6 = true /\
  w_sma (w_run w_init C40_ops) 2 = true /\ w_sma (w_run w_init C40_ops) 3 = false.
Proof. repeat split; reflexivity. Qed.

(** C41, larger tables: with 8-bit event identifiers the query looks at the slot
    modulo 256, for any slot from 256 on. *)
Theorem C41_large_slots_refuted :
  let c := mkFCfg true 5 256 65536 true true 65534 in
  forall s, 256 <= s < 320 ->
  exists f, f_run c (fl_init 40 2) [FSig true s] = Ok f /\
    fl_sym_isoff c f 1 s = Ok false /\ w_sig (w_run w_init [FSig true s]) s = true.
Proof. exact large_slots. Qed.
Print Assumptions C41_large_slots_refuted.

(** C41: the assertion lets the first slot past the table through, for every
    table. *)
Theorem C41_bound_check_refuted : forall c nsma n on,
  fl_asrt c = true -> 8 * N.of_nat n < fl_fsm c ->
  fl_sym c (fl_init n nsma) 1 (8 * N.of_nat n) (ctl on) = Fault (FUB UB_bounds).
Proof. exact bound_check. Qed.
Print Assumptions C41_bound_check_refuted.

Example C41_bound_ex : 8 * N.of_nat 6 < fl_fsm C40_cfg /\
  fl_sym C40_cfg (fl_init 6 2) 1 48 1 = Fault (FUB UB_bounds).
Proof. split; vm_compute; reflexivity. Qed.

(** C41: RKH_FILTER_OFF_ALL_SIGNALS on a table of 256 bytes or more runs past its
    end: the loop index is a rui8_t. *)
Theorem C41_all_signals_refuted :
  let c := mkFCfg true 5 256 65536 true true 65534 in
  f_step c (fl_init 256 2) (FAllSig true) = Fault (FUB UB_bounds).
Proof. vm_compute. reflexivity. Qed.
Print Assumptions C41_all_signals_refuted.

(** C40: the group number is not checked.  A number above the last group switches
    every group, as "all groups" does, and the macro that switches all events of a
    group as well reads past the table of groups. *)
Theorem C40_group_number_refuted : forall c f on g,
  8 < g < 256 -> f_grp f < 256 ->
  f_step c f (FGroup on g) = f_step c f (FAllGroups on) /\
  f_step c f (FGroupEvts on g) = Fault (FUB UB_bounds).
Proof.
  intros c f on g Hg Hf. unfold f_step, fl_group, u8. rewrite (N.mod_small g) by lia.
  replace (g =? ALL_GROUPS) with false by (symmetry; apply N.eqb_neq; unfold ALL_GROUPS; lia).
  replace (ALL_GROUPS mod 256 =? ALL_GROUPS) with true by reflexivity.
  unfold setOneFilter, getBitMask. replace (g <? 8) with false by (symmetry; apply N.ltb_ge; lia). cbn [bind].
  assert (Hlog : N.log2 (f_grp f) < 8).
  { destruct (N.eq_dec (f_grp f) 0) as [->|Hn]; [reflexivity|]. apply N.log2_lt_pow2; [lia|exact Hf]. }
  change INVALID_BITPOS with (N.ones 8). rewrite N.lor_ones_low, N.ldiff_ones_r_low by exact Hlog. split.
  - destruct on; reflexivity.
  - unfold rd. change (0 =? ECHANGE) with true. cbn iota.
    rewrite (proj2 (nth_error_None trcgmtbl (N.to_nat g))) by (cbn [length trcgmtbl]; lia). reflexivity.
Qed.
Print Assumptions C40_group_number_refuted.

Example C40_group_number_ex :
  f_grp (fl_init 6 2) < 256 /\
  exists f, f_step C40_cfg (fl_init 6 2) (FGroup true 9) = Ok f /\ f_grp f = 255.
Proof. split; [reflexivity|]. eexists. split; vm_compute; reflexivity. Qed.

(** C40: switching all events of all groups leaves the switches of the events as
    they are, so after the start nothing is emitted. *)
Theorem C40_all_groups_events_refuted : forall c nsig nsma g e,
  fl_cfg_ok c nsig nsma -> ev_ok g e ->
  exists f, f_step c (fl_init nsig nsma) (FGroupEvts true ALL_GROUPS) = Ok f /\
    fl_isoff c f (evid c g e) = Ok false.
Proof.
  intros c nsig nsma g e Hc He.
  destruct (C40_switches c nsig nsma [FAllGroups true] g e Hc ltac:(repeat constructor) He) as (f & E & H).
  exists f. cbn [f_run] in E. split; [|exact H].
  destruct (f_step c (fl_init nsig nsma) (FAllGroups true)) as [f1|] eqn:E1; [|discriminate]. cbn [bind] in E. injection E as ->. exact E1.
Qed.
Print Assumptions C40_all_groups_events_refuted.

(** C41: the filter of the trace events, the first number of RKHFilter, is taken
    for the one of the active objects. *)
Theorem C41_event_filter_refuted : forall c f slot mode,
  fl_sym c f 0 slot mode = fl_sym c f 2 slot mode /\ fl_sym_isoff c f 0 slot = fl_sym_isoff c f 2 slot.
Proof. intros c f slot mode. split; reflexivity. Qed.
Print Assumptions C41_event_filter_refuted.
