(** Limits, history defaults, and sequences of events. *)
From Verif Require Import Base L_Base M_Sm S_Sm S_SmWf S_SmRun L_Sm L_SmWalk L_SmStep L_SmDet L_SmWf L_SmKeep L_SmSafe L_SmProps L_SmDisp L_SmDo L_SmLog L_SmReplay.

Section Pure.
Context (c : smcfg) (M : machine) (grd : nat -> evt -> list xev -> bool).
Lemma overfull_stuck pe p q d1 : overfull c M grd pe (p_d p) (p_v p) (p_pend p) d1 -> seg c M grd pe p q -> False.
Proof.
  intros H1 H2. destruct p as [d v l b]. cbn in H1. inversion H2; subst; inversion H1; subst; cbn in *; try congruence; contradiction.
Qed.
Lemma overfull_fails pe p e d1 d2 : overfull c M grd pe (p_d p) (p_v p) (p_pend p) d1 -> fails c M grd pe p e d2 -> sm_asrt c = false.
Proof.
  intros H1 H2. destruct p as [d v l b]. cbn in H1. inversion H2; subst; auto; exfalso; inversion H1; subst; try congruence;
    match goal with E1 : nth_error M v = Some ?a, E2 : nth_error M v = Some ?b |- _ => assert (a = b) as E by congruence; injection E; intros; subst; clear E end;
    try (match goal with F : first_of _ _ _ _ _ _ |- _ => eapply first_denied; [exact F | eassumption] end).
  match goal with H : enabled _ _ _ _ _, G : t_grd _ = Some _ |- _ => unfold enabled in H; rewrite G in H; destruct H; congruence end.
Qed.
End Pure.

Section Deep.
(** Machines that need not be well-formed: deeper than the maximum. *)
Context (c : smcfg) (M : machine) (rank : nat -> nat) (T : tidy M rank) (grd : nat -> evt -> list xev -> bool).
Theorem do_deep fuel istate iact d pe ars d' e cs d1 ts l b lt :
  is_rsm M istate = false -> arrays_ok c ars -> tidy_ram M d -> d_st d = Some cs -> is_leaf M cs = true -> ev_sig pe <> (sm_any c - 2)%N ->
  dispatch c M grd fuel istate iact d pe ars = Ok (d', e) ->
  visits c M grd pe d false (mkP d1 ts l b) -> is_target M ts = true -> cs <> ts ->
  chain M (d_dyp d1) (Some ts) lt -> (sm_depth c < length lt)%nat -> tidy_ram M d1 ->
  sm_asrt c = false /\ d' = d1 /\ e = EX_HLEVEL /\ d_st d' = d_st d /\
  exists x, d_log d' = d_log d ++ x /\ exited x = [] /\ entered x = [].
Proof.
  intros Hi Ha Hr Es Hl Hs H Hv Ht Hne Hlt Hlen Hr1. pose proof Hs as Hs'. apply N.eqb_neq in Hs'.
  pose proof (dispatch_ok c M rank T grd fuel istate iact d pe ars d' e Hi Ha) as K. rewrite Hs' in K.
  destruct (K (conj Hr (ex_intro _ cs (conj Es Hl))) H) as (r & H1 & H2). rewrite Hs' in H1. clear K.
  destruct (visits_rest _ _ _ _ _ _ _ _ Hv H1) as (q & Hq & K). rewrite (segs_end_target _ _ _ _ _ _ Hq Ht) in K. cbn [p_d p_v p_pend p_base] in K.
  destruct K as [(e1 & d2 & Hf & _) | (_ & cs' & Es' & [(lc' & lt' & o & Hlc' & Hlt' & Hin & Hdef & Hset) | (lt' & A & _ & _ & _ & ->)])].
  - exfalso. eapply fails_target; eauto.
  - exfalso. assert (cs' = cs) by congruence. subst cs'. rewrite (chain_fun _ _ _ _ Hlt _ Hlt') in Hlen. destruct Hin as [Hin | Hin]; [| lia].
    inversion Hlt' as [| s p l' Hp Hl']; subst. destruct Hin as [-> | Hin]; [congruence|].
    rewrite (leaf_no_child _ _ T _ _ _ _ (tr_dyp _ _ Hr1) Hlt' Hin) in Hl. discriminate.
  - inversion H2; subst d' e. split; [exact A|]. split; [reflexivity|]. split; [reflexivity|].
    split; [exact (proj2 (step_rest c M rank T grd _ _ _ H1 (conj Hr (ex_intro _ cs (conj Es Hl)))))|].
    inversion Hv as [cs2 l2 src t dx v px Ec2 Hl2 Hsel Et _ Hsegs | |]; subst.
    destruct (segs_log _ _ _ _ _ _ Hsegs) as (x1 & L1 & (Q4 & Q5 & Q6) & _). cbn in L1.
    destruct (selected_log _ _ _ _ _ _ _ _ Hsel) as (x & -> & (Q1 & Q2 & Q3)%quiet_guards).
    exists (x ++ [XTrn src (Some v)] ++ x1). split; [rewrite L1; cbn; rewrite <- !app_assoc; reflexivity|].
    rewrite !exited_app, !entered_app, Q1, Q2, Q4, Q5. auto.
Qed.
End Deep.

Section Do.
Context (c : smcfg) (M : machine) (rank : nat -> nat) (home : nat -> option nat).
Context (W : wf_machine c M rank home = true) (grd : nat -> evt -> list xev -> bool).
Notation ram_ok := (ram_ok c M home).
Notation machine_ok := (machine_ok c M home).
Notation chain := (chain M).
Notation visits := (visits c M grd).

Theorem do_overfull fuel istate iact d pe ars d' e m p d1 :
  wf_initial c M home istate = true -> arrays_ok c ars -> machine_ok d -> ev_sig pe <> (sm_any c - 2)%N ->
  dispatch c M grd fuel istate iact d pe ars = Ok (d', e) ->
  visits pe d m p -> overfull c M grd pe (p_d p) (p_v p) (p_pend p) d1 ->
  sm_asrt c = false /\ d' = d1 /\ e = EX_TSEG /\ d_st d' = d_st d.
Proof.
  intros Hi Ha Hm Hs H Hv Ho. destruct (disp_step _ _ _ _ W _ _ _ _ _ _ _ _ _ Hi Ha Hm Hs H) as (r & H1 & H2 & _).
  assert (exists e1 d2, fails c M grd pe p e1 d2 /\ r = Error d2 e1) as (e1 & d2 & Hf & Er).
  { destruct (visits_rest _ _ _ _ _ _ _ _ Hv H1) as (q & Hq & K).
    assert (q = p) as ->. { inversion Hq as [| p0 q0 r0 S1 S2]; subst; [reflexivity|]. exfalso. eapply overfull_stuck; eauto. }
    destruct K as [(e1 & d2 & Hf & Er) | [Ht _]]; [eauto|]. exfalso.
    unfold is_target in Ht. inversion Ho; subst; repeat match goal with E : nth_error M ?v = _ |- _ => rewrite ?E in Ht; clear E end; discriminate. }
  pose proof (overfull_fails _ _ _ _ _ _ _ _ Ho Hf) as A. subst r. inversion H2; subst d' e.
  assert (fails c M grd pe p EX_TSEG d1) as Hf2 by (destruct p; apply fail_full; assumption).
  destruct (fails_fun _ _ _ _ _ _ _ _ _ Hf Hf2) as [-> ->]. split; [exact A|]. split; [reflexivity|]. split; [reflexivity|].
  destruct Hm as (Hr & s & Es & Hl & _).
  exact (proj2 (step_rest c M rank (wf_tidy c M rank home W) grd _ _ _ H1 (conj (ram_tidy c M home _ Hr) (ex_intro _ s (conj Es Hl))))).
Qed.

(** A history never set. *)
Theorem do_history_default fuel istate iact d pe ars d' e cs d1 h l b deep q dft :
  wf_initial c M home istate = true -> arrays_ok c ars -> machine_ok d -> ev_sig pe <> (sm_any c - 2)%N ->
  dispatch c M grd fuel istate iact d pe ars = Ok (d', e) -> d_st d = Some cs ->
  visits pe d false (mkP d1 h l b) -> nth_error M h = Some (VHist deep (Some q) dft) -> d_hist d h = None ->
  match t_tgt dft with
  | None => visits pe d false (mkP d1 q l q) /\ is_target M q = true
  | Some v1 =>
    (forall d2, enabled grd pe d1 dft d2 -> (length l < sm_segs c)%nat -> visits pe d false (mkP d2 v1 (l ++ act1 (t_act dft)) q)) /\
    (forall g, t_grd dft = Some g -> grd g pe (d_log d1) = false ->
       d' = say d1 [XGrd g pe false] /\ e = GRD_FALSE /\ d_st d' = d_st d)
  end.
Proof.
  intros Hi Ha Hm Hs H Es Hv Hh Ec. destruct (disp_step _ _ _ _ W _ _ _ _ _ _ _ _ _ Hi Ha Hm Hs H) as (r & H1 & H2 & _).
  pose proof (visits_hist _ _ _ grd _ _ _ Hv Hm) as E. cbn in E.
  assert (d_hist d1 h = None) as Ec1 by (rewrite E; exact Ec).
  destruct (t_tgt dft) as [v1|] eqn:Et.
  - split.
    + intros d2 En Hroom. eapply visits_on; [exact Hv|]. econstructor; [| constructor]. eapply seg_hist_dft; eauto.
    + intros g Eg Ef. assert (fails c M grd pe (mkP d1 h l b) GRD_FALSE (say d1 [XGrd g pe false])) as Hf by (eapply fail_hist; eauto).
      destruct (visits_fails _ _ _ _ _ _ _ _ _ _ _ _ Hv H1 H2 Hf) as [-> ->]. split; [reflexivity|]. split; [reflexivity|].
      assert (r = Error (say d1 [XGrd g pe false]) GRD_FALSE) as Er.
      { destruct (visits_rest _ _ _ _ _ _ _ _ Hv H1) as (qq & Hq & K). rewrite (segs_end_fails _ _ _ _ _ _ _ _ Hq Hf) in K.
        destruct K as [(e2 & d2 & Hx2 & ->) | [Ht _]]; [| exfalso; eapply fails_target; eauto].
        destruct (fails_fun _ _ _ _ _ _ _ _ _ Hf Hx2) as [<- <-]. reflexivity. }
      subst r. destruct Hm as (Hr & s & Es' & Hl & _).
      exact (proj2 (step_rest c M rank (wf_tidy c M rank home W) grd _ _ _ H1 (conj (ram_tidy c M home _ Hr) (ex_intro _ s (conj Es' Hl))))).
  - split.
    + eapply visits_on; [exact Hv|]. econstructor; [| constructor]. eapply seg_hist_none; eauto.
    + destruct (ty_hist _ _ (wf_tidy c M rank home W) _ _ _ _ Hh) as (q' & [= <-] & Hq). unfold is_comp in Hq. unfold is_target.
      destruct (nth_error M q) as [[]|]; congruence.
Qed.
(** The same on a default transition: the region is active already. *)
Theorem do_order_inner fuel istate iact d pe ars d' e d1 ts l b es :
  wf_initial c M home istate = true -> arrays_ok c ars -> machine_ok d -> ev_sig pe <> (sm_any c - 2)%N ->
  dispatch c M grd fuel istate iact d pe ars = Ok (d', e) ->
  visits pe d true (mkP d1 ts l b) -> is_target M ts = true -> below M (Some b) (Some ts) es ->
  exists rest, d_log d' = d_log d1 ++ map (fun a => XEff a pe) l ++ map (fun s => XEntry s (entry_of M s)) (rev es) ++ rest.
Proof.
  intros Hi Ha Hm Hs H Hv Ht Hb. destruct (disp_step _ _ _ _ W _ _ _ _ _ _ _ _ _ Hi Ha Hm Hs H) as (r & H1 & H2 & _).
  destruct (visits_rest _ _ _ _ _ _ _ _ Hv H1) as (q & Hq & K). rewrite (segs_end_target _ _ _ _ _ _ Hq Ht) in K. cbn [p_d p_v p_pend p_base] in K.
  destruct K as [(e1 & d2 & Hf & _) | (_ & es' & o & Hb' & Hdef & Hset)]; [exfalso; eapply fails_target; eauto|].
  rewrite (below_fun _ _ _ _ Hb' _ Hb) in Hdef.
  destruct (ext_trans _ _ _ (default_ext _ _ _ _ _ _ _ Hdef) (ext_trans _ _ _ (settle_ext _ _ _ _ Hset) (finish_ext _ _ _ _ _ _ H2))) as [rest E].
  exists rest. rewrite E. unfold enter, effects. cbn. rewrite <- !app_assoc. reflexivity.
Qed.

(** Reachable RAM. *)
Theorem run_machine fuel istate iact ops d s : wf_initial c M home istate = true -> Forall (smop_ok c) ops ->
  sm_run c M grd fuel istate iact blank ops = Ok d -> d_st d = Some s -> machine_ok d.
Proof.
  intros Hi Ho H Es. eapply ready_machine; [| exact Es]. eapply (run_ready c M rank home W); [exact Hi | exact Ho | apply (blank_ready c M home) | exact H].
Qed.

Context (S1 : single_use M = true).
Definition ok_code (e : rcode) : Prop := e = EVT_PROC \/ e = EVT_NFOUND.
Theorem feed_replay fuel istate iact : wf_initial c M home istate = true -> forall evs d d' es lc cs,
  Forall (fun ea => ev_sig (fst ea) <> (sm_any c - 2)%N /\ arrays_ok c (snd ea)) evs -> machine_ok d ->
  feed c M grd fuel istate iact d evs = Ok (d', es) -> Forall ok_code es ->
  d_st d = Some cs -> chain (d_dyp d) (Some cs) lc ->
  exists x s ln, d_log d' = d_log d ++ x /\ d_st d' = Some s /\ chain (d_dyp d') (Some s) ln /\ replay M lc x = Some ln.
Proof.
  intros Hi. induction evs as [| [pe ars] evs IH]; intros d d' es lc cs Hev Hm H Hes Es Hl; cbn [feed] in H.
  - injection H as <- <-. exists [], cs, lc. rewrite app_nil_r. auto.
  - inversion Hev as [| ? ? [He1 He2] Hev']; subst. cbn in He1, He2. apply bind_ok in H as ([d1 e] & H1 & H). apply bind_ok in H as ([d2 es2] & H2 & H).
    injection H as <- <-. inversion Hes as [| ? ? Hc Hes']; subst.
    destruct (do_replay c M rank home W S1 grd _ _ _ _ _ _ _ _ _ _ Hi He2 Hm He1 H1 Hc Es Hl) as (x & s & ln & Ex & Es1 & Hl1 & R1).
    destruct (disp_step _ _ _ _ W _ _ _ _ _ _ _ _ _ Hi He2 Hm He1 H1) as (_ & _ & _ & Hm1).
    destruct (IH d1 d2 es2 ln s Hev' Hm1 H2 Hes' Es1 Hl1) as (y & s2 & ln2 & Ey & Es2 & Hl2 & R2).
    exists (x ++ y), s2, ln2. split; [rewrite Ey, Ex, app_assoc; reflexivity|]. split; [exact Es2|]. split; [exact Hl2|].
    rewrite replay_app, R1. exact R2.
Qed.
Theorem life_replay fuel istate iact ars evs d0 e0 d' es :
  wf_initial c M home istate = true -> arrays_ok c ars ->
  Forall (fun ea => ev_sig (fst ea) <> (sm_any c - 2)%N /\ arrays_ok c (snd ea)) evs ->
  sm_init c M grd fuel istate iact blank ars = Ok (d0, e0) -> feed c M grd fuel istate iact d0 evs = Ok (d', es) ->
  Forall ok_code (e0 :: es) ->
  exists s ln, d_st d' = Some s /\ chain (d_dyp d') (Some s) ln /\ replay M [] (d_log d') = Some ln.
Proof.
  intros Hi Ha Hev H0 H Hes. inversion Hes as [| ? ? Hc Hes']; subst.
  destruct (init_replay c M rank home W S1 grd _ _ _ _ _ _ _ Hi Ha (blank_ready c M home) H0 Hc) as (x & s & ln & Ex & Es & Hl & R).
  assert (machine_ok d0) as Hm.
  { apply (run_machine fuel istate iact [OInit ars] d0 s Hi); [repeat constructor; apply Ha | | exact Es]. cbn. rewrite H0. reflexivity. }
  destruct (feed_replay fuel istate iact Hi evs d0 d' es ln s Hev Hm H Hes' Es Hl) as (y & s2 & ln2 & Ey & Es2 & Hl2 & R2).
  exists s2, ln2. split; [exact Es2|]. split; [exact Hl2|]. rewrite Ey, Ex. cbn [blank d_log app]. rewrite replay_app, R. exact R2.
Qed.
End Do.
