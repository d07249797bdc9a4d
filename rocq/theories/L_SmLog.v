(** Arrivals, completion and histories, read off the log. *)
From Verif Require Import Base L_Base M_Sm S_Sm S_SmWf S_SmRun L_Sm L_SmWalk L_SmStep L_SmDet L_SmWf L_SmKeep L_SmSafe L_SmProps L_SmDisp L_SmDo.

Section Pure.
Context (c : smcfg) (M : machine) (grd : nat -> evt -> list xev -> bool).
(** No arrival. *)
Definition still (d d' : dyn) : Prop := exists x, d_log d' = d_log d ++ x /\ states x = [].
Lemma still_refl d : still d d.
Proof. exists []. split; [symmetry; apply app_nil_r | reflexivity]. Qed.
Lemma still_trans d1 d2 d3 : still d1 d2 -> still d2 d3 -> still d1 d3.
Proof. intros (x & E1 & S1) (y & E2 & S2). exists (x ++ y). rewrite E2, E1, app_assoc, states_app, S1, S2. auto. Qed.
Lemma still_say d x : states x = [] -> still d (say d x).
Proof. intros H. exists x. auto. Qed.
Lemma still_leave l d : still d (leave M l d).
Proof. eexists. split; [apply leave_log | apply exits_states]. Qed.
Lemma still_segs pe p q : segs c M grd pe p q -> still (p_d p) (p_d q).
Proof. intros H. destruct (segs_log _ _ _ _ _ _ H) as (x & E & (_ & _ & Q) & _). exists x. auto. Qed.
Lemma still_fails pe p e d1 : fails c M grd pe p e d1 -> still (p_d p) d1.
Proof. intros H. destruct (fails_log _ _ _ _ _ _ _ H) as (x & E & (_ & _ & Q) & _). exists x. auto. Qed.
Lemma still_do pe l es d : still d (enter M es (effects pe l d)).
Proof. eapply still_trans; apply still_say; [apply quiet_effects | apply entries_states]. Qed.
Lemma still_default pe d q o : default c M grd pe d q o -> still d (out_d o).
Proof.
  induction 1 as [d s Hs | d q en ex p tbl v ia h d1 t l b es o Hq Hroom Hsegs Ht Hb Hd IH
    | d q en ex p tbl v ia h p1 r d1 Hq Hroom Hsegs Hf | d q en ex p tbl dc ia h Hq Hroom Hc]; cbn [out_d]; try apply still_refl.
  - eapply still_trans; [exact (still_segs _ _ _ Hsegs)|]. eapply still_trans; [| exact IH]. apply still_do.
  - eapply still_trans; [exact (still_segs _ _ _ Hsegs) | eapply still_fails; eauto].
Qed.
Lemma still_fire pe d cs src v a o : fire c M grd pe d cs src v a o -> still d (out_d o).
Proof.
  intros H. eapply still_trans; [apply (still_say d [XTrn src (Some v)] eq_refl)|].
  inversion H as [d1 ts l b lc lt o' Hsegs Hroom Ht Hlc Hlt Hin Hd | p1 r d1 Hsegs Hroom Hf | d1 ts l b lt Hsegs Hroom Ht Hc Hne Hlt Hlen | Hroom Hc]; subst; cbn [out_d].
  - eapply still_trans; [exact (still_segs _ _ _ Hsegs)|]. eapply still_trans; [apply (still_leave (exits lc lt))|].
    eapply still_trans; [| exact (still_default _ _ _ _ Hd)]. apply still_do.
  - eapply still_trans; [exact (still_segs _ _ _ Hsegs) | eapply still_fails; eauto].
  - exact (still_segs _ _ _ Hsegs).
  - apply still_refl.
Qed.
(** One event: no arrival, or one, at the end. *)
Definition arrives (d : dyn) (r : result) : Prop :=
  exists x s, d_log (res_d r) = d_log d ++ x ++ [XState s] /\ states x = [] /\ d_st (res_d r) = Some s /\
    r = if completes c M s then Chained (res_d r) else Rest (res_d r).
Definition stays (d : dyn) (r : result) : Prop :=
  still d (res_d r) /\ match r with Rest d1 => d_st d1 = d_st d | Error _ _ => True | Chained _ => False end.
Lemma settle_arrives d o r : settle c M o r -> still d (out_d o) -> stays d r \/ arrives d r.
Proof.
  destruct o as [d1 s | d1 e]; cbn.
  - intros (d' & (anc & _ & E1 & _ & E2 & _) & ->) (x & E & Hx). right. exists x, s.
    destruct (completes c M s) eqn:Ec; cbn; rewrite E2, E, <- app_assoc, E1, ?Ec; auto.
  - intros -> H. left. split; [exact H | exact I].
Qed.
Lemma step_arrives pe d r : step c M grd pe d r -> stays d r \/ arrives d r.
Proof.
  inversion 1 as [cs l d' Ecs Hl Hn | cs l src t d1 Ecs Hl Hsel Et Hroom | cs l src t d1 Ecs Hl Hsel Et Hroom Hc
    | cs l src t d1 v o r' Ecs Hl Hsel Et Hf Hset]; subst.
  - left. destruct (denied_log _ _ _ _ _ Hn) as (x & -> & Hx%quiet_guards). split; [apply still_say, Hx | exact I].
  - left. destruct (selected_log _ _ _ _ _ _ _ _ Hsel) as (x & -> & Hx%quiet_guards). unfold effects. cbn [res_d]. rewrite !say_say.
    split; [| reflexivity]. apply still_say. rewrite !states_app, (proj2 (proj2 Hx)). cbn. apply quiet_effects.
  - left. destruct (selected_log _ _ _ _ _ _ _ _ Hsel) as (x & -> & Hx%quiet_guards). cbn [res_d]. rewrite !say_say. split; [| exact I].
    apply still_say. rewrite !states_app, (proj2 (proj2 Hx)). reflexivity.
  - destruct (selected_log _ _ _ _ _ _ _ _ Hsel) as (x & -> & Hx%quiet_guards). apply (settle_arrives _ _ _ Hset).
    eapply still_trans; [apply (still_say d x), Hx | eapply still_fire; eauto].
Qed.
Lemma create_arrives pe d v a r : create c M grd pe d v a r -> stays d r \/ arrives d r.
Proof.
  inversion 1 as [d1 ts l b es o r' Hsegs Hroom Ht Hb Hd Hset | p1 r' d1 Hsegs Hroom Hf | Hroom Hc]; subst.
  - apply (settle_arrives _ _ _ Hset). eapply still_trans; [apply (still_say d [XTrn v (Some v)] eq_refl)|].
    eapply still_trans; [exact (still_segs _ _ _ Hsegs)|]. eapply still_trans; [| exact (still_default _ _ _ _ Hd)]. apply still_do.
  - left. split; [| exact I]. eapply still_trans; [apply (still_say d [XTrn v (Some v)] eq_refl)|].
    eapply still_trans; [exact (still_segs _ _ _ Hsegs) | eapply still_fails; eauto].
  - left. split; [apply still_say; reflexivity | exact I].
Qed.
End Pure.

Lemma states_nil_in x s : states x = [] -> ~ In (XState s) x.
Proof.
  intros H Hin. assert (In s (states x)) as K by (apply in_flat_map; exists (XState s); split; [exact Hin | left; reflexivity]).
  rewrite H in K. destruct K.
Qed.
(** The first arrival in a list. *)
Lemma arrival_split x s' w y s z : states x = [] -> y ++ XState s :: z = x ++ XState s' :: w ->
  (y = x /\ s = s' /\ z = w) \/ exists y2, y = x ++ XState s' :: y2 /\ w = y2 ++ XState s :: z.
Proof.
  revert x. induction y as [| e y IH]; intros x Hx E.
  - destruct x as [| e x]; cbn in E; [injection E as -> ->; auto|]. injection E as <- _. exfalso. eapply states_nil_in; [exact Hx | left; reflexivity].
  - destruct x as [| e' x]; cbn in E.
    + injection E as -> <-. right. exists y. auto.
    + injection E as <- E. assert (states x = []) as Hx' by (change (e :: x) with ([e] ++ x) in Hx; rewrite states_app in Hx; apply app_eq_nil in Hx; apply Hx).
      destruct (IH _ Hx' E) as [(-> & -> & ->) | (y2 & -> & ->)]; [auto | right; exists y2; auto].
Qed.

Section Do.
Context (c : smcfg) (M : machine) (rank : nat -> nat) (home : nat -> option nat).
Context (W : wf_machine c M rank home = true) (grd : nat -> evt -> list xev -> bool).
Notation ram_ok := (ram_ok c M home).
Notation machine_ok := (machine_ok c M home).
Notation chain := (chain M).
Notation step := (step c M grd).
Notation finish := (finish c M grd).
Notation selected := (selected M grd).
Notation nothing := (nothing M grd).
Notation visits := (visits c M grd).

(** * Completion *)
(** Arrived at [s] with RAM [da], the dispatch ends like this. *)
Definition goes_on (da : dyn) (s : nat) (d' : dyn) (e : rcode) : Prop :=
  (completes c M s = false -> d' = da /\ e = EVT_PROC) /\
  (completes c M s = true -> forall l, chain (d_dyp da) (Some s) l ->
     (forall src t d0, selected (mkEv (sm_any c - 1) 0) da l src t d0 -> exists x, d_log d' = d_log d0 ++ XTrn src (t_tgt t) :: x) /\
     (forall dn, nothing (mkEv (sm_any c - 1) 0) da l dn -> d' = dn /\ e = EVT_NFOUND)).
Lemma step_goes_on r d' e : finish r d' e -> forall pe d, step pe d r -> machine_ok d ->
  forall y s z, d_log d' = d_log d ++ y ++ XState s :: z ->
  exists da, d_log da = d_log d ++ y ++ [XState s] /\ d_st da = Some s /\ machine_ok da /\ goes_on da s d' e.
Proof.
  assert (forall d d1 x y s z, d_log d1 = d_log d ++ x -> states x = [] -> d_log d1 = d_log d ++ y ++ XState s :: z -> False) as NO.
  { intros d d1 x y s z E Hx E2. rewrite E in E2. apply app_inv_head in E2. eapply states_nil_in; [exact Hx|]. rewrite E2. apply in_app_iff. right. left. reflexivity. }
  induction 1 as [d1 | d1 r | d1 r d' e Hs Hf IH]; intros pe d Hst Hm y s z El; pose proof (step_wf _ _ _ _ _ W _ _ _ Hst Hm) as Hm1; cbn in Hm1.
  - destruct (step_arrives _ _ _ _ _ _ Hst) as [[(x & E & Hx) _] | (x & s' & E & Hx & E1 & Er)]; cbn [res_d] in *; [exfalso; eapply NO; eauto|].
    rewrite E in El. apply app_inv_head in El. symmetry in El. destruct (arrival_split _ _ _ _ _ _ Hx El) as [(-> & -> & ->) | (y2 & _ & K)].
    + exists d1. split; [exact E|]. split; [exact E1|]. split; [exact Hm1|]. destruct (completes c M s') eqn:Ec; [discriminate|].
      split; [auto | congruence].
    + destruct y2; discriminate.
  - destruct (step_arrives _ _ _ _ _ _ Hst) as [[(x & E & Hx) _] | (x & s' & E & Hx & E1 & Er)]; cbn [res_d] in *; [exfalso; eapply NO; eauto|].
    destruct (completes c M s'); discriminate.
  - destruct (step_arrives _ _ _ _ _ _ Hst) as [[_ []] | (x & s' & E & Hx & E1 & Er)]; cbn [res_d] in *.
    destruct (completes c M s') eqn:Ec; [| discriminate].
    destruct (ext_trans _ _ _ (step_ext _ _ _ _ _ _ Hs) (finish_ext _ _ _ _ _ _ Hf)) as [w Ew].
    pose proof El as El'. rewrite Ew, E, <- app_assoc in El'. apply app_inv_head in El'. rewrite <- app_assoc in El'. symmetry in El'. cbn [app] in El'.
    destruct (arrival_split _ _ _ _ _ _ Hx El') as [(-> & -> & ->) | (y2 & -> & ->)].
    + exists d1. split; [exact E|]. split; [exact E1|]. split; [exact Hm1|]. split; [congruence|]. intros _ l Hl.
      eapply step_takes; eauto.
    + destruct (IH _ _ Hs Hm1 y2 s z) as (da & A1 & A2).
      { rewrite Ew. reflexivity. }
      exists da. split; [| exact A2]. rewrite A1, E, <- !app_assoc. reflexivity.
Qed.
Theorem do_completion fuel istate iact d pe ars d' e y s z :
  wf_initial c M home istate = true -> arrays_ok c ars -> machine_ok d -> ev_sig pe <> (sm_any c - 2)%N ->
  dispatch c M grd fuel istate iact d pe ars = Ok (d', e) -> d_log d' = d_log d ++ y ++ XState s :: z ->
  exists da, d_log da = d_log d ++ y ++ [XState s] /\ d_st da = Some s /\ machine_ok da /\ goes_on da s d' e.
Proof.
  intros Hi Ha Hm Hs H El. destruct (disp_step _ _ _ _ W _ _ _ _ _ _ _ _ _ Hi Ha Hm Hs H) as (r & H1 & H2 & _).
  eapply step_goes_on; eauto.
Qed.

(** * The active state is the one arrived at last *)
Lemma last_state_none x : last_state x = None -> states x = [].
Proof. unfold last_state. destruct (states x) as [| s l]; [auto|]. cbn. destruct (last_such _ l); discriminate. Qed.
Definition keeps_state (d d' : dyn) : Prop :=
  exists x, d_log d' = d_log d ++ x /\ d_st d' = match last_state x with Some s => Some s | None => d_st d end.
Lemma keeps_trans d1 d2 d3 : keeps_state d1 d2 -> keeps_state d2 d3 -> keeps_state d1 d3.
Proof.
  intros (x & E1 & S1) (y & E2 & S2). exists (x ++ y). split; [rewrite E2, E1, app_assoc; reflexivity|].
  rewrite S2, S1. unfold last_state. rewrite states_app, last_such_app. destruct (last_such _ (states y)); reflexivity.
Qed.
Lemma keeps_refl d : keeps_state d d.
Proof. exists []. split; [symmetry; apply app_nil_r | reflexivity]. Qed.
Lemma result_keeps d r : stays d r \/ arrives c M d r -> match r with Error d1 _ => d_st d1 = d_st d | _ => True end -> keeps_state d (res_d r).
Proof.
  intros [[(x & E & Hx) K] | (x & s & E & Hx & Es & _)] He.
  - exists x. split; [exact E|]. unfold last_state. rewrite Hx. cbn. destruct r; try contradiction; assumption.
  - exists (x ++ [XState s]). split; [exact E|]. unfold last_state. rewrite states_app, Hx. exact Es.
Qed.
Lemma step_keeps pe d r : step pe d r -> machine_ok d -> keeps_state d (res_d r).
Proof.
  intros H (Hr & s & Es & Hl & _). apply result_keeps; [eapply step_arrives; eauto|].
  exact (proj2 (step_rest c M rank (wf_tidy c M rank home W) grd _ _ _ H (conj (ram_tidy c M home _ Hr) (ex_intro _ s (conj Es Hl))))).
Qed.
Lemma finish_keeps r d' e : finish r d' e -> machine_ok (res_d r) -> keeps_state (res_d r) d'.
Proof.
  induction 1 as [d | d r | d r d' e Hs Hf IH]; intros Hm; cbn [res_d] in *; try apply keeps_refl.
  eapply keeps_trans; [eapply step_keeps; eauto|]. apply IH. pose proof (step_wf _ _ _ _ _ W _ _ _ Hs Hm) as K. destruct r; exact K.
Qed.
Theorem do_state fuel istate iact d pe ars d' e :
  wf_initial c M home istate = true -> arrays_ok c ars -> machine_ok d -> ev_sig pe <> (sm_any c - 2)%N ->
  dispatch c M grd fuel istate iact d pe ars = Ok (d', e) ->
  exists x, d_log d' = d_log d ++ x /\ d_st d' = match last_state x with Some s => Some s | None => d_st d end.
Proof.
  intros Hi Ha Hm Hs H. destruct (disp_step _ _ _ _ W _ _ _ _ _ _ _ _ _ Hi Ha Hm Hs H) as (r & H1 & H2 & _).
  eapply keeps_trans; [eapply step_keeps; eauto|]. eapply finish_keeps; eauto.
  pose proof (step_wf _ _ _ _ _ W _ _ _ H1 Hm) as K. destruct r; exact K.
Qed.

(** * Histories over executions *)
Lemma do_remembers fuel istate iact op d d' : wf_initial c M home istate = true -> smop_ok c op -> ready c M home d ->
  sm_do c M grd fuel istate iact d op = Ok d' ->
  match op with OClear h => d' = clear_history d h | _ => remembers c M d d' end.
Proof.
  intros Hi Ho Hr H. destruct op as [ars | pe ars | h]; cbn [sm_do] in H.
  - apply bind_ok in H as ([d1 e] & H1 & H). injection H as <-. unfold sm_init in H1.
    destruct (dispatch_safe c M rank home W grd fuel istate iact d (evCreation c) ars Hi Ho Hr (fun _ => eq_refl)) as [_ K]. destruct (K _ _ H1) as [U _].
    eapply (remembers_dispatch c M rank home W); [exact Hi | | exact U].
    change (ev_sig (evCreation c)) with (sm_any c - 2)%N. rewrite N.eqb_refl. apply Hr.
  - destruct (d_st d) as [s|] eqn:Es; [| injection H as <-; apply remembers_refl].
    apply bind_ok in H as ([d1 e] & H1 & H). injection H as <-.
    destruct (dispatch_safe c M rank home W grd fuel istate iact d pe ars Hi Ho Hr ltac:(congruence)) as [_ K]. destruct (K _ _ H1) as [U _].
    eapply (remembers_dispatch c M rank home W); [exact Hi | | exact U].
    destruct (ev_sig pe =? sm_any c - 2)%N; [apply Hr | eapply ready_machine; eauto].
  - injection H as <-. reflexivity.
Qed.
Theorem run_remembers fuel istate iact h deep q dft : wf_initial c M home istate = true ->
  nth_error M h = Some (VHist deep (Some q) dft) -> (deep = true -> clear_region c M q = true) ->
  forall ops d d', Forall (smop_ok c) ops -> (forall h', In (OClear h') ops -> h' <> h) -> ready c M home d ->
  sm_run c M grd fuel istate iact d ops = Ok d' ->
  exists x, d_log d' = d_log d ++ x /\
    d_hist d' h = match (if deep then last_in c M q x else last_exit M q x) with Some s => Some s | None => d_hist d h end.
Proof.
  intros Hi Hh Hp. induction ops as [| op ops IH]; intros d d' Ho Hc Hr H; cbn [sm_run] in H.
  - injection H as <-. exists []. split; [symmetry; apply app_nil_r|]. destruct deep; reflexivity.
  - inversion Ho as [| ? ? Ho1 Ho2]; subst. apply bind_ok in H as (d1 & H1 & H).
    destruct (do_safe c M rank home W grd fuel istate iact d op Hi Ho1 Hr) as [_ Hr1]. specialize (Hr1 _ H1).
    pose proof (do_remembers _ _ _ _ _ _ Hi Ho1 Hr H1) as K.
    destruct (IH d1 d' Ho2 (fun h' Hin => Hc h' (or_intror Hin)) Hr1 H) as (y & Ey & Hy).
    assert (exists x, d_log d1 = d_log d ++ x /\
      d_hist d1 h = match (if deep then last_in c M q x else last_exit M q x) with Some s => Some s | None => d_hist d h end) as (x & Ex & Hx).
    { destruct op as [ars | pe ars | h']; [destruct K as (x & E & K); exists x; split; [exact E | eapply K; eauto] .. |].
      subst d1. exists []. split; [symmetry; apply app_nil_r|]. cbn. unfold fupd.
      destruct (Nat.eqb_spec h h') as [<- | _]; [exfalso; apply (Hc h); [left; reflexivity | reflexivity] | destruct deep; reflexivity]. }
    exists (x ++ y). split; [rewrite Ey, Ex, app_assoc; reflexivity|]. rewrite Hy, Hx. unfold last_in, last_exit.
    rewrite states_app, exited_app, !last_such_app. destruct deep; destruct (last_such _ _); reflexivity.
Qed.

(** Entering through a history: main path and default transitions. *)
Lemma visits_hist pe d p : visits pe d false p -> machine_ok d -> d_hist (p_d p) = d_hist d.
Proof.
  intros H Hm. inversion H as [cs l src t d0 v p' Ecs Hl Hsel Et _ Hsegs | |]; subst.
  destruct (segs_log _ _ _ _ _ _ Hsegs) as (_ & _ & _ & E). rewrite E. cbn. destruct (selected_log _ _ _ _ _ _ _ _ Hsel) as (g & -> & _). reflexivity.
Qed.
Theorem do_return fuel istate iact d pe ars d' e cs d1 h l b deep q dft s lc ls :
  wf_initial c M home istate = true -> arrays_ok c ars -> machine_ok d -> ev_sig pe <> (sm_any c - 2)%N ->
  dispatch c M grd fuel istate iact d pe ars = Ok (d', e) -> d_st d = Some cs ->
  visits pe d false (mkP d1 h l b) -> nth_error M h = Some (VHist deep (Some q) dft) ->
  d_hist d h = Some s -> is_target M s = true ->
  chain (d_dyp d1) (Some cs) lc -> chain (d_dyp d1) (Some s) ls ->
  exists out inn both rest, lc = out ++ both /\ ls = inn ++ both /\
    (if (cs =? s)%nat then out = [cs] /\ inn = [cs] else forall s, In s out -> ~ In s inn) /\
    d_log d' = d_log d1 ++ map (fun s => XExit s (exit_of M s)) out ++ map (fun a => XEff a pe) l ++
               map (fun s => XEntry s (entry_of M s)) (rev inn) ++ rest.
Proof.
  intros Hi Ha Hm Hs H Es Hv Hh Ec Ht Hlc Hls.
  eapply do_order; eauto. eapply visits_on; [exact Hv|]. econstructor; [| constructor]. eapply seg_hist; [exact Hh|].
  pose proof (visits_hist _ _ _ Hv Hm) as E. cbn in E. rewrite E. exact Ec.
Qed.
End Do.
