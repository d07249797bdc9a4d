(** Events on well-formed machines, read off the log. *)
From Verif Require Import Base L_Base M_Sm S_Sm S_SmWf S_SmRun L_Sm L_SmWalk L_SmStep L_SmDet L_SmWf L_SmKeep L_SmSafe L_SmProps L_SmDisp.

Section Do.
Context (c : smcfg) (M : machine) (rank : nat -> nat) (home : nat -> option nat).
Context (W : wf_machine c M rank home = true) (grd : nat -> evt -> list xev -> bool).
Notation ram_ok := (ram_ok c M home).
Notation machine_ok := (machine_ok c M home).
Notation good := (good c M home).
Notation chain := (chain M).
Notation step := (step c M grd).
Notation finish := (finish c M grd).
Notation selected := (selected M grd).
Notation nothing := (nothing M grd).
Notation visits := (visits c M grd).

Lemma disp_step fuel istate iact d pe ars d' e : wf_initial c M home istate = true -> arrays_ok c ars -> machine_ok d ->
  ev_sig pe <> (sm_any c - 2)%N -> dispatch c M grd fuel istate iact d pe ars = Ok (d', e) ->
  exists r, step pe d r /\ finish r d' e /\ machine_ok d'.
Proof.
  intros Hi Ha Hm Hs H. assert (ready c M home d) as Hr by (apply machine_ready, Hm).
  destruct (dispatch_safe c M rank home W grd fuel istate iact d pe ars Hi Ha Hr) as [_ K].
  { destruct Hm as (_ & s & E & _). congruence. }
  destruct (K _ _ H) as [(r & H1 & H2) _]. apply N.eqb_neq in Hs. rewrite Hs in H1. exists r. split; [exact H1|]. split; [exact H2|].
  eapply (finish_wf c M grd rank home W); [exact H2|]. exact (step_wf _ _ _ _ _ W _ _ _ H1 Hm).
Qed.

(** * The transition taken *)
Lemma step_selected pe d r cs l src t d0 : step pe d r -> d_st d = Some cs -> chain (d_dyp d) (Some cs) l -> selected pe d l src t d0 ->
  ext (say d0 [XTrn src (t_tgt t)]) (res_d r).
Proof.
  intros H Es Hl Hsel.
  inversion H as [cs' l' d' Ecs' Hl' Hn | cs' l' src' t' d1' Ecs' Hl' Hsel' Et' Hr | cs' l' src' t' d1' Ecs' Hl' Hsel' Et' Hnr Hc
      | cs' l' src' t' d1' v' o r' Ecs' Hl' Hsel' Et' Hf Hset]; subst;
      rewrite Es in Ecs'; injection Ecs' as <-; pose proof (chain_fun _ _ _ _ Hl _ Hl') as <-;
      try (destruct (selected_fun _ _ _ _ _ _ _ _ _ _ _ (chain_nodup _ _ _ _ Hl) Hsel Hsel') as (<- & <- & <-)).
  - exfalso. eapply selected_nothing; eauto.
  - rewrite Et'. apply ext_say.
  - rewrite Et'. apply ext_refl.
  - rewrite Et'. eapply ext_trans; [exact (fire_ext _ _ _ _ _ _ _ _ _ _ Hf) | exact (settle_ext _ _ _ _ Hset)].
Qed.
Lemma step_nothing pe d r cs l dn : step pe d r -> d_st d = Some cs -> chain (d_dyp d) (Some cs) l -> nothing pe d l dn -> r = Error dn EVT_NFOUND.
Proof.
  intros H Es Hl Hn.
  inversion H as [cs' l' d' Ecs' Hl' Hn' | cs' l' src' t' d1' Ecs' Hl' Hsel' Et' Hr | cs' l' src' t' d1' Ecs' Hl' Hsel' Et' Hnr Hc
      | cs' l' src' t' d1' v' o r' Ecs' Hl' Hsel' Et' Hf Hset]; subst;
      rewrite Es in Ecs'; injection Ecs' as <-; pose proof (chain_fun _ _ _ _ Hl _ Hl') as <-;
      try (exfalso; eapply selected_nothing; eassumption).
  rewrite (denied_fun _ _ _ _ _ Hn _ Hn'). reflexivity.
Qed.
Lemma step_takes pe d r d' e cs l : step pe d r -> finish r d' e -> d_st d = Some cs -> chain (d_dyp d) (Some cs) l ->
  (forall src t d0, selected pe d l src t d0 -> exists x, d_log d' = d_log d0 ++ XTrn src (t_tgt t) :: x) /\
  (forall dn, nothing pe d l dn -> d' = dn /\ e = EVT_NFOUND).
Proof.
  intros Hs Hf Es Hl. split.
  - intros src t d0 Hsel. destruct (ext_trans _ _ _ (step_selected _ _ _ _ _ _ _ _ Hs Es Hl Hsel) (finish_ext _ _ _ _ _ _ Hf)) as [x E].
    exists x. rewrite E. cbn. rewrite <- app_assoc. reflexivity.
  - intros dn Hn. rewrite (step_nothing _ _ _ _ _ _ Hs Es Hl Hn) in Hf. inversion Hf. auto.
Qed.
Theorem do_takes fuel istate iact d pe ars d' e cs l :
  wf_initial c M home istate = true -> arrays_ok c ars -> machine_ok d -> ev_sig pe <> (sm_any c - 2)%N ->
  dispatch c M grd fuel istate iact d pe ars = Ok (d', e) -> d_st d = Some cs -> chain (d_dyp d) (Some cs) l ->
  (forall src t d0, selected pe d l src t d0 ->
     (exists g, d0 = say d g /\ only_guards g) /\ exists x, d_log d' = d_log d0 ++ XTrn src (t_tgt t) :: x) /\
  (forall dn, nothing pe d l dn -> d' = dn /\ e = EVT_NFOUND /\ exists g, dn = say d g /\ only_guards g) /\
  ((exists src t d0, selected pe d l src t d0) \/ exists dn, nothing pe d l dn).
Proof.
  intros Hi Ha Hm Hs H Es Hl. destruct (disp_step _ _ _ _ _ _ _ _ Hi Ha Hm Hs H) as (r & H1 & H2 & _).
  destruct (step_takes _ _ _ _ _ _ _ H1 H2 Es Hl) as [K1 K2]. split; [| split].
  - intros src t d0 Hsel. split; [eapply selected_log; eauto | eauto].
  - intros dn Hn. destruct (K2 _ Hn) as [-> ->]. split; [reflexivity|]. split; [reflexivity|]. eapply denied_log; eauto.
  - apply selected_or_nothing.
Qed.
Theorem do_internal fuel istate iact d pe ars d' e cs l src t d0 :
  wf_initial c M home istate = true -> arrays_ok c ars -> machine_ok d -> ev_sig pe <> (sm_any c - 2)%N ->
  dispatch c M grd fuel istate iact d pe ars = Ok (d', e) -> d_st d = Some cs -> chain (d_dyp d) (Some cs) l ->
  selected pe d l src t d0 -> t_tgt t = None -> (0 < sm_segs c)%nat ->
  e = EVT_PROC /\ exists g, only_guards g /\ d' = say d (g ++ XTrn src None :: map (fun a => XEff a pe) (act1 (t_act t))).
Proof.
  intros Hi Ha Hm Hs H Es Hl Hsel Et Hseg. destruct (disp_step _ _ _ _ _ _ _ _ Hi Ha Hm Hs H) as (r & H1 & H2 & _).
  inversion H1 as [cs' l' dn Ecs' Hl' Hn' | cs' l' src' t' d1' Ecs' Hl' Hsel' Et' Hr | cs' l' src' t' d1' Ecs' Hl' Hsel' Et' Hnr Hc
      | cs' l' src' t' d1' v' o r' Ecs' Hl' Hsel' Et' Hf Hset]; subst;
      rewrite Es in Ecs'; injection Ecs' as <-; pose proof (chain_fun _ _ _ _ Hl _ Hl') as <-;
      try (destruct (selected_fun _ _ _ _ _ _ _ _ _ _ _ (chain_nodup _ _ _ _ Hl) Hsel Hsel') as (<- & <- & <-)); try congruence.
  - exfalso. eapply selected_nothing; eauto.
  - inversion H2; subst. destruct (selected_log _ _ _ _ _ _ _ _ Hsel) as (g & -> & Hg). split; [reflexivity|]. exists g. split; [exact Hg|].
    unfold effects. rewrite !say_say. reflexivity.
  - exfalso. apply Hnr. exact Hseg.
Qed.

(** * Exits, actions, entries *)
Lemma leaf_in_chain d cs ts lt : ram_ok d -> is_leaf M cs = true -> chain (d_dyp d) (Some ts) lt -> In cs lt -> cs = ts.
Proof.
  intros Hr Hc Ht Hin. inversion Ht as [| s p l Hp Hl]; subst. destruct Hin as [-> | Hin]; [reflexivity|].
  rewrite (leaf_no_child _ _ (wf_tidy c M rank home W) _ _ _ _ (tr_dyp _ _ (ram_tidy c M home _ Hr)) Ht Hin) in Hc. discriminate.
Qed.
Lemma visits_on pe d m p q : visits pe d m p -> segs c M grd pe p q -> visits pe d m q.
Proof.
  intros H Hs. inversion H; subst.
  - eapply visit_path; eauto. eapply segs_trans; eauto.
  - eapply visit_default; eauto. eapply segs_trans; eauto.
  - eapply visit_inner; eauto. eapply segs_trans; eauto.
Qed.
Lemma leave_exits_ok d cs lc lt : ram_ok d -> bound (d_dyp d) (home cs) -> chain (d_dyp d) (Some cs) lc -> ram_ok (leave M (exits lc lt) d).
Proof.
  intros Hr Hb Hlc. apply (leave_ok c M rank home W); [exact Hr|]. intros s Hs%exits_in. split; [exact (chain_parents M _ _ _ Hlc _ Hs)|].
  eapply (chain_bound c M rank home W); [exact Hr | exact Hlc | | exact Hs]. intros x [= <-]. exact Hb.
Qed.
Lemma visits_good pe d m p : visits pe d m p -> machine_ok d -> good p /\ forall cs, d_st d = Some cs -> bound (d_dyp (p_d p)) (home cs).
Proof.
  intros H (Hr & s & Es & Hs & Hb).
  induction H as [cs l src t d0 v p Ecs Hl Hsel Et _ Hsegs
    | d1 ts l b cs lc lt en ex q tbl v ia h p Hv IH Ecs Hlc Hlt Hlen Hts Hsegs
    | d1 ts l b es en ex q tbl v ia h p Hv IH Hbl Hts Hsegs].
  - destruct (selected_wf _ _ _ _ _ W _ _ _ _ _ _ _ Hsel Et) as (Hin & Hk & Hh).
    rewrite Es in Ecs. injection Ecs as <-. destruct (selected_log _ _ _ _ _ _ _ _ Hsel) as (x & -> & _).
    split.
    + eapply (segs_good c M rank home W); [exact Hsegs|]. split; [apply ram_say, ram_say, Hr|]. split; [exact Hk|]. cbn. rewrite Hh.
      eapply (chain_bound c M rank home W); [exact Hr | exact Hl | | exact Hin]. intros y [= <-]. exact Hb.
    + intros cs E. assert (cs = s) by congruence. subst cs. eapply segs_bound; [exact Hsegs | exact Hb].
  - destruct IH as [(G1 & G2 & G3) G4]. cbn in G1, G2, G3, G4. specialize (G4 _ Ecs).
    destruct (comp_default _ _ grd _ _ W _ _ _ _ _ _ _ _ Hts) as (K1 & K2 & K3).
    split.
    + eapply (segs_good c M rank home W); [exact Hsegs|].
      split; [apply ram_say, ram_say, (leave_exits_ok _ cs); assumption|]. split; [exact K1|]. cbn. rewrite K2, leave_dyp. exact G3.
    + intros cs' E. assert (cs' = cs) by congruence. subst cs'. eapply segs_bound; [exact Hsegs|]. cbn. rewrite leave_dyp. exact G4.
  - destruct IH as [(G1 & G2 & G3) G4]. cbn in G1, G2, G3, G4.
    destruct (comp_default _ _ grd _ _ W _ _ _ _ _ _ _ _ Hts) as (K1 & K2 & K3).
    split.
    + eapply (segs_good c M rank home W); [exact Hsegs|]. split; [apply ram_say, ram_say; assumption|]. split; [exact K1|]. cbn. rewrite K2. exact G3.
    + intros cs E. eapply segs_bound; [exact Hsegs|]. apply G4, E.
Qed.
Lemma visits_ok pe d m p r d' e : visits pe d m p -> step pe d r -> finish r d' e -> ext (p_d p) d'.
Proof. intros Hv Hs Hf. eapply ext_trans; [eapply rest_ext, visits_rest; eauto | eapply finish_ext; eauto]. Qed.
Lemma visits_fails pe d m p r d' e e1 d1 : visits pe d m p -> step pe d r -> finish r d' e -> fails c M grd pe p e1 d1 -> d' = d1 /\ e = e1.
Proof.
  intros Hv Hs Hf Hx. destruct (visits_rest _ _ _ _ _ _ _ _ Hv Hs) as (q & Hq & K). rewrite (segs_end_fails _ _ _ _ _ _ _ _ Hq Hx) in K.
  destruct K as [(e2 & d2 & Hx2 & ->) | [Ht _]]; [| exfalso; eapply fails_target; eauto].
  destruct (fails_fun _ _ _ _ _ _ _ _ _ Hx Hx2) as [<- <-]. inversion Hf; subst. auto.
Qed.
Lemma room_visit pe d m p : visits pe d m p -> room c [].
Proof. induction 1; auto. Qed.

Lemma target_in pe d d1 ts l b : machine_ok d -> visits pe d false (mkP d1 ts l b) -> is_target M ts = true ->
  forall cs lc lt, d_st d = Some cs -> chain (d_dyp d1) (Some cs) lc -> chain (d_dyp d1) (Some ts) lt ->
  (length lt <= sm_depth c)%nat /\ (In cs lt -> cs = ts) /\ ram_ok d1 /\ bound (d_dyp d1) (home cs) /\ bound (d_dyp d1) (home ts).
Proof.
  intros Hm Hv Ht cs lc lt Es Hlc Hlt. destruct (visits_good _ _ _ _ Hv Hm) as [(G1 & G2 & G3) G4]. cbn in G1, G2, G3, G4.
  destruct Hm as (_ & s & Es' & Hs & _). assert (s = cs) by congruence. subst s.
  split; [| split; [| auto]].
  - pose proof (chain_short c M rank home W _ (tr_dyp _ _ (ram_tidy c M home _ G1)) _ _ Hlt) as K. cbn beta iota in K.
    pose proof (target_rank c M rank home W _ Ht). lia.
  - intros Hin. exact (leaf_in_chain _ _ _ _ G1 Hs Hlt Hin).
Qed.
Theorem do_order fuel istate iact d pe ars d' e cs d1 ts l b lc lt :
  wf_initial c M home istate = true -> arrays_ok c ars -> machine_ok d -> ev_sig pe <> (sm_any c - 2)%N ->
  dispatch c M grd fuel istate iact d pe ars = Ok (d', e) -> d_st d = Some cs ->
  visits pe d false (mkP d1 ts l b) -> is_target M ts = true ->
  chain (d_dyp d1) (Some cs) lc -> chain (d_dyp d1) (Some ts) lt ->
  exists out inn both rest, lc = out ++ both /\ lt = inn ++ both /\
    (if (cs =? ts)%nat then out = [cs] /\ inn = [cs] else forall s, In s out -> ~ In s inn) /\
    d_log d' = d_log d1 ++ map (fun s => XExit s (exit_of M s)) out ++ map (fun a => XEff a pe) l ++
               map (fun s => XEntry s (entry_of M s)) (rev inn) ++ rest.
Proof.
  intros Hi Ha Hm Hs H Es Hv Ht Hlc Hlt. destruct (disp_step _ _ _ _ _ _ _ _ Hi Ha Hm Hs H) as (r & H1 & H2 & _).
  destruct (target_in _ _ _ _ _ _ Hm Hv Ht _ _ _ Es Hlc Hlt) as (T1 & T2 & T3 & _).
  destruct (exits_enters M grd _ _ _ _ _ Hlc Hlt T2) as (a & b' & z & E1 & E2 & Ex & En & Hd).
  destruct (visits_rest _ _ _ _ _ _ _ _ Hv H1) as (q & Hq & K). rewrite (segs_end_target _ _ _ _ _ _ Hq Ht) in K. cbn [p_d p_v p_pend p_base] in K.
  destruct K as [(e1 & d2 & Hf & _) | (_ & cs' & Es' & [(lc' & lt' & o & Hlc' & Hlt' & _ & Hdef & Hset) | (lt' & _ & _ & Hlt' & Hlen & _)])].
  - exfalso. eapply fails_target; eauto.
  - assert (cs' = cs) by congruence. subst cs'. rewrite <- (chain_fun _ _ _ _ Hlc _ Hlc'), <- (chain_fun _ _ _ _ Hlt _ Hlt'), Ex, En in Hdef.
    destruct (ext_trans _ _ _ (default_ext _ _ _ _ _ _ _ Hdef) (ext_trans _ _ _ (settle_ext _ _ _ _ Hset) (finish_ext _ _ _ _ _ _ H2))) as [rest E].
    exists a, b', z, rest. split; [exact E1|]. split; [exact E2|]. split; [exact Hd|].
    rewrite E. unfold enter, effects. cbn. rewrite leave_log, <- !app_assoc. reflexivity.
  - rewrite <- (chain_fun _ _ _ _ Hlt _ Hlt') in Hlen. lia.
Qed.

(** * Junctions and choices *)
Theorem do_branch fuel istate iact d pe ars d' e m d1 v l b tbl choice :
  wf_initial c M home istate = true -> arrays_ok c ars -> machine_ok d -> ev_sig pe <> (sm_any c - 2)%N ->
  dispatch c M grd fuel istate iact d pe ars = Ok (d', e) ->
  visits pe d m (mkP d1 v l b) -> nth_error M v = Some (if choice : bool then VChoice tbl else VCond tbl) ->
  let before := say d1 (if choice then map (fun a => XEff a pe) l else []) in
  let pending := if choice then [] else l in
  (forall t d2 v1, first_of grd pe before (guarded tbl) t d2 -> t_tgt t = Some v1 ->
     (exists g, d2 = say before g /\ only_guards g) /\ (exists x, d_log d' = d_log d2 ++ x) /\
     ((length pending < sm_segs c)%nat -> visits pe d m (mkP d2 v1 (pending ++ act1 (t_act t)) b)) /\
     ((sm_segs c <= length pending)%nat -> sm_asrt c = false /\ d' = d2 /\ e = EX_TSEG)) /\
  (forall dn, denied grd pe before (guarded tbl) dn ->
     (exists g, dn = say before g /\ only_guards g) /\ d' = dn /\ e = CND_NFOUND /\ d_st d' = d_st d) /\
  ((exists t d2, first_of grd pe before (guarded tbl) t d2 /\ In t tbl) \/ exists dn, denied grd pe before (guarded tbl) dn).
Proof.
  intros Hi Ha Hm Hs H Hv Hvx before pending. destruct (disp_step _ _ _ _ _ _ _ _ Hi Ha Hm Hs H) as (r & H1 & H2 & _).
  assert (before = if choice then effects pe l d1 else d1) as Eb by (subst before; destruct choice; [reflexivity | apply say_nil]).
  assert (pending = if choice then [] else l) as Ep by reflexivity. clearbody before pending.
  split; [| split].
  - intros t d2 v1 F Et.
    assert (forall q, seg c M grd pe (mkP d1 v l b) q -> visits pe d m q) as K.
    { intros q Hq. eapply visits_on; [exact Hv|]. econstructor; [exact Hq | constructor]. }
    assert ((length pending < sm_segs c)%nat -> visits pe d m (mkP d2 v1 (pending ++ act1 (t_act t)) b)) as K1.
    { intros Hroom. apply K. rewrite Ep in Hroom |- *. rewrite Eb in F. destruct choice; [eapply seg_choice | eapply seg_cond]; eauto. }
    split; [eapply first_log; eauto|].
    destruct (Nat.lt_ge_cases (length pending) (sm_segs c)) as [Hlt | Hge].
    + split; [exact (visits_ok _ _ _ _ _ _ _ (K1 Hlt) H1 H2)|]. split; [exact K1 | intros; lia].
    + assert (forall q, segs c M grd pe (mkP d1 v l b) q -> q = mkP d1 v l b) as Stuck.
      { clear K K1. rewrite Ep in Hge. clear Eb Ep F. intros q Hq. inversion Hq as [| p q' r' S1 S2]; subst; [reflexivity|]. exfalso.
        destruct choice; inversion S1; subst; try congruence; unfold room in *; cbn in Hge; lia. }
      destruct (visits_rest _ _ _ _ _ _ _ _ Hv H1) as (q & Hq & R). rewrite (Stuck _ Hq) in R.
      destruct R as [(e1 & dd & Hf & ->) | [Ht _]].
      2:{ exfalso. cbn in Ht. unfold is_target in Ht. rewrite Hvx in Ht. destruct choice; discriminate. }
      inversion H2; subst d' e.
      assert (fails c M grd pe (mkP d1 v l b) EX_TSEG d2 /\ sm_asrt c = false) as [Hf2 Ha2].
      { rewrite Eb in F. rewrite Ep in Hge. clear Eb Ep K K1 Stuck. destruct choice; inversion Hf; subst; try congruence.
        - exfalso. eapply first_denied; [exact F|]. replace tbl with tbl0 by congruence. eassumption.
        - split; [| assumption]. apply fail_full; [assumption|]. eapply over_choice; eauto. unfold room. cbn in Hge. cbn. lia.
        - exfalso. eapply first_denied; [exact F|]. replace tbl with tbl0 by congruence. eassumption.
        - split; [| assumption]. apply fail_full; [assumption|]. eapply over_cond; eauto. unfold room. lia. }
      destruct (fails_fun _ _ _ _ _ _ _ _ _ Hf Hf2) as [-> ->].
      split; [exists []; symmetry; apply app_nil_r|]. split; [intros; lia | auto].
  - intros dn Hd. split; [eapply denied_log; eauto|].
    assert (fails c M grd pe (mkP d1 v l b) CND_NFOUND dn) as Hf.
    { rewrite Eb in Hd. destruct choice; [eapply fail_choice | eapply fail_cond]; eauto. }
    destruct (visits_fails _ _ _ _ _ _ _ _ _ Hv H1 H2 Hf) as [-> ->]. split; [reflexivity|]. split; [reflexivity|].
    assert (r = Error dn CND_NFOUND) as Er.
    { destruct (visits_rest _ _ _ _ _ _ _ _ Hv H1) as (q & Hq & K). rewrite (segs_end_fails _ _ _ _ _ _ _ _ Hq Hf) in K.
      destruct K as [(e2 & d2 & Hx2 & ->) | [Ht _]]; [| exfalso; eapply fails_target; eauto].
      destruct (fails_fun _ _ _ _ _ _ _ _ _ Hf Hx2) as [<- <-]. reflexivity. }
    subst r. destruct Hm as (Hr & s & Es & Hl & _).
    exact (proj2 (step_rest c M rank (wf_tidy c M rank home W) grd _ _ _ H1 (conj (ram_tidy c M home _ Hr) (ex_intro _ s (conj Es Hl))))).
  - destruct (denied_or_first grd pe (guarded tbl) before) as [K | (t & d2 & F)]; [right; exact K | left].
    exists t, d2. split; [exact F|]. apply first_in in F. apply filter_In in F as [F _]. exact F.
Qed.
End Do.
