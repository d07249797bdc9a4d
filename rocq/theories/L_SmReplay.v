(** The observer of [replay] finds the log in order and ends with the active
    configuration. *)
From Verif Require Import Base L_Base M_Sm S_Sm S_SmWf S_SmRun L_Sm L_SmWalk L_SmStep L_SmDet L_SmWf L_SmKeep L_SmSafe L_SmProps L_SmDisp L_SmDo.

Lemma same_act_refl a : same_act a a = true.
Proof. destruct a; cbn; [apply Nat.eqb_refl | reflexivity]. Qed.

Section Replay.
Context (c : smcfg) (M : machine) (rank : nat -> nat) (home : nat -> option nat).
Context (W : wf_machine c M rank home = true) (S1 : single_use M = true).
Notation ram_ok := (ram_ok c M home).
Notation machine_ok := (machine_ok c M home).
Notation good := (good c M home).
Notation chain := (chain M).
Notation replay := (replay M).
Local Notation container_outer := (container_outer c M rank home W S1).
Local Notation outer_bound := (outer_bound c M rank home W).

Lemma replay_app x : forall conf y, replay conf (x ++ y) = match replay conf x with Some conf' => replay conf' y | None => None end.
Proof.
  induction x as [| e x IH]; intros conf y; [reflexivity|]. destruct e; cbn [app S_SmRun.replay]; auto.
  - destruct conf as [| t conf]; [reflexivity|]. destruct (_ && _); auto.
  - destruct (_ && _); auto.
Qed.
Lemma replay_quiet x : forall conf, exited x = [] -> entered x = [] -> replay conf x = Some conf.
Proof.
  induction x as [| e x IH]; intros conf H1 H2; [reflexivity|]. destruct e; cbn in H1, H2 |- *; try discriminate; auto.
Qed.
Lemma replay_exits a : forall z, replay (a ++ z) (map (fun s => XExit s (exit_of M s)) a) = Some z.
Proof. induction a as [| s a IH]; intros z; [reflexivity|]. cbn. rewrite Nat.eqb_refl, same_act_refl. apply IH. Qed.

Lemma chain_hd dy o l : chain dy o l -> hd_error l = o.
Proof. destruct 1; reflexivity. Qed.
Lemma chain_same d d1 : ram_ok d -> ram_ok d1 -> forall o l, chain (d_dyp d) o l ->
  (forall v, o = Some v -> bound (d_dyp d) (home v) /\ bound (d_dyp d1) (home v)) -> chain (d_dyp d1) o l.
Proof using W S1.
  intros Hr Hr1. induction 1 as [| s p l Hp H IH]; intros Hb; [constructor|]. destruct (Hb _ eq_refl) as [B1 B2].
  econstructor; [exact Hp|]. rewrite <- (container_outer d1 s p Hr1 B2 Hp), (container_outer d s p Hr B1 Hp). apply IH.
  intros v Ev. split; [exact (outer_bound _ _ _ _ Hr B1 Hp Ev)|]. apply (outer_bound _ _ _ _ Hr1 B2 Hp).
  rewrite <- (container_outer d1 s p Hr1 B2 Hp), (container_outer d s p Hr B1 Hp). exact Ev.
Qed.
Lemma replay_entries d z b : forall o, ram_ok d -> chain (d_dyp d) o (b ++ z) -> (forall v, o = Some v -> bound (d_dyp d) (home v)) ->
  replay z (map (fun s => XEntry s (entry_of M s)) (rev b)) = Some (b ++ z).
Proof using W S1.
  induction b as [| s b IH]; intros o Hr Hc Hb; [reflexivity|]. cbn [rev]. rewrite map_app, replay_app.
  inversion Hc as [| s' p l Hp Hl]; subst. pose proof (Hb _ eq_refl) as Hs.
  rewrite (IH _ Hr Hl) by (intros v Ev; exact (outer_bound _ _ _ _ Hr Hs Hp Ev)). cbn.
  rewrite (container_outer d s p Hr Hs Hp), (chain_hd _ _ _ Hl), !same_act_refl. reflexivity.
Qed.

Context (grd : nat -> evt -> list xev -> bool).
Lemma default_replay pe d q o : default c M grd pe d q o -> ram_ok d -> is_target M q = true -> bound (d_dyp d) (home q) ->
  forall lq d' s, chain (d_dyp d) (Some q) lq -> o = Arrived d' s ->
  exists x ln, d_log d' = d_log d ++ x /\ chain (d_dyp d') (Some s) ln /\ replay lq x = Some ln.
Proof using W S1.
  induction 1 as [d s0 Hs | d q en ex p tbl v ia h d1 t l b es o Hq Hroom Hsegs Ht Hb Hd IH
    | d q en ex p tbl v ia h p1 r d1 Hq Hroom Hsegs Hf | d q en ex p tbl dc ia h Hq Hroom Hc]; intros Hr Hqt Hbd lq d' s Hlq Eo; try discriminate.
  - injection Eo as <- <-. exists [], lq. rewrite app_nil_r. auto.
  - destruct (comp_default _ _ grd _ _ W _ _ _ _ _ _ _ _ Hq) as (K1 & K2 & K3).
    assert (good (mkP d v (act1 ia) q)) as G by (split; [exact Hr|]; split; [exact K1 | cbn; rewrite K2; exact Hbd]).
    assert (within_region c M home q (mkP d v (act1 ia) q)) as R.
    { split; [reflexivity|]. split; [unfold is_comp; rewrite Hq; reflexivity|]. left. eauto. }
    destruct (segs_region _ _ _ _ W _ _ _ _ _ Hsegs G R) as [(Eb & _ & _) Ey]. cbn in Eb, Ey. subst b.
    destruct (segs_good _ _ _ _ W _ _ _ _ Hsegs G) as (G1 & G2 & G3). cbn in G1, G3.
    destruct (segs_log _ _ _ _ _ _ Hsegs) as (x1 & E1 & (Q1 & Q2 & Q3) & _). cbn in E1.
    assert (is_rsm M q = false) as Er by (unfold is_rsm; rewrite Hq; reflexivity).
    assert (chain (d_dyp d1) (Some t) (es ++ lq)) as Hc.
    { apply (below_chain M _ _ _ _ _ Er Hb). rewrite Ey. exact Hlq. }
    destruct (IH ltac:(apply ram_say, ram_say, G1) Ht G3 (es ++ lq) d' s Hc Eo) as (x2 & ln & L2 & C2 & R2).
    exists (x1 ++ map (fun a => XEff a pe) l ++ map (fun s => XEntry s (entry_of M s)) (rev es) ++ x2), ln.
    cbn in L2. split; [rewrite L2, E1, <- !app_assoc; reflexivity|]. split; [exact C2|].
    pose proof (quiet_effects pe l) as (Q4 & Q5 & _).
    rewrite replay_app, (replay_quiet _ _ Q1 Q2), replay_app, (replay_quiet _ _ Q4 Q5), replay_app.
    rewrite (replay_entries d1 lq es (Some t) G1 Hc) by (intros y [= <-]; exact G3). exact R2.
Qed.

Definition follows (d d' : dyn) : Prop :=
  forall cs lc, d_st d = Some cs -> chain (d_dyp d) (Some cs) lc ->
  exists x s ln, d_log d' = d_log d ++ x /\ d_st d' = Some s /\ chain (d_dyp d') (Some s) ln /\ replay lc x = Some ln.
Lemma follows_trans d1 d2 d3 : follows d1 d2 -> follows d2 d3 -> follows d1 d3.
Proof.
  intros H1 H2 cs lc Es Hl. destruct (H1 _ _ Es Hl) as (x & s & ln & E1 & Es1 & Hl1 & R1).
  destruct (H2 _ _ Es1 Hl1) as (y & s2 & ln2 & E2 & Es2 & Hl2 & R2). exists (x ++ y), s2, ln2.
  split; [rewrite E2, E1, app_assoc; reflexivity|]. split; [exact Es2|]. split; [exact Hl2|]. rewrite replay_app, R1. exact R2.
Qed.
Lemma follows_say d x : exited x = [] -> entered x = [] -> follows d (say d x).
Proof. intros H1 H2 cs lc Es Hl. exists x, cs, lc. auto 6 using replay_quiet. Qed.
Lemma follows_refl d : follows d d.
Proof. intros cs lc Es Hl. exists [], cs, lc. rewrite app_nil_r. auto. Qed.
Lemma rested_chain d s d' : rested M d s d' -> exists ln, chain (d_dyp d') (Some s) ln.
Proof. intros (anc & Hc & _ & E & _). rewrite E. eauto. Qed.

Lemma fails_code pe p e d1 : fails c M grd pe p e d1 -> e <> EVT_NFOUND /\ e <> EVT_PROC.
Proof. inversion 1; split; discriminate. Qed.
Lemma default_code pe d q o : default c M grd pe d q o -> match o with Failed _ e => e <> EVT_NFOUND /\ e <> EVT_PROC | _ => True end.
Proof. induction 1; auto; [eapply fails_code; eauto | split; discriminate]. Qed.
Lemma fire_code pe d cs src v a o : fire c M grd pe d cs src v a o -> match o with Failed _ e => e <> EVT_NFOUND /\ e <> EVT_PROC | _ => True end.
Proof.
  inversion 1; subst; try (split; discriminate); [eapply default_code; eauto | eapply fails_code; eauto].
Qed.
Lemma settle_code o r : settle c M o r -> match o with Failed _ e => e <> EVT_NFOUND /\ e <> EVT_PROC | _ => True end ->
  match r with Error _ e => e <> EVT_NFOUND /\ e <> EVT_PROC | _ => True end.
Proof. destruct o as [d s | d e]; cbn; [intros (d' & _ & ->) _; destruct (completes c M s); exact I | intros ->; auto]. Qed.

Lemma settle_follow dA s r : settle c M (Arrived dA s) r -> res_d r <> res_d r \/
  exists d2, r = (if completes c M s then Chained d2 else Rest d2) /\ d_log d2 = d_log dA ++ [XState s] /\ d_st d2 = Some s /\ d_dyp d2 = d_dyp dA.
Proof.
  intros (d2 & (anc & _ & E1 & E2 & E3 & _) & ->). right. exists d2. auto.
Qed.

Definition good_end (r : result) : Prop := match r with Error _ e => e = EVT_NFOUND | _ => True end.
Lemma step_follows pe d r : step c M grd pe d r -> machine_ok d -> good_end r -> follows d (res_d r).
Proof using W S1.
  intros H (Hr & s0 & Es & Hs & Hb) Hg.
  inversion H as [cs l d' Ecs Hl Hn | cs l src t d1 Ecs Hl Hsel Et Hroom | cs l src t d1 Ecs Hl Hsel Et Hroom Hc
    | cs l src t d1 v o r' Ecs Hl Hsel Et Hf Hset]; subst; cbn [res_d].
  - destruct (denied_log _ _ _ _ _ Hn) as (x & -> & (Q1 & Q2 & Q3)%quiet_guards). apply follows_say; assumption.
  - destruct (selected_log _ _ _ _ _ _ _ _ Hsel) as (x & -> & (Q1 & Q2 & Q3)%quiet_guards). unfold effects. rewrite !say_say.
    apply follows_say; rewrite ?exited_app, ?entered_app, ?Q1, ?Q2; cbn; apply quiet_effects.
  - discriminate Hg.
  - destruct (selected_wf _ _ _ _ _ W _ _ _ _ _ _ _ Hsel Et) as (Hin & Hk & Hh).
    destruct (selected_log _ _ _ _ _ _ _ _ Hsel) as (x & -> & (Q1 & Q2 & Q3)%quiet_guards).
    rewrite Es in Ecs. injection Ecs as <-.
    assert (bound (d_dyp d) (home v)) as Hbv.
    { rewrite Hh. eapply (chain_bound c M rank home W); [exact Hr | exact Hl | | exact Hin]. intros y [= <-]. exact Hb. }
    destruct o as [dA sA | dA eA].
    2:{ exfalso. pose proof (settle_code _ _ Hset (fire_code _ _ _ _ _ _ _ Hf)) as K. cbn in Hset. subst r. destruct K. auto. }
    destruct (settle_follow _ _ _ Hset) as [K | (d2 & Er & El & E2 & Ey)]; [congruence|].
    assert (res_d r = d2) as Ed by (rewrite Er; destruct (completes c M sA); reflexivity). rewrite Ed. clear Er Ed Hset Hg r H.
    inversion Hf as [d1 ts l' b lc lt o' Hsegs _ Ht Hlc Hlt Hin' Hd | | |]; subst.
    assert (good (mkP (say (say d x) [XTrn src (Some v)]) v (act1 (t_act t)) src)) as G by (split; [apply ram_say, ram_say, Hr | auto]).
    destruct (segs_good _ _ _ _ W _ _ _ _ Hsegs G) as (G1 & G2 & G3). cbn in G1, G2, G3.
    pose proof (segs_bound _ _ _ _ _ _ (home s0) Hsegs Hb) as Hb1. cbn in Hb1.
    destruct (segs_log _ _ _ _ _ _ Hsegs) as (x1 & L1 & (Q4 & Q5 & Q6) & _). cbn in L1.
    intros cs lc0 Ecs Hlc0. rewrite Es in Ecs. injection Ecs as <-.
    assert (lc0 = lc) as ->.
    { eapply chain_fun; [| exact Hlc]. apply (chain_same d d1 Hr G1 _ _ Hlc0). intros y [= <-]. auto. }
    assert (In s0 lt -> s0 = ts) as T2 by (intros Hi; exact (leaf_in_chain _ _ _ _ W _ _ _ _ G1 Hs Hlt Hi)).
    destruct (exits_enters M grd _ _ _ _ _ Hlc Hlt T2) as (a & b' & z & E3 & E4 & Ex & En & _).
    assert (d_dyp (enter M (enters lc lt) (effects pe l' (leave M (exits lc lt) d1))) = d_dyp d1) as Edy by (cbn; apply leave_dyp).
    destruct (default_replay _ _ _ _ Hd) with (lq := lt) (d' := dA) (s := sA) as (x2 & ln & L2 & C2 & R2).
    { apply ram_say, ram_say. apply (leave_exits_ok _ _ _ _ W _ s0); assumption. }
    { exact Ht. } { rewrite Edy. exact G3. } { rewrite Edy. exact Hlt. } { reflexivity. }
    exists (x ++ [XTrn src (Some v)] ++ x1 ++ map (fun s => XExit s (exit_of M s)) a ++ map (fun a => XEff a pe) l' ++
            map (fun s => XEntry s (entry_of M s)) (rev b') ++ x2 ++ [XState sA]), sA, ln.
    split.
    { rewrite El, L2. cbn. rewrite Ex, En, leave_log, L1, <- !app_assoc. reflexivity. }
    split; [exact E2|]. split; [rewrite Ey; exact C2|].
    pose proof (quiet_effects pe l') as (Q7 & Q8 & _).
    rewrite replay_app, (replay_quiet _ _ Q1 Q2), replay_app. cbn [S_SmRun.replay].
    rewrite replay_app, (replay_quiet _ _ Q4 Q5), replay_app, E3, replay_exits, replay_app, (replay_quiet _ _ Q7 Q8), replay_app.
    rewrite (replay_entries d1 z b' (Some ts) G1) by (rewrite <- ?E4; first [exact Hlt | intros y [= <-]; exact G3]).
    rewrite <- E4, replay_app, R2. reflexivity.
Qed.
Lemma finish_follows r d' e : finish c M grd r d' e -> machine_ok (res_d r) -> (e = EVT_PROC \/ e = EVT_NFOUND) -> follows (res_d r) d'.
Proof using W S1.
  induction 1 as [d | d r | d r d' e Hs Hf IH]; intros Hm He; cbn [res_d] in *; try apply follows_refl.
  assert (machine_ok (res_d r)) as Hm1 by (pose proof (step_wf _ _ _ _ _ W _ _ _ Hs Hm) as K; destruct r; exact K).
  eapply follows_trans; [eapply step_follows; eauto | apply IH; auto].
  destruct r as [| | d1 e1]; try exact I. inversion Hf; subst. destruct He as [-> | ->]; [| reflexivity].
  exfalso. inversion Hs; subst. pose proof (settle_code _ _ ltac:(eassumption) (fire_code _ _ _ _ _ _ _ ltac:(eassumption))) as [_ K]. congruence.
Qed.
Theorem do_replay fuel istate iact d pe ars d' e cs lc :
  wf_initial c M home istate = true -> arrays_ok c ars -> machine_ok d -> ev_sig pe <> (sm_any c - 2)%N ->
  dispatch c M grd fuel istate iact d pe ars = Ok (d', e) -> e = EVT_PROC \/ e = EVT_NFOUND ->
  d_st d = Some cs -> chain (d_dyp d) (Some cs) lc ->
  exists x s ln, d_log d' = d_log d ++ x /\ d_st d' = Some s /\ chain (d_dyp d') (Some s) ln /\ replay lc x = Some ln.
Proof using W S1.
  intros Hi Ha Hm Hs H He Es Hl. destruct (disp_step _ _ _ _ W _ _ _ _ _ _ _ _ _ Hi Ha Hm Hs H) as (r & H1 & H2 & _).
  assert (machine_ok (res_d r)) as Hm1 by (pose proof (step_wf _ _ _ _ _ W _ _ _ H1 Hm) as K; destruct r; exact K).
  assert (follows d d') as K; [| exact (K _ _ Es Hl)].
  eapply follows_trans; [eapply step_follows; eauto | eapply finish_follows; eauto].
  destruct r as [| | d1 e1]; try exact I. inversion H2; subst. destruct He as [-> | ->]; [| reflexivity].
  exfalso. inversion H1; subst. pose proof (settle_code _ _ ltac:(eassumption) (fire_code _ _ _ _ _ _ _ ltac:(eassumption))) as [_ K]. congruence.
Qed.

Lemma below_none_chain dy s l : below M None s l -> chain dy s l.
Proof.
  induction 1 as [| s p l Hne Hp H IH]; [constructor|]. econstructor; [exact Hp|]. destruct p as [p|]; cbn; [| exact IH].
  destruct (is_rsm M p) eqn:Er; [| exact IH]. exfalso. inversion H as [| s2 p2 l2 Hne2 Hp2 H2]; subst.
  unfold parent_of in Hp2. unfold is_rsm in Er. destruct (nth_error M p) as [[]|]; congruence.
Qed.
Lemma create_code pe d v a r : create c M grd pe d v a r -> match r with Error _ e => e <> EVT_NFOUND /\ e <> EVT_PROC | _ => True end.
Proof.
  inversion 1; subst; try (split; discriminate); [| eapply fails_code; eauto].
  eapply settle_code; [eassumption|]. eapply default_code; eauto.
Qed.
Theorem init_replay fuel istate iact d ars d' e :
  wf_initial c M home istate = true -> arrays_ok c ars -> ready c M home d ->
  sm_init c M grd fuel istate iact d ars = Ok (d', e) -> e = EVT_PROC \/ e = EVT_NFOUND ->
  exists x s ln, d_log d' = d_log d ++ x /\ d_st d' = Some s /\ chain (d_dyp d') (Some s) ln /\ replay [] x = Some ln.
Proof using W S1.
  intros Hi Ha Hr H He. unfold sm_init in H. destruct (initial_kind _ _ _ _ Hi) as [Hk Hh].
  destruct (dispatch_safe c M rank home W grd fuel istate iact d (evCreation c) ars Hi Ha Hr (fun _ => eq_refl)) as [_ K].
  destruct (K _ _ H) as [(r & H1 & H2) _]. change (ev_sig (evCreation c)) with (sm_any c - 2)%N in H1. rewrite N.eqb_refl in H1.
  pose proof (create_wf _ _ _ _ _ W _ _ _ _ _ H1 (proj1 Hr) Hk Hh) as Hw.
  pose proof (create_code _ _ _ _ _ H1) as Hcode.
  inversion H1 as [d1 ts l b es o r' Hsegs Hroom Ht Hb Hd Hset | p1 r' d1 Hsegs Hroom Hf | Hroom Hc]; subst.
  2:{ inversion H2; subst. destruct Hcode, He; congruence. }
  2:{ inversion H2; subst. destruct Hcode, He; congruence. }
  destruct o as [dA sA | dA eA].
  2:{ cbn in Hset. subst r. inversion H2; subst. destruct Hcode, He; congruence. }
  assert (good (mkP (say d [XTrn istate (Some istate)]) istate (act1 iact) istate)) as G.
  { split; [apply ram_say, Hr|]. split; [exact Hk|]. cbn. rewrite Hh. exact I. }
  destruct (segs_good _ _ _ _ W _ _ _ _ Hsegs G) as (G1 & G2 & G3). cbn in G1, G2, G3.
  destruct (segs_log _ _ _ _ _ _ Hsegs) as (x1 & L1 & (Q4 & Q5 & Q6) & _). cbn in L1.
  pose proof (below_none_chain (d_dyp d1) _ _ Hb) as Hc.
  destruct (default_replay _ _ _ _ Hd) with (lq := es) (d' := dA) (s := sA) as (x2 & ln & L2 & C2 & R2).
  { apply ram_say, ram_say, G1. } { exact Ht. } { exact G3. } { exact Hc. } { reflexivity. }
  destruct (settle_follow _ _ _ Hset) as [K' | (d2 & Er & El & E2 & Ey)]; [congruence|].
  assert (res_d r = d2) as Ed by (rewrite Er; destruct (completes c M sA); reflexivity).
  assert (machine_ok (res_d r)) as Hm1 by (rewrite Er in Hw |- *; destruct (completes c M sA); exact Hw).
  pose proof (finish_follows _ _ _ H2 Hm1 He) as Hfo. rewrite Ed in Hfo.
  destruct (Hfo sA ln E2 ltac:(rewrite Ey; exact C2)) as (y & s & ln2 & L3 & E3 & C3 & R3).
  exists (([XTrn istate (Some istate)] ++ x1 ++ map (fun a => XEff a (evCreation c)) l ++
          map (fun s => XEntry s (entry_of M s)) (rev es) ++ x2 ++ [XState sA]) ++ y), s, ln2.
  split.
  { rewrite L3, El, L2. cbn. rewrite L1, <- !app_assoc. reflexivity. }
  split; [exact E3|]. split; [exact C3|].
  pose proof (quiet_effects (evCreation c) l) as (Q7 & Q8 & _).
  rewrite replay_app, replay_app. cbn [S_SmRun.replay]. rewrite replay_app, (replay_quiet _ _ Q4 Q5), replay_app, (replay_quiet _ _ Q7 Q8), replay_app.
  rewrite <- (app_nil_r es) in Hc. rewrite (replay_entries d1 [] es (Some ts) G1 Hc) by (intros u [= <-]; exact G3).
  rewrite app_nil_r, replay_app, R2. exact R3.
Qed.
End Replay.
