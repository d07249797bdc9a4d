(** Events keep the machine in order. *)
From Verif Require Import Base L_Base M_Sm S_Sm S_SmWf L_Sm L_SmWalk L_SmStep L_SmWf.

Section Keep.
Context (c : smcfg) (M : machine) (grd : nat -> evt -> list xev -> bool) (rank : nat -> nat) (home : nat -> option nat).
Context (W : wf_machine c M rank home = true).
Notation ram_ok := (ram_ok c M home).
Notation machine_ok := (machine_ok c M home).
Notation good := (good c M home).

Lemma seg_bound pe p q h : seg c M grd pe p q -> bound (d_dyp (p_d p)) h -> bound (d_dyp (p_d q)) h.
Proof.
  inversion 1; subst; cbn [p_d];
    try match goal with F : first_of _ _ _ _ _ _ |- _ => destruct (first_ram _ _ _ _ _ _ F) as [x ->] end;
    try match goal with F : enabled _ _ _ _ _ |- _ => destruct (enabled_ram _ _ _ _ _ F) as [x ->] end; auto using bound_set.
Qed.
Lemma segs_bound pe p q h : segs c M grd pe p q -> bound (d_dyp (p_d p)) h -> bound (d_dyp (p_d q)) h.
Proof. induction 1 as [| p q r H1 H2 IH]; [auto|]. intros H. apply IH. eapply seg_bound; eauto. Qed.
Lemma fails_bound pe p e d1 h : fails c M grd pe p e d1 -> bound (d_dyp (p_d p)) h -> bound (d_dyp d1) h.
Proof.
  intros H Hb. inversion H; subst; cbn [p_d] in *;
    try match goal with F : denied _ _ _ _ _ |- _ => destruct (denied_ram _ _ _ _ _ F) as [x ->] end; auto.
  match goal with F : overfull _ _ _ _ _ _ _ _ |- _ => inversion F; subst; cbn;
    try match goal with F : first_of _ _ _ _ _ _ |- _ => destruct (first_ram _ _ _ _ _ _ F) as [x ->] end;
    try match goal with F : enabled _ _ _ _ _ |- _ => destruct (enabled_ram _ _ _ _ _ F) as [x ->] end;
    auto; apply (bound_set d); exact Hb
  end.
Qed.

Lemma comp_default q en ex p tbl v ia h : nth_error M q = Some (VComp en ex p tbl (Some v) ia h) ->
  ok_kind M v = true /\ home v = home q /\ ok_default c M home (length M) (Some q) v = true.
Proof.
  intros Hq. pose proof (wf_at _ _ _ _ W _ _ Hq) as H. cbn in H. apply andb_true_iff in H as [_ H].
  apply andb_true_iff in H as [H1 H2]. apply target_ok in H1. tauto.
Qed.
Lemma default_ok pe d q o : default c M grd pe d q o -> ram_ok d -> is_target M q = true -> bound (d_dyp d) (home q) ->
  match o with
  | Arrived d' s => ram_ok d' /\ is_leaf M s = true /\ bound (d_dyp d') (home s)
  | Failed d' _ => ram_ok d'
  end /\ forall h, bound (d_dyp d) h -> bound (d_dyp (match o with Arrived d' _ | Failed d' _ => d' end)) h.
Proof.
  induction 1 as [d s Hs | d q en ex p tbl v ia h d1 t l b es o Hq Hroom Hsegs Ht Hb Hd IH
    | d q en ex p tbl v ia h p1 r d1 Hq Hroom Hsegs Hf | d q en ex p tbl dc ia h Hq Hroom Hc]; intros Hr Hqt Hbd.
  - auto.
  - destruct (comp_default _ _ _ _ _ _ _ _ Hq) as (K1 & K2 & _).
    destruct (segs_good _ _ _ _ W _ _ _ _ Hsegs) as (G1 & G2 & G3); [split; [exact Hr|]; split; [exact K1 | cbn; rewrite K2; exact Hbd]|].
    cbn in G1, G3. destruct IH as [I1 I2]; [apply ram_say, ram_say, G1 | exact Ht | exact G3 |]. split; [exact I1|].
    intros h0 Hh. apply I2. apply (segs_bound _ _ _ h0) in Hsegs; [exact Hsegs | exact Hh].
  - destruct (comp_default _ _ _ _ _ _ _ _ Hq) as (K1 & K2 & _).
    pose proof (segs_good _ _ _ _ W _ _ _ _ Hsegs) as G. split.
    + eapply (fails_good c M rank home W grd); [exact Hf|]. apply G. split; [exact Hr|]. split; [exact K1 | cbn; rewrite K2; exact Hbd].
    + intros h0 Hh. eapply fails_bound; [exact Hf|]. eapply segs_bound; [exact Hsegs | exact Hh].
  - auto.
Qed.

Lemma fire_wf pe d cs src v a o : fire c M grd pe d cs src v a o -> ram_ok d -> ok_kind M v = true -> bound (d_dyp d) (home v) ->
  bound (d_dyp d) (home cs) ->
  match o with
  | Arrived d' s => ram_ok d' /\ is_leaf M s = true /\ bound (d_dyp d') (home s)
  | Failed d' _ => ram_ok d'
  end /\ forall h, bound (d_dyp d) h -> bound (d_dyp (match o with Arrived d' _ | Failed d' _ => d' end)) h.
Proof.
  intros H Hr Hv Hbv Hbc.
  assert (good (mkP (say d [XTrn src (Some v)]) v (act1 a) src)) as G by (split; [apply ram_say, Hr | auto]).
  inversion H as [d1 ts l b lc lt o' Hsegs Hroom Ht Hlc Hlt Hin Hd | p1 r d1 Hsegs Hroom Hf | d1 ts l b lt Hsegs Hroom Ht Hc Hne Hlt Hlen | Hroom Hc]; subst.
  - destruct (segs_good _ _ _ _ W _ _ _ _ Hsegs G) as (G1 & G2 & G3). cbn in G1, G2, G3.
    pose proof (segs_bound _ _ _ (home cs) Hsegs Hbc) as Hbc1. cbn in Hbc1.
    destruct (default_ok _ _ _ _ Hd) as [I1 I2].
    + apply ram_say, ram_say. apply (leave_ok c M rank home W); [exact G1|]. intros s Hs%exits_in. split; [exact (chain_parents M _ _ _ Hlc _ Hs)|].
      eapply (chain_bound c M rank home W); [exact G1 | exact Hlc | | exact Hs]. intros x [= <-]. exact Hbc1.
    + exact Ht.
    + cbn. rewrite leave_dyp. exact G3.
    + split; [exact I1|]. intros h Hh. apply I2. cbn. rewrite leave_dyp. apply (segs_bound _ _ _ h) in Hsegs; [exact Hsegs | exact Hh].
  - split.
    + eapply (fails_good c M rank home W grd); [exact Hf|]. eapply (segs_good c M rank home W grd); eauto.
    + intros h0 Hh. eapply fails_bound; [exact Hf|]. eapply segs_bound; [exact Hsegs | exact Hh].
  - split; [eapply (segs_good c M rank home W grd) in Hsegs; [apply Hsegs | exact G]|].
    intros h0 Hh. apply (segs_bound _ _ _ h0) in Hsegs; [exact Hsegs | exact Hh].
  - split; [apply ram_say, Hr | auto].
Qed.

Lemma settle_wf o r : settle c M o r ->
  match o with Arrived d s => ram_ok d /\ is_leaf M s = true /\ bound (d_dyp d) (home s) | Failed d _ => ram_ok d end ->
  match r with Rest d | Chained d => machine_ok d | Error d _ => ram_ok d end.
Proof.
  destruct o as [d s | d e]; cbn.
  - intros (d' & Hd & ->) (Hr & Hs & Hb). pose proof (rested_ok c M rank home W _ _ _ Hd Hr Hs Hb). destruct (completes c M s); assumption.
  - intros -> H. exact H.
Qed.

Lemma selected_wf pe d l s t d' v : selected M grd pe d l s t d' -> t_tgt t = Some v -> In s l /\ ok_kind M v = true /\ home v = home s.
Proof.
  intros (inn & out & dm & -> & _ & F) E. split; [apply in_app_iff; right; left; reflexivity|].
  apply first_in in F. apply filter_In in F as [F _].
  unfold table_of in F. destruct (nth_error M s) as [x|] eqn:Hx; [| destruct F].
  pose proof (wf_at _ _ _ _ W _ _ Hx) as H. destruct x; cbn in F; try destruct F; cbn in H; rewrite ?andb_true_iff in H;
    repeat match goal with G : _ /\ _ |- _ => destruct G end; eapply table_ok; eauto.
Qed.

Lemma step_wf pe d r : step c M grd pe d r -> machine_ok d -> match r with Rest d' | Chained d' | Error d' _ => machine_ok d' end.
Proof.
  intros H (Hr & s0 & Es & Hs & Hb).
  assert (resting M d) as Hrest by (split; [apply (ram_tidy c M home), Hr | eauto]).
  pose proof (step_rest c M rank (wf_tidy c M rank home W) grd _ _ _ H Hrest) as [_ Hst].
  assert (forall x, machine_ok (say d x)) as K by (intros x; split; [apply ram_say, Hr | exists s0; auto]).
  inversion H as [cs l d' Ecs Hl Hn | cs l src t d1 Ecs Hl Hsel Et Hroom | cs l src t d1 Ecs Hl Hsel Et Hroom Hc
    | cs l src t d1 v o r' Ecs Hl Hsel Et Hf Hset]; subst.
  - destruct (denied_ram _ _ _ _ _ Hn) as [x ->]. apply K.
  - destruct (selected_ram M grd _ _ _ _ _ _ Hsel) as [x ->]. unfold effects. rewrite !say_say. apply K.
  - destruct (selected_ram M grd _ _ _ _ _ _ Hsel) as [x ->]. rewrite !say_say. apply K.
  - destruct (selected_wf _ _ _ _ _ _ _ Hsel Et) as (Hin & Hk & Hh). destruct (selected_ram M grd _ _ _ _ _ _ Hsel) as [x ->].
    rewrite Es in Ecs. injection Ecs as <-.
    destruct (fire_wf _ _ _ _ _ _ _ Hf) as [I1 I2]; [apply ram_say, Hr | exact Hk | | exact Hb |].
    + cbn. rewrite Hh. eapply (chain_bound c M rank home W); [exact Hr | exact Hl | | exact Hin]. intros y [= <-]. exact Hb.
    + pose proof (settle_wf _ _ Hset I1) as S. destruct r as [d2 | d2 | d2 e]; auto. split; [exact S|].
      exists s0. split; [congruence|]. split; [exact Hs|]. destruct o as [dd ss | dd e']; cbn in Hset.
      * destruct Hset as (dx & _ & Hset). destruct (completes c M ss); discriminate.
      * injection Hset as -> ->. apply I2. exact Hb.
Qed.
Lemma create_wf pe d v a r : create c M grd pe d v a r -> ram_ok d -> ok_kind M v = true -> home v = None ->
  match r with Rest d' | Chained d' => machine_ok d' | Error d' _ => ram_ok d' end.
Proof.
  intros H Hr Hv Hh.
  assert (good (mkP (say d [XTrn v (Some v)]) v (act1 a) v)) as G.
  { split; [apply ram_say, Hr|]. split; [exact Hv|]. cbn. rewrite Hh. exact I. }
  inversion H as [d1 ts l b es o r' Hsegs Hroom Ht Hb Hd Hset | p1 r' d1 Hsegs Hroom Hf | Hroom Hc]; subst.
  - destruct (segs_good _ _ _ _ W _ _ _ _ Hsegs G) as (G1 & G2 & G3). cbn in G1, G2, G3.
    destruct (default_ok _ _ _ _ Hd) as [I1 I2]; [apply ram_say, ram_say, G1 | exact Ht | exact G3 |].
    eapply settle_wf; eauto.
  - eapply (fails_good c M rank home W grd); [exact Hf|]. eapply (segs_good c M rank home W grd); eauto.
  - apply ram_say, Hr.
Qed.
Lemma create_error pe d v a d' e : create c M grd pe d v a (Error d' e) -> ram_ok d -> ok_kind M v = true -> home v = None ->
  ram_ok d' /\ d_st d' = d_st d /\ forall h, bound (d_dyp d) h -> bound (d_dyp d') h.
Proof.
  intros H Hr Hv Hh. split; [exact (create_wf _ _ _ _ _ H Hr Hv Hh)|].
  split; [exact (proj2 (create_rest c M rank (wf_tidy c M rank home W) grd _ _ _ _ _ H (ram_tidy c M home _ Hr) (kind_rsm _ _ Hv)))|].
  intros h Hb.
  assert (good (mkP (say d [XTrn v (Some v)]) v (act1 a) v)) as G.
  { split; [apply ram_say, Hr|]. split; [exact Hv|]. cbn. rewrite Hh. exact I. }
  inversion H as [d1 ts l b es o r' Hsegs Hroom Ht Hb' Hd Hset | p1 r' d1 Hsegs Hroom Hf | Hroom Hc]; subst.
  - destruct (segs_good _ _ _ _ W _ _ _ _ Hsegs G) as (G1 & G2 & G3). cbn in G1, G2, G3.
    destruct (default_ok _ _ _ _ Hd) as [I1 I2]; [apply ram_say, ram_say, G1 | exact Ht | exact G3 |].
    destruct o as [dd ss | dd e']; cbn in Hset.
    + destruct Hset as (dx & _ & Hset). destruct (completes c M ss); discriminate.
    + injection Hset as -> ->. apply I2. cbn. apply (segs_bound _ _ _ h) in Hsegs; [exact Hsegs | exact Hb].
  - eapply fails_bound; [exact Hf|]. eapply segs_bound; [exact Hsegs | exact Hb].
  - exact Hb.
Qed.
Lemma finish_wf r d' e : finish c M grd r d' e -> match r with Rest d | Chained d | Error d _ => machine_ok d end -> machine_ok d'.
Proof. induction 1 as [d | d r | d r d' e Hs Hf IH]; auto. intros Hm. apply IH. apply (step_wf _ _ _ Hs Hm). Qed.
Lemma finish_create r d' e : finish c M grd r d' e -> match r with Rest d | Chained d => machine_ok d | Error d _ => ram_ok d end -> ram_ok d'.
Proof.
  destruct r as [d | d | d e1]; intros H Hr.
  - eapply finish_wf; [exact H | exact Hr].
  - eapply finish_wf; [exact H | exact Hr].
  - inversion H; subst. exact Hr.
Qed.
End Keep.
