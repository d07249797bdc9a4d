(** The statechart semantics is deterministic. *)
From Verif Require Import Base L_Base M_Sm S_Sm L_Sm L_SmWalk L_SmStep.

Section Sm.
Context (c : smcfg) (M : machine) (grd : nat -> evt -> list xev -> bool).
Notation denied := (denied grd).
Notation enabled := (enabled grd).
Notation first_of := (first_of grd).
Notation seg := (seg c M grd).
Notation segs := (segs c M grd).
Notation fails := (fails c M grd).

Lemma denied_fun pe d l d1 : denied pe d l d1 -> forall d2, denied pe d l d2 -> d1 = d2.
Proof.
  induction 1 as [| d t g r d' Hg Hf H IH]; intros d2 H2; inversion H2; subst; [reflexivity|].
  apply IH. congruence.
Qed.
Lemma enabled_fun pe d t d1 d2 : enabled pe d t d1 -> enabled pe d t d2 -> d1 = d2.
Proof. unfold S_Sm.enabled. destruct (t_grd t); [intros [_ ->] [_ ->]; reflexivity | congruence]. Qed.
(** A transition cannot be both. *)
Lemma enabled_denied pe d t d1 r d2 : enabled pe d t d1 -> denied pe d (t :: r) d2 -> False.
Proof. unfold S_Sm.enabled. intros H1 H2. inversion H2; subst. destruct (t_grd t); [destruct H1; congruence | congruence]. Qed.

Lemma first_denied pe d l t d1 d2 : first_of pe d l t d1 -> denied pe d l d2 -> False.
Proof.
  intros (pre & post & dm & -> & D & E) H. apply denied_app_inv in H as (dm' & D' & H).
  rewrite <- (denied_fun _ _ _ _ D _ D') in H. eapply enabled_denied; eauto.
Qed.
Lemma first_fun pe d l t1 d1 t2 d2 : first_of pe d l t1 d1 -> first_of pe d l t2 d2 -> t1 = t2 /\ d1 = d2.
Proof.
  intros (pre1 & post1 & dm1 & E1 & D1 & A1) (pre2 & post2 & dm2 & E2 & D2 & A2). rewrite E1 in E2. clear E1.
  revert d pre2 D1 D2 E2. induction pre1 as [| x pre1 IH]; intros d pre2 D1 D2 E2; destruct pre2 as [| y pre2]; cbn in E2; injection E2 as -> E2.
  - inversion D1; inversion D2; subst. split; [reflexivity | eapply enabled_fun; eauto].
  - exfalso. inversion D1; subst. eapply enabled_denied; [exact A1 | exact D2].
  - exfalso. inversion D2; subst. eapply enabled_denied; [exact A2 | exact D1].
  - inversion D1; inversion D2; subst. eapply IH; eauto. congruence.
Qed.
Lemma selected_nothing pe d l s t d1 d2 : selected M grd pe d l s t d1 -> nothing M grd pe d l d2 -> False.
Proof.
  intros (inn & out & dm & -> & D & F) H. unfold nothing in H. rewrite flat_map_app in H. cbn [flat_map] in H.
  apply denied_app_inv in H as (dm' & D' & H). rewrite <- (denied_fun _ _ _ _ D _ D') in H.
  apply denied_app_inv in H as (dm2 & D2 & _). eapply first_denied; eauto.
Qed.
Lemma selected_fun pe d l s1 t1 d1 s2 t2 d2 : NoDup l -> selected M grd pe d l s1 t1 d1 -> selected M grd pe d l s2 t2 d2 ->
  s1 = s2 /\ t1 = t2 /\ d1 = d2.
Proof.
  intros Nd (inn1 & out1 & dm1 & E1 & D1 & F1) (inn2 & out2 & dm2 & E2 & D2 & F2). rewrite E1 in E2.
  assert (forall d inn1 inn2 s1 s2 out1 out2, denied pe d (flat_map (triggered M (ev_sig pe)) inn1) dm1 ->
     denied pe d (flat_map (triggered M (ev_sig pe)) inn2) dm2 -> inn1 ++ s1 :: out1 = inn2 ++ s2 :: out2 ->
     first_of pe dm1 (triggered M (ev_sig pe) s1) t1 d1 -> first_of pe dm2 (triggered M (ev_sig pe) s2) t2 d2 ->
     s1 = s2 /\ t1 = t2 /\ d1 = d2) as G; [| eapply G; eauto].
  clear. intros d inn1. revert d. induction inn1 as [| x inn1 IH]; intros d inn2 s1 s2 out1 out2 D1 D2 E F1 F2;
    destruct inn2 as [| y inn2]; cbn in E; injection E as -> E.
  - inversion D1; inversion D2; subst. split; [reflexivity|]. exact (first_fun _ _ _ _ _ _ _ F1 F2).
  - exfalso. inversion D1; subst. cbn [flat_map] in D2. apply denied_app_inv in D2 as (dm' & D' & _). eapply first_denied; [exact F1 | exact D'].
  - exfalso. inversion D2; subst. cbn [flat_map] in D1. apply denied_app_inv in D1 as (dm' & D' & _). eapply first_denied; [exact F2 | exact D'].
  - cbn [flat_map] in D1, D2. apply denied_app_inv in D1 as (da & Da & D1). apply denied_app_inv in D2 as (db & Db & D2).
    rewrite (denied_fun _ _ _ _ Da _ Db) in D1. eapply IH; eauto.
Qed.

Ltac same := repeat match goal with
  | H1 : nth_error M ?v = Some _, H2 : nth_error M ?v = Some _ |- _ => rewrite H1 in H2; injection H2; clear H2; intros; subst
  | H1 : first_of _ ?d ?l ?t1 ?d1, H2 : first_of _ ?d ?l ?t2 ?d2 |- _ =>
      let A := fresh in let B := fresh in destruct (first_fun _ _ _ _ _ _ _ H1 H2) as [A B]; clear H2; subst
  | H1 : enabled _ ?d ?t ?d1, H2 : enabled _ ?d ?t ?d2 |- _ =>
      let A := fresh in pose proof (enabled_fun _ _ _ _ _ H1 H2) as A; clear H2; subst
  | H1 : ?x = Some _, H2 : ?x = Some _ |- _ => rewrite H1 in H2; injection H2; clear H2; intros; subst
  | H1 : ?x = Some _, H2 : ?x = None |- _ => rewrite H1 in H2; discriminate
  end.

Lemma seg_fun pe p q1 q2 : seg pe p q1 -> seg pe p q2 -> q1 = q2.
Proof.
  intros H1 H2. inversion H1; subst; inversion H2; subst; try congruence; same; try reflexivity; try congruence.
Qed.
Lemma seg_target pe p q : seg pe p q -> is_target M (p_v p) = true -> False.
Proof. unfold is_target. inversion 1; subst; cbn [p_v]; same; repeat match goal with E : nth_error M ?v = _ |- _ => rewrite ?E; clear E end; discriminate. Qed.
Lemma fails_target pe p e d : fails pe p e d -> is_target M (p_v p) = true -> False.
Proof.
  unfold is_target. inversion 1; subst; cbn [p_v]; try (match goal with E : nth_error M ?v = _ |- _ => rewrite E end; discriminate).
  match goal with F : overfull _ _ _ _ _ _ _ _ |- _ => inversion F; subst end;
    repeat match goal with E : nth_error M ?v = _ |- _ => rewrite ?E; clear E end; discriminate.
Qed.
Lemma seg_fails pe p q e d : seg pe p q -> fails pe p e d -> False.
Proof.
  intros H1 H2. inversion H1; subst; inversion H2; subst; same; try congruence;
  try (eapply first_denied; eassumption);
  try (match goal with H : enabled _ _ _ _ |- _ => unfold S_Sm.enabled in H end;
       match goal with H : t_grd _ = Some _ |- _ => rewrite H in * end; intuition congruence);
  match goal with F : overfull _ _ _ _ _ _ _ _ |- _ => inversion F; subst end; same; try congruence; try contradiction.
Qed.
Lemma fails_fun pe p e1 d1 e2 d2 : fails pe p e1 d1 -> fails pe p e2 d2 -> e1 = e2 /\ d1 = d2.
Proof.
  intros H1 H2. inversion H1; subst; inversion H2; subst; same; try congruence; auto;
  try (match goal with F : denied _ _ _ ?x, G : denied _ _ _ ?y |- _ => rewrite (denied_fun _ _ _ _ F _ G) end; auto; fail);
  repeat match goal with F : overfull _ _ _ _ _ _ _ _ |- _ => inversion F; clear F; subst end; same; try congruence; auto;
  try (exfalso; eapply first_denied; eassumption);
  try (exfalso; match goal with H : enabled _ _ _ _ |- _ => unfold S_Sm.enabled in H end;
       match goal with H : t_grd _ = Some _ |- _ => rewrite H in * end; intuition congruence).
Qed.

(** Two points of one path: one comes after the other. *)
Lemma segs_line pe p q1 : segs pe p q1 -> forall q2, segs pe p q2 -> segs pe q1 q2 \/ segs pe q2 q1.
Proof.
  induction 1 as [p | p q r H1 H2 IH]; intros q2 G; [auto|].
  inversion G as [| p' q' r' G1 G2]; subst; [right; econstructor; eauto|].
  rewrite (seg_fun _ _ _ _ G1 H1) in G2. auto.
Qed.
Lemma segs_trans pe p q r : segs pe p q -> segs pe q r -> segs pe p r.
Proof. induction 1; intros; [assumption | econstructor; eauto]. Qed.
Lemma segs_end_target pe p q : segs pe p q -> is_target M (p_v p) = true -> q = p.
Proof. intros H Ht. inversion H; subst; [reflexivity|]. exfalso. eapply seg_target; eauto. Qed.
Lemma segs_end_fails pe p q e d : segs pe p q -> fails pe p e d -> q = p.
Proof. intros H Ht. inversion H; subst; [reflexivity|]. exfalso. eapply seg_fails; eauto. Qed.
End Sm.
