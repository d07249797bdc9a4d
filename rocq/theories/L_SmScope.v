(** Lists of states, innermost first, with a common end. *)
From Verif Require Import Base L_Base M_Sm S_Sm S_SmWf S_SmRun L_Sm L_SmStep L_SmWf L_SmDo S_SmScope.
Local Open Scope nat_scope.

Lemma mem_In s l : mem s l = true <-> In s l.
Proof.
  unfold mem. rewrite existsb_exists. split.
  - intros (x & Hx & E). apply Nat.eqb_eq in E. now subst.
  - intros H. exists s. split; [exact H | apply Nat.eqb_refl].
Qed.
Lemma filter_all {A} (f : A -> bool) l : (forall x, In x l -> f x = true) -> filter f l = l.
Proof.
  induction l as [| x l IH]; intros H; [reflexivity|]. cbn. rewrite (H x (or_introl eq_refl)). f_equal. apply IH. intros y Hy. apply H. now right.
Qed.
Lemma filter_no {A} (f : A -> bool) l : (forall x, In x l -> f x = false) -> filter f l = [].
Proof.
  induction l as [| x l IH]; intros H; [reflexivity|]. cbn. rewrite (H x (or_introl eq_refl)). apply IH. intros y Hy. apply H. now right.
Qed.
(** A common end without [s] is an end of what follows [s]. *)
Lemma suffix_after (out both pre anc : list nat) s : out ++ both = pre ++ s :: anc -> ~ In s both -> exists o, out = pre ++ s :: o /\ anc = o ++ both.
Proof.
  revert pre. induction out as [| x out IH]; intros pre E Hn; cbn in E.
  - subst both. exfalso. apply Hn, in_elt.
  - destruct pre as [| y pre]; cbn in E; injection E as -> E.
    + exists out. split; [reflexivity | now rewrite E].
    + destruct (IH pre E Hn) as (o & -> & ->). exists o. split; reflexivity.
Qed.
Lemma suffix_before (out both pre anc : list nat) s : out ++ both = pre ++ s :: anc -> ~ In s out -> exists o, pre = out ++ o /\ both = o ++ s :: anc.
Proof.
  revert pre. induction out as [| x out IH]; intros pre E Hn; cbn in E.
  - exists pre. split; [reflexivity | exact E].
  - destruct pre as [| y pre]; cbn in E; injection E as -> E.
    + exfalso. apply Hn. now left.
    + destruct (IH pre E (fun K => Hn (or_intror K))) as (o & -> & ->). exists o. split; reflexivity.
Qed.
Lemma before_app s a b : ~ In s a -> before s (a ++ s :: b) = a.
Proof.
  induction a as [| x a IH]; intros H; cbn; [now rewrite Nat.eqb_refl|].
  destruct (Nat.eqb_spec x s) as [-> |]; [exfalso; apply H; now left|]. f_equal. apply IH. intros K. apply H. now right.
Qed.

Lemma ext_lists out inn both pre src anc ts lt :
  NoDup (out ++ both) -> NoDup lt -> out ++ both = pre ++ src :: anc -> lt = inn ++ both -> hd_error lt = Some ts ->
  (forall s, In s out -> ~ In s inn) -> ~ In src lt -> ~ In ts anc ->
  ext_exits (out ++ both) anc lt = out /\ ext_entries anc lt = rev inn.
Proof.
  intros N1 N2 E1 E2 Et Hd Hs Ha.
  assert (~ In src both) as Hb by (intros K; apply Hs; rewrite E2; apply in_or_app; now right).
  destruct (suffix_after _ _ _ _ _ E1 Hb) as (o & Eo & Ea).
  destruct inn as [| x inn].
  { exfalso. cbn in E2. subst lt. destruct both as [| y both]; [discriminate|]. injection Et as ->. apply Ha. rewrite Ea. apply in_or_app. right. now left. }
  cbn in E2. subst lt. injection Et as ->.
  assert (forall s, In s both -> around anc (ts :: inn ++ both) s = true) as Hyes.
  { intros s Hi. unfold around. cbn [tl]. apply andb_true_intro. split; apply mem_In; [rewrite Ea|]; apply in_or_app; now right. }
  assert (forall s, In s out -> around anc (ts :: inn ++ both) s = false) as Hno1.
  { intros s Hi. unfold around. cbn [tl]. destruct (mem s (inn ++ both)) eqn:Em; [| now rewrite andb_false_r].
    exfalso. apply mem_In, in_app_or in Em as [K | K]; [exact (Hd s Hi (or_intror K)) | exact (nodup_app_notin _ _ _ N1 Hi K)]. }
  assert (forall s, In s (ts :: inn) -> around anc (ts :: inn ++ both) s = false) as Hno2.
  { intros s Hi. unfold around. destruct (mem s anc) eqn:Em; [| reflexivity]. exfalso. apply mem_In in Em. rewrite Ea in Em.
    apply in_app_or in Em as [K | K].
    - apply (Hd s); [rewrite Eo; apply in_or_app; right; now right | exact Hi].
    - exact (nodup_app_notin (ts :: inn) both s N2 Hi K). }
  split.
  - unfold ext_exits. rewrite filter_app, filter_all, filter_no; [apply app_nil_r | |]; intros s Hi; [rewrite (Hyes s Hi) | rewrite (Hno1 s Hi)]; reflexivity.
  - unfold ext_entries. f_equal. change (ts :: inn ++ both) with ((ts :: inn) ++ both). rewrite filter_app, filter_all, filter_no; [apply app_nil_r | |];
      intros s Hi; cbn [app]; [rewrite (Hyes s Hi) | rewrite (Hno2 s Hi)]; reflexivity.
Qed.

Section Scope.
Context (c : smcfg) (M : machine) (rank : nat -> nat) (home : nat -> option nat) (W : wf_machine c M rank home = true)
  (grd : nat -> evt -> list xev -> bool).
Context (fuel istate : nat) (iact : option nat) (d d' d1 : dyn) (pe : evt) (ars : arrays) (e : rcode) (cs src ts : nat) (t : trn)
  (acts lc lt : list nat).
Context (Hi : wf_initial c M home istate = true) (Ha : arrays_ok c ars) (Hm : machine_ok c M home d)
  (Hc : ev_sig pe <> (sm_any c - 2)%N) (H : dispatch c M grd fuel istate iact d pe ars = Ok (d', e))
  (T : taken c M grd d pe cs src t d1 ts acts lc lt).

Lemma scope : exists out inn both, lc = out ++ both /\ lt = inn ++ both /\
  (if cs =? ts then out = [cs] /\ inn = [cs] else forall s, In s out -> ~ In s inn) /\
  moved M d1 d' pe out acts (rev inn) /\ NoDup lc /\ NoDup lt /\ hd_error lc = Some cs /\ hd_error lt = Some ts.
Proof using W Hi Ha Hm Hc H T.
  destruct T as (l & d0 & v & b & Es & Hl & Hs & Et & Hr & Hp & Ht & Hlc & Hlt).
  destruct (do_order c M rank home W grd fuel istate iact d pe ars d' e cs d1 ts acts b lc lt Hi Ha Hm Hc H Es) as (out & inn & both & rest & E1 & E2 & Hd & El);
    [eapply visit_path; eauto | exact Ht | exact Hlc | exact Hlt|].
  exists out, inn, both. split; [exact E1|]. split; [exact E2|]. split; [exact Hd|]. split; [now exists rest|].
  split; [eapply chain_nodup; eauto|]. split; [eapply chain_nodup; eauto|]. split; [inversion Hlc | inversion Hlt]; reflexivity.
Qed.

Lemma scope_external pre anc : lc = pre ++ src :: anc -> (~ In src lt /\ ~ In ts anc) \/ (src = cs /\ ts = cs) ->
  moved M d1 d' pe (ext_exits lc anc lt) acts (ext_entries anc lt).
Proof using W Hi Ha Hm Hc H T.
  intros El Hcase. destruct scope as (out & inn & both & E1 & E2 & Hd & Hmv & N1 & N2 & H1 & H2).
  destruct Hcase as [[Hs Hn] | [Es Et]].
  - assert (cs <> ts) as Hne.
    { intros <-. apply Hs. destruct T as (? & ? & ? & ? & _ & _ & _ & _ & _ & _ & _ & Hlc & Hlt).
      rewrite (chain_fun _ _ _ _ Hlt _ Hlc), El. apply in_elt. }
    apply Nat.eqb_neq in Hne. rewrite Hne in Hd. rewrite E1 in N1.
    destruct (ext_lists out inn both pre src anc ts lt N1 N2) as [X Y]; [now rewrite <- E1 | exact E2 | exact H2 | exact Hd | exact Hs | exact Hn|].
    rewrite E1, X, Y. exact Hmv.
  - rewrite Es in El. rewrite Et, Nat.eqb_refl in Hd. destruct Hd as [Eo Ei]. rewrite Eo in E1. rewrite Ei in E2. cbn in E1, E2.
    assert (pre = []) as ->.
    { destruct pre as [| y pre]; [reflexivity|]. rewrite E1 in El. cbn in El. injection El as -> E. rewrite E1 in N1. apply NoDup_cons_iff in N1 as [N1 _].
      exfalso. apply N1. rewrite E. apply in_elt. }
    rewrite El in E1. cbn in E1. injection E1 as ->. rewrite E2 in *. rewrite El in *.
    assert (ext_exits ([] ++ cs :: both) both (cs :: both) = [cs]) as ->.
    { unfold ext_exits, around. cbn [app filter tl]. apply NoDup_cons_iff in N2 as [N2 _].
      destruct (mem cs both) eqn:Em; [now apply mem_In in Em|]. cbn [andb negb]. f_equal. apply filter_no. intros x Hx.
      apply mem_In in Hx. now rewrite Hx. }
    assert (ext_entries both (cs :: both) = [cs]) as ->.
    { unfold ext_entries, around. cbn [filter tl]. apply NoDup_cons_iff in N2 as [N2 _].
      destruct (mem cs both) eqn:Em; [now apply mem_In in Em|]. cbn [andb negb]. rewrite filter_no; [reflexivity|]. intros x Hx.
      apply mem_In in Hx. now rewrite Hx. }
    rewrite Eo, Ei in Hmv. exact Hmv.
Qed.

Lemma stays s : In s lc -> In s lt -> s <> cs -> forall out inn both, lc = out ++ both -> lt = inn ++ both ->
  (if cs =? ts then out = [cs] /\ inn = [cs] else forall s, In s out -> ~ In s inn) -> NoDup lc -> NoDup lt ->
  In s both /\ ~ In s out /\ ~ In s inn.
Proof using.
  intros H1 H2 Hne out inn both E1 E2 Hd N1 N2.
  assert (In s both) as Hb.
  { rewrite E1 in H1. rewrite E2 in H2. apply in_app_or in H1 as [H1 | H1]; [| exact H1]. apply in_app_or in H2 as [H2 | H2]; [| exact H2].
    exfalso. destruct (cs =? ts); [| exact (Hd s H1 H2)]. destruct Hd as [-> _]. destruct H1 as [<- | []]. now apply Hne. }
  split; [exact Hb|]. rewrite E1 in N1. rewrite E2 in N2. split; intros K; [exact (nodup_app_notin _ _ _ N1 K Hb) | exact (nodup_app_notin _ _ _ N2 K Hb)].
Qed.

Lemma scope_common m : In m lc -> In m lt -> m <> cs -> (forall s, In s (before m lc) -> ~ In s lt) ->
  moved M d1 d' pe (before m lc) acts (rev (before m lt)).
Proof using W Hi Ha Hm Hc H T.
  intros M1 M2 Hne Hin. destruct scope as (out & inn & both & E1 & E2 & Hd & Hmv & N1 & N2 & H1 & H2).
  destruct (stays m M1 M2 Hne out inn both E1 E2 Hd N1 N2) as (Hb & Ho & Hn).
  apply in_split in Hb as (o & r & Eb).
  assert (~ In m o) as Hmo by (rewrite E1, Eb, app_assoc in N1; intros K; apply NoDup_remove_2 in N1; apply N1; rewrite <- app_assoc; apply in_or_app; right; apply in_or_app; now left).
  assert (before m lc = out ++ o) as B1.
  { rewrite E1, Eb, app_assoc. apply before_app. intros K. apply in_app_or in K as [K | K]; auto. }
  assert (o = []) as ->.
  { destruct o as [| y o]; [reflexivity|]. exfalso. apply (Hin y); [rewrite B1; apply in_elt|]. rewrite E2, Eb. apply in_or_app. right. now left. }
  rewrite app_nil_r in B1. rewrite B1, E2, Eb. cbn [app]. rewrite before_app by exact Hn. exact Hmv.
Qed.

Lemma scope_stays s : In s lc -> In s lt -> s <> cs -> exists out inn,
  moved M d1 d' pe out acts inn /\ (forall x, In x out -> In x lc) /\ (forall x, In x inn -> In x lt) /\ ~ In s out /\ ~ In s inn.
Proof using W Hi Ha Hm Hc H T.
  intros S1 S2 Hne. destruct scope as (out & inn & both & E1 & E2 & Hd & Hmv & N1 & N2 & _ & _).
  destruct (stays s S1 S2 Hne out inn both E1 E2 Hd N1 N2) as (_ & Ho & Hn). exists out, (rev inn).
  split; [exact Hmv|]. split; [intros x Hx; rewrite E1; apply in_or_app; now left|].
  split; [intros x Hx; apply in_rev in Hx; rewrite E2; apply in_or_app; now left|]. split; [exact Ho|]. intros K. apply in_rev in K. auto.
Qed.
End Scope.
