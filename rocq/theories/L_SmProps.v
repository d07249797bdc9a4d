(** Properties of events on well-formed machines. *)
From Verif Require Import Base L_Base M_Sm S_Sm S_SmWf S_SmRun L_Sm L_SmWalk L_SmStep L_SmDet L_SmWf L_SmKeep L_SmSafe.

(** * The log *)
Lemma exited_app a b : exited (a ++ b) = exited a ++ exited b.
Proof. apply flat_map_app. Qed.
Lemma entered_app a b : entered (a ++ b) = entered a ++ entered b.
Proof. apply flat_map_app. Qed.
Lemma states_app a b : states (a ++ b) = states a ++ states b.
Proof. apply flat_map_app. Qed.
Lemma exited_exits (f : nat -> option nat) l : exited (map (fun s => XExit s (f s)) l) = l.
Proof. induction l; cbn; [reflexivity|]. f_equal. assumption. Qed.
Lemma entered_entries (f : nat -> option nat) l : entered (map (fun s => XEntry s (f s)) l) = l.
Proof. induction l; cbn; [reflexivity|]. f_equal. assumption. Qed.
Definition quiet (x : list xev) : Prop := exited x = [] /\ entered x = [] /\ states x = [].
Lemma quiet_nil : quiet [].
Proof. repeat split. Qed.
Lemma quiet_app a b : quiet a -> quiet b -> quiet (a ++ b).
Proof. intros (A1 & A2 & A3) (B1 & B2 & B3). unfold quiet. rewrite exited_app, entered_app, states_app, A1, A2, A3, B1, B2, B3. auto. Qed.
Lemma quiet_guards x : only_guards x -> quiet x.
Proof. induction 1 as [| e x He H (A1 & A2 & A3)]; [repeat split|]. destruct e; try destruct He. repeat split; assumption. Qed.
Lemma quiet_effects pe l : quiet (map (fun a => XEff a pe) l).
Proof. induction l as [| a l (A1 & A2 & A3)]; repeat split; assumption. Qed.
Lemma quiet_trn s t : quiet [XTrn s t].
Proof. repeat split. Qed.
Lemma entries_states (f : nat -> option nat) l : states (map (fun s => XEntry s (f s)) l) = [] /\ exited (map (fun s => XEntry s (f s)) l) = [].
Proof. induction l as [| s l [A B]]; cbn; auto. Qed.
Lemma exits_states (f : nat -> option nat) l : states (map (fun s => XExit s (f s)) l) = [] /\ entered (map (fun s => XExit s (f s)) l) = [].
Proof. induction l as [| s l [A B]]; cbn; auto. Qed.
Lemma last_such_app f a b : last_such f (a ++ b) = match last_such f b with Some t => Some t | None => last_such f a end.
Proof. induction a as [| s a IH]; cbn; [destruct (last_such f b); reflexivity|]. rewrite IH. destruct (last_such f b); reflexivity. Qed.

Section Pure.
Context (c : smcfg) (M : machine) (grd : nat -> evt -> list xev -> bool).
Lemma denied_log pe d l d' : denied grd pe d l d' -> exists x, d' = say d x /\ only_guards x.
Proof.
  induction 1 as [| d t g r d' Hg Hf H (x & -> & Hx)]; [exists []; split; [symmetry; apply say_nil | constructor]|].
  rewrite say_say. eexists. split; [reflexivity|]. constructor; auto.
Qed.
Lemma enabled_log pe d t d' : enabled grd pe d t d' -> exists x, d' = say d x /\ only_guards x.
Proof.
  unfold enabled. destruct (t_grd t); [intros [_ ->]; eexists; split; [reflexivity | repeat constructor]|].
  intros ->. exists []. split; [symmetry; apply say_nil | constructor].
Qed.
Lemma first_log pe d l t d' : first_of grd pe d l t d' -> exists x, d' = say d x /\ only_guards x.
Proof.
  intros (pre & post & dm & _ & D & E). destruct (denied_log _ _ _ _ D) as (x & -> & Hx). destruct (enabled_log _ _ _ _ E) as (y & -> & Hy).
  rewrite say_say. eexists. split; [reflexivity | apply Forall_app; auto].
Qed.
Lemma selected_log pe d l s t d' : selected M grd pe d l s t d' -> exists x, d' = say d x /\ only_guards x.
Proof.
  intros (inn & out & dm & _ & D & F). destruct (denied_log _ _ _ _ D) as (x & -> & Hx). destruct (first_log _ _ _ _ _ F) as (y & -> & Hy).
  rewrite say_say. eexists. split; [reflexivity | apply Forall_app; auto].
Qed.
Lemma seg_log pe p q : seg c M grd pe p q -> exists x, d_log (p_d q) = d_log (p_d p) ++ x /\ quiet x /\ d_hist (p_d q) = d_hist (p_d p).
Proof.
  assert (forall d, exists x, d_log d = d_log d ++ x /\ quiet x /\ d_hist d = d_hist d) as N.
  { intros d. exists []. rewrite app_nil_r. repeat split. }
  inversion 1; subst; cbn [p_d]; try (exact (N _));
    try match goal with F : first_of _ _ _ _ _ _ |- _ => destruct (first_log _ _ _ _ _ F) as (x & -> & Hx) end;
    try match goal with F : enabled _ _ _ _ _ |- _ => destruct (enabled_log _ _ _ _ F) as (x & -> & Hx) end;
    unfold effects; cbn; rewrite <- ?app_assoc; eexists; (split; [reflexivity|]); auto using quiet_guards, quiet_app, quiet_effects.
Qed.
Lemma segs_log pe p q : segs c M grd pe p q -> exists x, d_log (p_d q) = d_log (p_d p) ++ x /\ quiet x /\ d_hist (p_d q) = d_hist (p_d p).
Proof.
  induction 1 as [p | p q r H1 H2 IH]; [exists []; rewrite app_nil_r; repeat split|].
  destruct (seg_log _ _ _ H1) as (x & E1 & Q1 & G1), IH as (y & E2 & Q2 & G2). exists (x ++ y). rewrite E2, E1, app_assoc.
  split; [reflexivity|]. split; [apply quiet_app; assumption | congruence].
Qed.
Lemma fails_log pe p e d1 : fails c M grd pe p e d1 -> exists x, d_log d1 = d_log (p_d p) ++ x /\ quiet x /\ d_hist d1 = d_hist (p_d p).
Proof.
  assert (forall d d', d_log d' = d_log d -> d_hist d' = d_hist d -> exists x, d_log d' = d_log d ++ x /\ quiet x /\ d_hist d' = d_hist d) as N.
  { intros d d' E1 E2. exists []. rewrite app_nil_r. repeat split; assumption. }
  inversion 1 as [d v l b tbl d2 Hv D | d v l b tbl d2 Hv D | d v l b deep q dft g t Hv Eh Et Eg Ef | d v l b p' Hv Hc | d v l b d2 Hc F]; subst; cbn [p_d]; try (apply N; reflexivity).
  - destruct (denied_log _ _ _ _ D) as (x & -> & Hx). cbn. eexists. split; [reflexivity|]. auto using quiet_guards.
  - destruct (denied_log _ _ _ _ D) as (x & -> & Hx). cbn. rewrite <- app_assoc. eexists. split; [reflexivity|]. auto using quiet_guards, quiet_app, quiet_effects.
  - cbn. eexists. split; [reflexivity|]. repeat split.
  - inversion F as [d0 v0 l0 tbl t d3 Hv F1 Hroom | d0 v0 l0 tbl t d3 Hv F1 Hroom | d0 v0 l0 deep q dft d3 t Hv Eh Et En Hroom | | |]; subst;
      try (apply N; reflexivity).
    + destruct (first_log _ _ _ _ _ F1) as (x & -> & Hx). cbn. eexists. split; [reflexivity|]. auto using quiet_guards.
    + destruct (first_log _ _ _ _ _ F1) as (x & -> & Hx). cbn. rewrite <- app_assoc. eexists. split; [reflexivity|]. auto using quiet_guards, quiet_app, quiet_effects.
    + destruct (enabled_log _ _ _ _ En) as (x & -> & Hx). cbn. eexists. split; [reflexivity|]. auto using quiet_guards.
Qed.
(** Chains that meet go on together. *)
Lemma chains_meet2 dy l1 : forall s1 s2 l2, chain M dy s1 l1 -> chain M dy s2 l2 ->
  exists a b z, l1 = a ++ z /\ l2 = b ++ z /\ forall x, In x a -> ~ In x l2.
Proof.
  induction l1 as [| x l1 IH]; intros s1 s2 l2 H1 H2.
  - exists [], l2, []. split; [reflexivity|]. split; [symmetry; apply app_nil_r | intros x []].
  - inversion H1 as [| s p l Hp H1']; subst. destruct (in_dec Nat.eq_dec x l2) as [Hi | Hi].
    + destruct (chain_In _ _ _ _ _ H2 Hi) as (b & z & E & Hz). exists [], b, (x :: l1). split; [reflexivity|]. split; [| cbn; tauto].
      rewrite E. f_equal. exact (chain_fun _ _ _ _ Hz _ H1).
    + destruct (IH _ _ _ H1' H2) as (a & b & z & -> & -> & H). exists (x :: a), b, z. split; [reflexivity|]. split; [reflexivity|].
      intros y [<- | Hy]; auto.
Qed.
Lemma exits_enters dy cs ts lc lt : chain M dy (Some cs) lc -> chain M dy (Some ts) lt -> (In cs lt -> cs = ts) ->
  exists a b z, lc = a ++ z /\ lt = b ++ z /\ exits lc lt = a /\ enters lc lt = rev b /\
    if (cs =? ts)%nat then a = [cs] /\ b = [cs] else forall x, In x a -> ~ In x b.
Proof.
  intros Hc Ht Hin. pose proof (chain_nodup _ _ _ _ Hc) as Nc. pose proof (chain_nodup _ _ _ _ Ht) as Nt.
  destruct (Nat.eqb_spec cs ts) as [E | Hne].
  - subst ts. pose proof (chain_fun _ _ _ _ Hc _ Ht) as E. subst lt. inversion Hc as [| s p l Hp Hl]; subst. inversion Nc as [| ? ? N1 N2]; subst.
    exists [cs], [cs], l. split; [reflexivity|]. split; [reflexivity|]. cbn [exits enters tl].
    split; [f_equal; apply filter_none; intros x Hx; apply negb_false_iff, mem_In; right; exact Hx|]. split; [| auto].
    unfold enters. cbn [tl]. cbn [filter].
    assert (mem cs l = false) as -> by (apply mem_nIn, N1). cbn [negb]. rewrite (filter_none _ l); [reflexivity|]. intros x Hx. apply negb_false_iff, mem_In, Hx.
  - assert (~ In cs lt) as Hni by (intros K; apply Hne, Hin, K).
    destruct (chains_meet2 _ _ _ _ _ Hc Ht) as (a & b & z & E1 & E2 & Hd).
    inversion Hc as [| s p l Hp Hl]; subst s. assert (exists a', a = cs :: a') as [a' Ea].
    { destruct a as [| y a']; [exfalso; apply Hni; cbn in E1; subst; apply in_app_iff; right; left; reflexivity|].
      rewrite <- H0 in E1. cbn in E1. injection E1 as -> _. eauto. }
    subst lt lc a. cbn in H0. injection H0 as El. subst l.
    exists (cs :: a'), b, z. split; [reflexivity|]. split; [reflexivity|].
    assert (forall x, In x b -> ~ In x (a' ++ z)) as Hb.
    { intros x Hx K. apply in_app_iff in K as [K | K].
      - apply (Hd x); [right; exact K | apply in_app_iff; auto].
      - exact (nodup_app_notin _ _ _ Nt Hx K). }
    split; [| split].
    + cbn. f_equal. rewrite filter_app, (filter_none _ z), app_nil_r.
      * apply filter_all. intros x Hx. apply negb_true_iff, mem_nIn. apply Hd. right. exact Hx.
      * intros x Hx. apply negb_false_iff, mem_In, in_app_iff. auto.
    + unfold enters. cbn [tl app]. f_equal. rewrite filter_app, (filter_none _ z), app_nil_r.
      * apply filter_all. intros x Hx. apply negb_true_iff, mem_nIn, Hb, Hx.
      * intros x Hx. apply negb_false_iff, mem_In, in_app_iff. auto.
    + intros x Hx K. apply (Hd x Hx). apply in_app_iff. auto.
Qed.
End Pure.

Section Props.
Context (c : smcfg) (M : machine) (rank : nat -> nat) (home : nat -> option nat).
Context (W : wf_machine c M rank home = true).
Notation ram_ok := (ram_ok c M home).
Notation machine_ok := (machine_ok c M home).
Notation good := (good c M home).
Notation chain := (chain M).
Notation T := (wf_tidy c M rank home W).

Lemma below_rank q s l : below M (Some q) s l -> (forall x, In x l -> (rank q < rank x)%nat) /\ match s with Some v => (rank q <= rank v)%nat | None => True end.
Proof.
  induction 1 as [| s p l Hne Hp H [IH1 IH2]]; [split; [intros x []| lia]|]. destruct p as [p|].
  - destruct (wf_parent_some _ _ _ _ W _ _ Hp) as [Hr _]. split; [intros x [<- | Hx]; [lia | auto] | lia].
  - inversion H.
Qed.
Lemma below_app q t s l1 l2 : below M (Some t) s l2 -> below M (Some q) (Some t) l1 -> below M (Some q) s (l2 ++ l1).
Proof.
  intros H2 H1. destruct (below_rank _ _ _ H1) as [_ R1]. induction H2 as [| s p l Hne Hp H IH]; [exact H1|].
  cbn. econstructor; [| exact Hp | exact IH]. intros [= ->].
  destruct (below_rank t (Some q) (q :: l)) as [K _]; [econstructor; eauto|]. specialize (K q (or_introl eq_refl)). lia.
Qed.
Lemma below_chain dy q s l lq : is_rsm M q = false -> below M (Some q) (Some s) l -> chain dy (Some q) lq -> chain dy (Some s) (l ++ lq).
Proof.
  intros Hq H. remember (Some s) as o eqn:Eo. revert s Eo. induction H as [| s' p l Hne Hp H IH]; intros s Eo Hl; [injection Eo as <-; exact Hl|].
  injection Eo as ->. cbn. econstructor; [exact Hp|]. destruct p as [p|]; [| inversion H].
  cbn. destruct (is_rsm M p) eqn:Er; [| eauto]. exfalso. inversion H as [| s2 p2 l2 Hne2 Hp2 H2]; subst; [congruence|].
  unfold parent_of in Hp2. unfold is_rsm in Er. destruct (nth_error M p) as [[]|]; congruence.
Qed.

Lemma user_single (S1 : single_use M = true) m en ex p tbl e r : nth_error M m = Some (VSubm en ex p tbl e r) -> user_of M r = Some m.
Proof using W.
  intros Hm. unfold single_use in S1. rewrite forallb_forall in S1. specialize (S1 m). rewrite Hm in S1.
  assert (In m (seq 0 (length M))) as Hi by (apply in_seq; pose proof (nth_some_lt _ _ _ Hm); lia).
  specialize (S1 Hi). destruct (user_of M r) as [m'|]; [| discriminate]. apply Nat.eqb_eq in S1. congruence.
Qed.
Lemma container_outer (S1 : single_use M = true) d s p : ram_ok d -> bound (d_dyp d) (home s) -> parent_of M s = Some p -> container M s = outer M (d_dyp d) p.
Proof using W.
  intros Hr Hb Hp. unfold container, outer. rewrite Hp. destruct p as [p|]; [| reflexivity]. destruct (is_rsm M p) eqn:Er; [| reflexivity].
  destruct (wf_parent_some _ _ _ _ W _ _ Hp) as [_ [(_ & K & _) | (_ & Hh)]]; [congruence|]. rewrite Hh in Hb. cbn in Hb.
  destruct (d_dyp d p) as [m|] eqn:Em; [| congruence]. destruct (ro_dyp _ _ _ _ Hr _ _ Em) as [(en & ex & p' & tbl & e & Hm) _].
  eapply user_single; eauto.
Qed.
Lemma outer_bound d s p x : ram_ok d -> bound (d_dyp d) (home s) -> parent_of M s = Some p -> outer M (d_dyp d) p = Some x -> bound (d_dyp d) (home x).
Proof using W.
  intros Hr Hb Hp Ex. destruct p as [p|]; cbn in Ex; [| discriminate].
  destruct (wf_parent_some _ _ _ _ W _ _ Hp) as [_ [(Hc & Er & Hh) | (Er & Hh)]]; rewrite Er in Ex.
  - injection Ex as <-. rewrite <- Hh. exact Hb.
  - destruct (ro_dyp _ _ _ _ Hr _ _ Ex) as [_ K]. exact K.
Qed.
Lemma nested_chain (S1 : single_use M = true) d q : ram_ok d -> forall o l, chain (d_dyp d) o l -> forall s n, o = Some s ->
  bound (d_dyp d) (home s) -> (rank s <= n)%nat -> nested M n q s = existsb (fun v => v =? q)%nat l.
Proof using W.
  intros Hr. induction 1 as [| s p l Hp H IH]; intros s' n E Hb Hn; [discriminate|]. injection E as <-. cbn [existsb].
  pose proof (container_outer S1 _ _ _ Hr Hb Hp) as Ec. destruct n as [| n]; cbn [nested]; f_equal.
  - destruct p as [p|]; [destruct (wf_parent_some _ _ _ _ W _ _ Hp); lia|]. cbn in H. inversion H. reflexivity.
  - rewrite Ec. destruct (outer M (d_dyp d) p) as [m|] eqn:Eo; [| inversion H; reflexivity].
    apply IH; [reflexivity | exact (outer_bound _ _ _ _ Hr Hb Hp Eo) |].
    destruct p as [p|]; [| discriminate]. destruct (wf_parent_some _ _ _ _ W _ _ Hp) as [Hrk _]. cbn in Eo. destruct (is_rsm M p).
    + destruct (ro_dyp _ _ _ _ Hr _ _ Eo) as [(en & ex & p' & tbl & e & Hm) _]. pose proof (ty_sub _ _ T _ _ _ _ _ _ _ Hm). lia.
    + injection Eo as ->. lia.
Qed.
Lemma nested_plain q : is_comp M q = true -> plain c M q = true -> forall n v, nested M n q v = within M n q v.
Proof using W.
  intros Hq Hpl. induction n as [| n IH]; intros v; [reflexivity|]. cbn. f_equal. unfold container.
  destruct (parent_of M v) as [[p|]|]; [| reflexivity ..]. destruct (is_rsm M p) eqn:Er; [| apply IH].
  assert (within M n q p = false) as ->.
  { assert ((p =? q)%nat = false) as E by (apply Nat.eqb_neq; intros ->; unfold is_comp, is_rsm in *; destruct (nth_error M q) as [[]|]; congruence).
    assert (parent_of M p = None) as E2 by (unfold parent_of, is_rsm in *; destruct (nth_error M p) as [[]|]; congruence).
    destruct n; cbn; rewrite E, ?E2; reflexivity. }
  destruct (user_of M p) as [m|] eqn:Eu; [| reflexivity]. rewrite IH. destruct (within M n q m) eqn:Ew; [| reflexivity]. exfalso.
  apply find_some in Eu as [_ Eu]. destruct (nth_error M m) as [[]|] eqn:Em; try discriminate.
  eapply (plain_no_subm c M rank home W); [exact Hpl | exact Em | eapply within_inside; exact Ew].
Qed.

Context (grd : nat -> evt -> list xev -> bool).
Lemma seg_region_dyp pe q p p' : seg c M grd pe p p' -> within_region c M home q p -> d_dyp (p_d p') = d_dyp (p_d p).
Proof.
  intros H (_ & _ & Hm).
  inversion H as [d v l b tbl t d1 v1 Hv F Hroom Et | d v l b tbl t d1 v1 Hv F Hroom Et
    | d v l b deep qq dft s Hv Eh | d v l b deep qq dft d1 v1 Hv Eh Et Hen Hroom | d v l b deep qq dft Hv Eh Et
    | d v l b en ex pp tbl e r v1 ia Hv Hv2 Hroom | d v l b a m v1 en ex pp tbl e r Hv Hm' Hroom
    | d v l b ix r m a v1 en ex pp tbl e r' Hv Em Hm' He Hroom]; subst; cbn [p_d p_v p_base] in *;
    try (destruct (first_ram _ _ _ _ _ _ F) as [x ->]); try (destruct (enabled_ram _ _ _ _ _ Hen) as [x ->]); try reflexivity.
  all: destruct Hm as [(n & Hm) | [Hm _]]; [| unfold is_target in Hm; rewrite Hv in Hm; discriminate].
  all: destruct n as [| n]; [discriminate|]; cbn [ok_default] in Hm; rewrite Hv in Hm; discriminate.
Qed.
Lemma segs_region pe q p p' : segs c M grd pe p p' -> good p -> within_region c M home q p ->
  within_region c M home q p' /\ d_dyp (p_d p') = d_dyp (p_d p).
Proof.
  induction 1 as [p | p p1 p2 H1 H2 IH]; [auto|]. intros G R. pose proof (seg_region c M rank home W grd _ _ _ _ H1 G R) as R1.
  destruct IH as [R2 E2]; [eapply (seg_good c M rank home W); eauto | exact R1 |]. split; [exact R2|].
  rewrite E2. eapply seg_region_dyp; eauto.
Qed.

(** Default entry of a state: the states down to a leaf are entered, outermost
    first. *)
Lemma default_path pe d q o : default c M grd pe d q o -> ram_ok d -> is_target M q = true -> bound (d_dyp d) (home q) ->
  match o with
  | Arrived d' s => exists x es, d_log d' = d_log d ++ x /\ exited x = [] /\ states x = [] /\ entered x = rev es /\
      below M (Some q) (Some s) es /\ d_dyp d' = d_dyp d /\ d_hist d' = d_hist d
  | Failed d' _ => exists x, d_log d' = d_log d ++ x /\ exited x = [] /\ states x = [] /\ d_hist d' = d_hist d
  end.
Proof.
  induction 1 as [d s Hs | d q en ex p tbl v ia h d1 t l b es o Hq Hroom Hsegs Ht Hb Hd IH
    | d q en ex p tbl v ia h p1 r d1 Hq Hroom Hsegs Hf | d q en ex p tbl dc ia h Hq Hroom Hc]; intros Hr Hqt Hbd.
  - exists [], []. rewrite app_nil_r. repeat split. constructor.
  - destruct (comp_default _ _ grd _ _ W _ _ _ _ _ _ _ _ Hq) as (K1 & K2 & K3).
    assert (good (mkP d v (act1 ia) q)) as G by (split; [exact Hr|]; split; [exact K1 | cbn; rewrite K2; exact Hbd]).
    assert (within_region c M home q (mkP d v (act1 ia) q)) as R.
    { split; [reflexivity|]. split; [unfold is_comp; rewrite Hq; reflexivity|]. left. eauto. }
    destruct (segs_region _ _ _ _ Hsegs G R) as [(Eb & _ & _) Ey]. cbn in Eb, Ey. subst b.
    destruct (segs_good _ _ _ _ W _ _ _ _ Hsegs G) as (G1 & G2 & G3). cbn in G1, G3.
    destruct (segs_log _ _ _ _ _ _ Hsegs) as (x1 & E1 & (Q1 & Q2 & Q3) & H1). cbn in E1, H1.
    specialize (IH ltac:(apply ram_say, ram_say, G1) Ht G3).
    destruct (entries_states (entry_of M) (rev es)) as [S1 S2]. pose proof (quiet_effects pe l) as (Q4 & Q5 & Q6).
    destruct o as [d' s | d' e].
    + destruct IH as (x2 & es2 & L2 & X2 & S3 & N2 & B2 & Y2 & H2).
      exists (x1 ++ map (fun a => XEff a pe) l ++ map (fun s => XEntry s (entry_of M s)) (rev es) ++ x2), (es2 ++ es).
      cbn in L2, Y2, H2. split; [rewrite L2, E1, <- !app_assoc; reflexivity|].
      rewrite !exited_app, !states_app, !entered_app, Q1, Q2, Q3, Q4, Q5, Q6, X2, S1, S2, S3, N2, entered_entries, rev_app_distr.
      repeat split; try congruence. eapply below_app; eauto.
    + destruct IH as (x2 & L2 & X2 & S3 & H2).
      exists (x1 ++ map (fun a => XEff a pe) l ++ map (fun s => XEntry s (entry_of M s)) (rev es) ++ x2).
      cbn in L2, H2. split; [rewrite L2, E1, <- !app_assoc; reflexivity|].
      rewrite !exited_app, !states_app, Q1, Q3, Q4, Q6, X2, S1, S2, S3. repeat split; congruence.
  - destruct (segs_log _ _ _ _ _ _ Hsegs) as (x1 & E1 & (Q1 & Q2 & Q3) & H1). cbn in E1, H1.
    destruct (fails_log _ _ _ _ _ _ _ Hf) as (x2 & E2 & (Q4 & Q5 & Q6) & H2).
    exists (x1 ++ x2). rewrite E2, E1, exited_app, states_app, Q1, Q3, Q4, Q6, <- app_assoc. repeat split; congruence.
  - exists []. rewrite app_nil_r. auto.
Qed.

(** * Histories *)
Lemma shallow_child h q dft s : nth_error M h = Some (VHist false (Some q) dft) ->
  (shallow_of M s = Some h <-> child_of M q s = true).
Proof.
  intros Hh. pose proof (wf_at _ _ _ _ W _ _ Hh) as Wh. cbn in Wh. apply andb_true_iff in Wh as [Wh _].
  unfold shallow_of, child_of. destruct (parent_of M s) as [[p|]|]; try (split; discriminate).
  destruct (nth_error M q) as [y|] eqn:Hq; [| discriminate]. destruct y; try discriminate. destruct hist as [h'|]; [| discriminate].
  apply andb_true_iff in Wh as [Wh _]. apply Nat.eqb_eq in Wh as ->. destruct (Nat.eqb_spec p q) as [-> | Hne].
  - rewrite Hq, Hh. split; auto.
  - split; [| discriminate]. destruct (nth_error M p) as [y|] eqn:Hp; [| discriminate]. destruct y; try discriminate. destruct hist as [h'|]; [| discriminate].
    destruct (nth_error M h') as [z|] eqn:Hz; [| discriminate]. destruct z; try discriminate. destruct deep; [discriminate|].
    intros [= ->]. pose proof (hist_owner _ _ _ _ W _ _ _ _ _ _ _ _ _ _ _ Hp Hh) as [= ->]. congruence.
Qed.
Lemma leave_shallow h q dft l : nth_error M h = Some (VHist false (Some q) dft) -> forall d,
  d_hist (leave M l d) h = match last_such (child_of M q) l with Some s => Some s | None => d_hist d h end.
Proof.
  intros Hh. induction l as [| s l IH]; intros d; [reflexivity|]. cbn [leave fold_left last_such].
  change (fold_left (leave1 M) l (leave1 M d s)) with (leave M l (leave1 M d s)). rewrite IH.
  destruct (last_such (child_of M q) l); [reflexivity|]. pose proof (shallow_child _ _ _ s Hh) as K.
  unfold leave1. destruct (shallow_of M s) as [h'|] eqn:Es.
  - cbn. unfold fupd. destruct (Nat.eqb_spec h h') as [<- | Hne].
    + destruct K as [K _]. rewrite (K eq_refl). reflexivity.
    + destruct (child_of M q s); [destruct K as [_ K]; specialize (K eq_refl); congruence | reflexivity].
  - destruct (child_of M q s); [destruct K as [_ K]; specialize (K eq_refl); congruence | reflexivity].
Qed.
Lemma leave_deep h p dft l : nth_error M h = Some (VHist true p dft) -> forall d, d_hist (leave M l d) h = d_hist d h.
Proof.
  intros Hh. induction l as [| s l IH]; intros d; [reflexivity|]. cbn [leave fold_left].
  change (fold_left (leave1 M) l (leave1 M d s)) with (leave M l (leave1 M d s)). rewrite IH.
  unfold leave1. destruct (shallow_of M s) as [h'|] eqn:Es; [| reflexivity]. cbn. unfold fupd. destruct (Nat.eqb_spec h h') as [<- | Hne]; [| reflexivity].
  unfold shallow_of in Es. destruct (parent_of M s) as [[q|]|]; try discriminate. destruct (nth_error M q) as [[]|]; try discriminate.
  destruct hist as [h'|]; [| discriminate]. destruct (nth_error M h') as [[]|] eqn:Hh'; try discriminate. destruct deep; [discriminate|].
  injection Es as ->. congruence.
Qed.

Lemma has_deep_iff h q dft q' : nth_error M h = Some (VHist true (Some q) dft) -> has_deep M h q' = (q' =? q)%nat.
Proof.
  intros Hh. pose proof (wf_at _ _ _ _ W _ _ Hh) as Wh. cbn in Wh. apply andb_true_iff in Wh as [Wh _]. unfold has_deep.
  destruct (nth_error M q) as [y|] eqn:Hq; [| discriminate]. destruct y; try discriminate. destruct hist as [h'|]; [| discriminate].
  apply andb_true_iff in Wh as [Wh _]. apply Nat.eqb_eq in Wh as ->. destruct (Nat.eqb_spec q' q) as [-> | Hne].
  - rewrite Hq, Nat.eqb_refl, Hh. reflexivity.
  - destruct (nth_error M q') as [y|] eqn:Hq'; [| reflexivity]. destruct y; try reflexivity. destruct hist as [h'|]; [| reflexivity].
    destruct (Nat.eqb_spec h h') as [<- |]; [| reflexivity]. pose proof (hist_owner _ _ _ _ W _ _ _ _ _ _ _ _ _ _ _ Hq' Hh) as [= ->]. congruence.
Qed.
Lemma has_deep_shallow h q dft q' : nth_error M h = Some (VHist false (Some q) dft) -> has_deep M h q' = false.
Proof.
  intros Hh. unfold has_deep. destruct (nth_error M q') as [[]|]; try reflexivity. destruct hist; [| reflexivity].
  rewrite Hh, andb_false_r. reflexivity.
Qed.
Lemma inside_chain dy q s : is_comp M q = true -> inside M q s -> forall l, chain dy (Some s) l -> In q l.
Proof.
  intros Hq. induction 1 as [| v p Hp H IH]; intros l Hl; inversion Hl as [| s' p' l' Hp' Hl']; subst; [left; reflexivity|].
  assert (p' = Some p) by congruence. subst p'. right. apply IH. cbn in Hl'. destruct (is_rsm M p) eqn:Er; [| exact Hl'].
  exfalso. inversion H as [| v2 p2 Hp2 H2]; subst.
  - unfold is_comp, is_rsm in *. destruct (nth_error M p) as [[]|]; congruence.
  - unfold parent_of in Hp2. unfold is_rsm in Er. destruct (nth_error M p) as [[]|]; congruence.
Qed.
Lemma rested_deep h q dft d s d' : nth_error M h = Some (VHist true (Some q) dft) -> clear_region c M q = true ->
  ram_ok d -> bound (d_dyp d) (home s) -> is_leaf M s = true -> rested M d s d' ->
  d_hist d' h = if nested M (sm_depth c) q s then Some s else d_hist d h.
Proof.
  intros Hh Hpl Hr Hbd Hs (anc & Hc & _ & _ & _ & E). rewrite E. clear E.
  destruct (ty_hist _ _ T _ _ _ _ Hh) as (q' & [= <-] & Hq).
  assert (existsb (has_deep M h) anc = nested M (sm_depth c) q s) as ->; [| reflexivity].
  assert (rank s < sm_depth c)%nat as Hrk.
  { pose proof (leaf_parent _ _ Hs) as Hp. destruct (parent_of M s) as [p|] eqn:E; [| congruence]. apply (wf_parent _ _ _ _ W _ _ E). }
  apply orb_true_iff in Hpl as [Hpl | S1].
  { rewrite (nested_plain _ Hq Hpl). destruct (within M (sm_depth c) q s) eqn:Ew.
    - apply within_inside in Ew. pose proof (inside_chain _ _ _ Hq Ew _ Hc) as Hi. destruct Hi as [-> | Hi].
      { apply leaf_comp in Hs. congruence. }
      apply existsb_exists. exists q. split; [exact Hi|]. rewrite (has_deep_iff _ _ _ _ Hh). apply Nat.eqb_refl.
    - destruct (existsb (has_deep M h) anc) eqn:Ee; [| reflexivity]. apply existsb_exists in Ee as (q' & Hi & Ee).
      rewrite (has_deep_iff _ _ _ _ Hh) in Ee. apply Nat.eqb_eq in Ee as ->.
      pose proof (chain_inside c M rank home W (d_dyp d) q Hq (tr_dyp _ _ (ram_tidy c M home _ Hr)) Hpl _ _ Hc (or_intror Hi) _ eq_refl) as K.
      rewrite (inside_within _ _ _ _ W _ _ K) in Ew; [discriminate | lia]. }
  rewrite (nested_chain S1 d q Hr _ _ Hc _ (sm_depth c) eq_refl Hbd) by lia. cbn [existsb].
  assert ((s =? q)%nat = false) as -> by (apply Nat.eqb_neq; intros ->; apply leaf_comp in Hs; congruence). cbn [orb].
  clear Hc. induction anc as [| v anc IH]; [reflexivity|]. cbn [existsb]. rewrite IH, (has_deep_iff _ _ _ _ Hh). reflexivity.
Qed.
Lemma rested_shallow h q dft d s d' : nth_error M h = Some (VHist false (Some q) dft) -> rested M d s d' -> d_hist d' h = d_hist d h.
Proof.
  intros Hh (anc & Hc & _ & _ & _ & E). rewrite E. destruct (existsb (has_deep M h) anc) eqn:Ee; [| reflexivity].
  apply existsb_exists in Ee as (q' & _ & Ee). rewrite (has_deep_shallow _ _ _ _ Hh) in Ee. discriminate.
Qed.

(** What the cells hold after an event, from what it did. *)
Definition remembers (d d' : dyn) : Prop :=
  exists x, d_log d' = d_log d ++ x /\
  forall h deep q dft, nth_error M h = Some (VHist deep (Some q) dft) -> (deep = true -> clear_region c M q = true) ->
    d_hist d' h = match (if deep then last_in c M q x else last_exit M q x) with Some s => Some s | None => d_hist d h end.
Lemma remembers_trans d1 d2 d3 : remembers d1 d2 -> remembers d2 d3 -> remembers d1 d3.
Proof.
  intros (x & E1 & H1) (y & E2 & H2). exists (x ++ y). split; [rewrite E2, E1, app_assoc; reflexivity|].
  intros h deep q dft Hh Hp. rewrite (H2 _ _ _ _ Hh Hp), (H1 _ _ _ _ Hh Hp). unfold last_in, last_exit.
  rewrite states_app, exited_app, !last_such_app. destruct deep; destruct (last_such _ _); reflexivity.
Qed.
Lemma remembers_quiet d d' x : d_log d' = d_log d ++ x -> exited x = [] -> states x = [] -> d_hist d' = d_hist d -> remembers d d'.
Proof.
  intros E Q1 Q2 Eh. exists x. split; [exact E|]. intros h deep q dft _ _. unfold last_in, last_exit. rewrite Q1, Q2, Eh. destruct deep; reflexivity.
Qed.
Lemma remembers_leave d l : remembers d (leave M l d).
Proof.
  exists (map (fun s => XExit s (exit_of M s)) l). split; [apply leave_log|]. intros h deep q dft Hh Hp. unfold last_in, last_exit.
  destruct (exits_states (exit_of M) l) as [S1 _]. rewrite S1, exited_exits. destruct deep; [eapply leave_deep; eauto | eapply leave_shallow; eauto].
Qed.
Lemma remembers_say d x : exited x = [] -> states x = [] -> remembers d (say d x).
Proof. intros H1 H2. eapply remembers_quiet; [reflexivity | exact H1 | exact H2 | reflexivity]. Qed.
Lemma remembers_rested d s d' : ram_ok d -> bound (d_dyp d) (home s) -> is_leaf M s = true -> rested M d s d' -> remembers d d'.
Proof.
  intros Hr Hb Hs H. exists [XState s]. split; [destruct H as (anc & _ & _ & _ & E & _); exact E|].
  intros h deep q dft Hh Hp. destruct deep; cbn.
  - rewrite (rested_deep _ _ _ _ _ _ Hh (Hp eq_refl) Hr Hb Hs H). destruct (nested M (sm_depth c) q s); reflexivity.
  - eapply rested_shallow; eauto.
Qed.
Lemma remembers_default pe d q o : default c M grd pe d q o -> ram_ok d -> is_target M q = true -> bound (d_dyp d) (home q) ->
  remembers d (match o with Arrived d' _ | Failed d' _ => d' end).
Proof.
  intros H Hr Ht Hb. pose proof (default_path _ _ _ _ H Hr Ht Hb) as K. destruct o as [d' s | d' e].
  - destruct K as (x & es & E & X & S & _ & _ & _ & Eh). eapply remembers_quiet; eauto.
  - destruct K as (x & E & X & S & Eh). eapply remembers_quiet; eauto.
Qed.
Lemma remembers_segs pe p p' : segs c M grd pe p p' -> remembers (p_d p) (p_d p').
Proof. intros H. destruct (segs_log _ _ _ _ _ _ H) as (x & E & (Q1 & Q2 & Q3) & Eh). eapply remembers_quiet; eauto. Qed.
Lemma remembers_fails pe p e d1 : fails c M grd pe p e d1 -> remembers (p_d p) d1.
Proof. intros H. destruct (fails_log _ _ _ _ _ _ _ H) as (x & E & (Q1 & Q2 & Q3) & Eh). eapply remembers_quiet; eauto. Qed.
Lemma remembers_refl d : remembers d d.
Proof. eapply (remembers_quiet _ _ []); auto using app_nil_end. Qed.

Lemma remembers_fire pe d cs src v a o : fire c M grd pe d cs src v a o -> ram_ok d -> ok_kind M v = true -> bound (d_dyp d) (home v) ->
  bound (d_dyp d) (home cs) -> remembers d (match o with Arrived d' _ | Failed d' _ => d' end).
Proof.
  intros H Hr Hv Hbv Hbc.
  assert (good (mkP (say d [XTrn src (Some v)]) v (act1 a) src)) as G by (split; [apply ram_say, Hr | auto]).
  pose proof (remembers_say d [XTrn src (Some v)] eq_refl eq_refl) as R0.
  inversion H as [d1 ts l b lc lt o' Hsegs Hroom Ht Hlc Hlt Hin Hd | p1 r d1 Hsegs Hroom Hf | d1 ts l b lt Hsegs Hroom Ht Hc Hne Hlt Hlen | Hroom Hc]; subst.
  - destruct (segs_good _ _ _ _ W _ _ _ _ Hsegs G) as (G1 & G2 & G3). cbn in G1, G2, G3.
    pose proof (segs_bound _ _ _ _ _ _ (home cs) Hsegs Hbc) as Hbc1. cbn in Hbc1.
    eapply remembers_trans; [exact R0|]. eapply remembers_trans; [exact (remembers_segs _ _ _ Hsegs)|]. cbn [p_d].
    eapply remembers_trans; [apply (remembers_leave d1 (exits lc lt))|].
    eapply remembers_trans; [apply (remembers_say _ (map (fun a => XEff a pe) l)); apply quiet_effects|].
    eapply remembers_trans; [apply (remembers_say _ (map (fun s => XEntry s (entry_of M s)) (enters lc lt))); apply entries_states|].
    eapply remembers_default; [exact Hd | | exact Ht |].
    + apply ram_say, ram_say. apply (leave_ok c M rank home W); [exact G1|]. intros s Hs%exits_in. split; [exact (chain_parents M _ _ _ Hlc _ Hs)|].
      eapply (chain_bound c M rank home W); [exact G1 | exact Hlc | | exact Hs]. intros x [= <-]. exact Hbc1.
    + cbn. rewrite leave_dyp. exact G3.
  - eapply remembers_trans; [exact R0|]. eapply remembers_trans; [exact (remembers_segs _ _ _ Hsegs)|]. eapply remembers_fails; eauto.
  - eapply remembers_trans; [exact R0|]. exact (remembers_segs _ _ _ Hsegs).
  - exact R0.
Qed.
Lemma remembers_settle o r : settle c M o r ->
  match o with Arrived d s => ram_ok d /\ is_leaf M s = true /\ bound (d_dyp d) (home s) | Failed d _ => True end ->
  remembers (match o with Arrived d' _ | Failed d' _ => d' end) (match r with Rest d | Chained d | Error d _ => d end).
Proof.
  destruct o as [d s | d e]; cbn.
  - intros (d' & Hd & ->) (Hr & Hs & Hb). pose proof (remembers_rested _ _ _ Hr Hb Hs Hd). destruct (completes c M s); assumption.
  - intros -> _. apply remembers_refl.
Qed.
Lemma remembers_step pe d r : step c M grd pe d r -> machine_ok d -> remembers d (match r with Rest d | Chained d | Error d _ => d end).
Proof.
  intros H (Hr & s0 & Es & Hs & Hb).
  inversion H as [cs l d' Ecs Hl Hn | cs l src t d1 Ecs Hl Hsel Et Hroom | cs l src t d1 Ecs Hl Hsel Et Hroom Hc
    | cs l src t d1 v o r' Ecs Hl Hsel Et Hf Hset]; subst.
  - destruct (denied_log _ _ _ _ _ Hn) as (x & -> & (Q1 & Q2 & Q3)%quiet_guards). apply remembers_say; assumption.
  - destruct (selected_log _ _ _ _ _ _ _ _ Hsel) as (x & -> & (Q1 & Q2 & Q3)%quiet_guards). unfold effects. rewrite !say_say.
    apply remembers_say; rewrite ?exited_app, ?states_app, ?Q1, ?Q3; cbn; apply quiet_effects.
  - destruct (selected_log _ _ _ _ _ _ _ _ Hsel) as (x & -> & (Q1 & Q2 & Q3)%quiet_guards). rewrite !say_say.
    apply remembers_say; rewrite ?exited_app, ?states_app, ?Q1, ?Q3; reflexivity.
  - destruct (selected_wf _ _ _ _ _ W _ _ _ _ _ _ _ Hsel Et) as (Hin & Hk & Hh).
    destruct (selected_log _ _ _ _ _ _ _ _ Hsel) as (x & -> & (Q1 & Q2 & Q3)%quiet_guards).
    rewrite Es in Ecs. injection Ecs as <-.
    assert (bound (d_dyp d) (home v)) as Hbv.
    { rewrite Hh. eapply (chain_bound c M rank home W); [exact Hr | exact Hl | | exact Hin]. intros y [= <-]. exact Hb. }
    destruct (fire_wf _ _ _ _ _ W _ _ _ _ _ _ _ Hf) as [I1 _]; [apply ram_say, Hr | exact Hk | exact Hbv | exact Hb |].
    eapply remembers_trans; [apply (remembers_say d x Q1 Q3)|].
    eapply remembers_trans; [eapply remembers_fire; [exact Hf | apply ram_say, Hr | exact Hk | exact Hbv | exact Hb]|].
    apply remembers_settle; [exact Hset|]. destruct o; tauto.
Qed.
Lemma remembers_create pe d v a r : create c M grd pe d v a r -> ram_ok d -> ok_kind M v = true -> home v = None ->
  remembers d (match r with Rest d | Chained d | Error d _ => d end).
Proof.
  intros H Hr Hv Hh.
  assert (good (mkP (say d [XTrn v (Some v)]) v (act1 a) v)) as G.
  { split; [apply ram_say, Hr|]. split; [exact Hv|]. cbn. rewrite Hh. exact I. }
  pose proof (remembers_say d [XTrn v (Some v)] eq_refl eq_refl) as R0.
  inversion H as [d1 ts l b es o r' Hsegs Hroom Ht Hb Hd Hset | p1 r' d1 Hsegs Hroom Hf | Hroom Hc]; subst.
  - destruct (segs_good _ _ _ _ W _ _ _ _ Hsegs G) as (G1 & G2 & G3). cbn in G1, G2, G3.
    destruct (default_ok _ _ _ _ _ W _ _ _ _ Hd) as [I1 I2]; [apply ram_say, ram_say, G1 | exact Ht | exact G3 |].
    eapply remembers_trans; [exact R0|]. eapply remembers_trans; [exact (remembers_segs _ _ _ Hsegs)|]. cbn [p_d].
    eapply remembers_trans; [apply (remembers_say _ (map (fun a => XEff a pe) l)); apply quiet_effects|].
    eapply remembers_trans; [apply (remembers_say _ (map (fun s => XEntry s (entry_of M s)) (rev es))); apply entries_states|].
    eapply remembers_trans; [eapply remembers_default; [exact Hd | apply ram_say, ram_say, G1 | exact Ht | exact G3]|].
    apply remembers_settle; [exact Hset|]. destruct o; tauto.
  - eapply remembers_trans; [exact R0|]. eapply remembers_trans; [exact (remembers_segs _ _ _ Hsegs)|]. eapply remembers_fails; eauto.
  - exact R0.
Qed.
Lemma remembers_finish r d' e : finish c M grd r d' e -> match r with Rest d | Chained d => machine_ok d | Error d _ => True end ->
  remembers (match r with Rest d | Chained d | Error d _ => d end) d'.
Proof.
  induction 1 as [d | d r | d r d' e Hs Hf IH]; intros Hm; auto using remembers_refl.
  eapply remembers_trans; [apply (remembers_step _ _ _ Hs Hm)|]. apply IH. pose proof (step_wf _ _ _ _ _ W _ _ _ Hs Hm) as K. destruct r; auto.
Qed.
Lemma remembers_dispatch istate iact d pe d' e : wf_initial c M home istate = true ->
  (if (ev_sig pe =? sm_any c - 2)%N then ram_ok d else machine_ok d) -> uml_dispatch c M grd istate iact d pe d' e -> remembers d d'.
Proof.
  intros Hi Hd (r & H1 & H2). destruct (initial_kind _ _ _ _ Hi) as [Hk Hh]. destruct (ev_sig pe =? sm_any c - 2)%N.
  - eapply remembers_trans; [eapply remembers_create; eauto|]. eapply remembers_finish; [exact H2|].
    pose proof (create_wf _ _ _ _ _ W _ _ _ _ _ H1 Hd Hk Hh) as K. destruct r; auto.
  - eapply remembers_trans; [eapply remembers_step; eauto|]. eapply remembers_finish; [exact H2|].
    pose proof (step_wf _ _ _ _ _ W _ _ _ H1 Hd) as K. destruct r; auto.
Qed.
End Props.
