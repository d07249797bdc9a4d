(** Well-formed machines: what the check gives, and what events preserve. *)
From Verif Require Import Base L_Base M_Sm S_Sm S_SmWf L_Sm L_SmWalk L_SmStep.

Section Wf.
Context (c : smcfg) (M : machine) (rank : nat -> nat) (home : nat -> option nat).
Context (W : wf_machine c M rank home = true).
Notation wf_vertex := (wf_vertex c M rank home).
Notation inside := (inside M).
Notation ram_ok := (ram_ok c M home).

Lemma wf_at v x : nth_error M v = Some x -> wf_vertex v x = true.
Proof.
  intros H. unfold wf_machine in W. rewrite forallb_forall in W. specialize (W v). rewrite H in W. apply W.
  apply in_seq. split; [lia|]. cbn. eapply nth_some_lt; eauto.
Qed.
Lemma same_home_eq a b : same_home a b = true -> a = b.
Proof. destruct a, b; cbn; try discriminate; [intros ->%Nat.eqb_eq; reflexivity | reflexivity]. Qed.
Lemma kind_rsm t : ok_kind M t = true -> is_rsm M t = false.
Proof. unfold ok_kind, is_rsm. destruct (nth_error M t) as [[]|]; congruence. Qed.
Lemma target_ok h t : ok_target M home h t = true -> ok_kind M t = true /\ home t = h.
Proof. unfold ok_target. intros [H1 H2]%andb_true_iff. apply same_home_eq in H2. auto. Qed.
Lemma table_ok h tbl t w : ok_table M home h tbl = true -> In t tbl -> t_tgt t = Some w -> ok_kind M w = true /\ home w = h.
Proof. unfold ok_table. rewrite forallb_forall. intros H Hi E. specialize (H _ Hi). rewrite E in H. apply target_ok, H. Qed.
Lemma branches_ok h tbl t : ok_branches M home h tbl = true -> In t tbl -> exists w, t_tgt t = Some w /\ ok_kind M w = true /\ home w = h.
Proof.
  unfold ok_branches. rewrite forallb_forall. intros H Hi. specialize (H _ Hi). destruct (t_tgt t) as [w|]; [| discriminate].
  exists w. split; [reflexivity|]. apply target_ok, H.
Qed.
Lemma default_rsm n b v : ok_default c M home n b v = true -> is_rsm M v = false.
Proof. destruct n; [discriminate|]. cbn. unfold is_rsm. destruct (nth_error M v) as [[]|]; congruence. Qed.

Lemma wf_parent s p : parent_of M s = Some p -> ok_parent M rank home s p = true /\ (rank s < sm_depth c)%nat.
Proof.
  unfold parent_of. destruct (nth_error M s) as [x|] eqn:Hx; [| discriminate]. pose proof (wf_at _ _ Hx) as H.
  destruct x; try discriminate; injection 1 as ->; cbn in H; rewrite ?andb_true_iff in H; repeat match goal with G : _ /\ _ |- _ => destruct G end;
    (split; [assumption | apply Nat.ltb_lt; assumption]).
Qed.
Lemma wf_parent_some s q : parent_of M s = Some (Some q) -> (rank q < rank s)%nat /\
  (is_comp M q = true /\ is_rsm M q = false /\ home s = home q \/ is_rsm M q = true /\ home s = Some q).
Proof.
  intros [H _]%wf_parent. cbn in H. apply andb_true_iff in H as [H1 H2]. apply Nat.ltb_lt in H1. split; [exact H1|].
  unfold is_comp, is_rsm. destruct (nth_error M q) as [[]|]; try discriminate; apply same_home_eq in H2; auto.
Qed.
Lemma wf_parent_none s : parent_of M s = Some None -> home s = None.
Proof. intros [H _]%wf_parent. cbn in H. apply same_home_eq in H. exact H. Qed.

Lemma wf_tidy : tidy M rank.
Proof.
  constructor.
  - intros v x t Hx Ht. pose proof (wf_at _ _ Hx) as H.
    assert (forall h tbl, ok_table M home h tbl = true ->
      In t (flat_map (fun t => match t_tgt t with Some t => [t] | None => [] end) tbl) -> is_rsm M t = false) as K.
    { intros h tbl H1 H2. apply in_flat_map in H2 as (tr & H2 & H3). destruct (t_tgt tr) as [w|] eqn:E; [| destruct H3].
      destruct H3 as [-> | []]. eapply kind_rsm, table_ok; eauto. }
    assert (forall h tbl, ok_branches M home h tbl = true ->
      In t (flat_map (fun t => match t_tgt t with Some t => [t] | None => [] end) tbl) -> is_rsm M t = false) as K2.
    { intros h tbl H1 H2. apply in_flat_map in H2 as (tr & H2 & H3). destruct (branches_ok _ _ _ H1 H2) as (w & E & Hk & _). rewrite E in H3.
      destruct H3 as [-> | []]. apply kind_rsm, Hk. }
    destruct x; cbn in Ht, H; rewrite ?andb_true_iff in H; repeat match goal with G : _ /\ _ |- _ => destruct G end; rewrite ?in_app_iff in Ht; eauto.
    + destruct Ht as [Ht | Ht]; [| eauto]. destruct defchild; [| destruct Ht]. destruct Ht as [-> | []]. apply andb_true_iff in H0 as [H0 _]. eapply kind_rsm, target_ok; eauto.
    + destruct Ht.
    + destruct Ht as [Ht | Ht]; [| eauto]. apply in_flat_map in Ht as ([a w] & H5 & H6). cbn in H6.
      match goal with G : forallb _ expcn = true |- _ => rewrite forallb_forall in G; specialize (G _ H5); cbn in G end.
      destruct w; [| destruct H6]. destruct H6 as [-> | []]. eapply kind_rsm, target_ok; eauto.
    + destruct defchild; [| destruct Ht]. destruct Ht as [-> | []]. eapply kind_rsm, target_ok; eauto.
    + destruct (t_tgt dft) eqn:E; [| destruct Ht]. destruct Ht as [-> | []]. eapply kind_rsm, target_ok; eauto.
    + destruct (nth_error M parent) as [[]|]; try discriminate. apply andb_true_iff in H as [_ H].
      destruct tgt; [| destruct Ht]. destruct Ht as [-> | []]. eapply kind_rsm, target_ok; eauto.
    + destruct Ht.
    + destruct Ht.
  - intros s q H. destruct (wf_parent_some _ _ H) as [H1 [(H2 & H3 & _) | (H2 & _)]]; split; auto; rewrite H2; auto using orb_true_r.
  - intros m en ex p tbl e r Hm. pose proof (wf_at _ _ Hm) as H. cbn in H. rewrite ?andb_true_iff in H.
    repeat match goal with G : _ /\ _ |- _ => destruct G end. apply Nat.leb_le. assumption.
  - intros h deep p t Hh. pose proof (wf_at _ _ Hh) as H. cbn in H. apply andb_true_iff in H as [H _].
    destruct p as [q|]; [| discriminate]. exists q. split; [reflexivity|]. unfold is_comp. destruct (nth_error M q) as [[]|]; congruence.
Qed.

Lemma ram_tidy d : ram_ok d -> tidy_ram M d.
Proof. intros [H1 H2 H3]. constructor; [exact H1|]. intros r m E. apply (H2 _ _ E). Qed.

(** * Within *)
Lemma within_inside n : forall q v, within M n q v = true -> inside q v.
Proof.
  induction n as [| n IH]; intros q v H; cbn in H.
  - rewrite orb_false_r in H. apply Nat.eqb_eq in H as ->. constructor.
  - apply orb_true_iff in H as [H | H]; [apply Nat.eqb_eq in H as ->; constructor|].
    destruct (parent_of M v) as [[p|]|] eqn:E; try discriminate. econstructor; eauto.
Qed.
Lemma inside_within q v : inside q v -> forall n, (rank v <= n)%nat -> within M n q v = true.
Proof.
  induction 1 as [| v p Hp H IH]; intros n Hn.
  - destruct n; cbn; rewrite Nat.eqb_refl; reflexivity.
  - destruct (wf_parent_some _ _ Hp) as [Hr _]. destruct n as [| n]; [lia|]. cbn. rewrite Hp, IH by lia. apply orb_true_r.
Qed.
Lemma plain_no_subm q m en ex p tbl e r : plain c M q = true -> nth_error M m = Some (VSubm en ex p tbl e r) -> inside q m -> False.
Proof.
  intros Hp Hm Hi. unfold plain in Hp. rewrite forallb_forall in Hp. specialize (Hp m). rewrite Hm in Hp.
  apply negb_true_iff in Hp; [| apply in_seq; split; [lia | cbn; eapply nth_some_lt; eauto]].
  rewrite (inside_within _ _ Hi) in Hp; [discriminate|].
  destruct (wf_parent m p) as [_ Hr]; [unfold parent_of; rewrite Hm; reflexivity | lia].
Qed.
Lemma inside_below q v : inside q v -> exists es, below M (Some q) (Some v) es /\ (rank q + length es <= rank v)%nat.
Proof.
  induction 1 as [| v p Hp H IH]; [exists []; split; [constructor | cbn; lia]|].
  destruct IH as (es & H1 & H2). destruct (wf_parent_some _ _ Hp) as [Hr _].
  destruct (Nat.eq_dec v q) as [-> |]; [exists []; split; [constructor | cbn; lia]|].
  exists (v :: es). split; [econstructor; eauto; congruence | cbn; lia].
Qed.
Lemma root_below v : parent_of M v <> None -> home v = None -> exists es, below M None (Some v) es /\ (length es <= S (rank v))%nat.
Proof.
  assert (forall n v, (rank v <= n)%nat -> parent_of M v <> None -> home v = None -> exists es, below M None (Some v) es /\ (length es <= S (rank v))%nat) as G; [| eauto].
  clear v. induction n as [| n IH]; intros v Hn Hp Hh; destruct (parent_of M v) as [[q|]|] eqn:E; try congruence.
  - destruct (wf_parent_some _ _ E) as [Hr _]. lia.
  - exists [v]. split; [econstructor; eauto; [discriminate | constructor] | cbn; lia].
  - destruct (wf_parent_some _ _ E) as [Hr [(Hc & _ & Hq) | (_ & Hq)]]; [| congruence].
    destruct (IH q) as (es & H1 & H2); [lia | | congruence |].
    + unfold is_comp in Hc. unfold parent_of. destruct (nth_error M q) as [[]|]; congruence.
    + exists (v :: es). split; [econstructor; eauto; discriminate | cbn; lia].
  - exists [v]. split; [econstructor; eauto; [discriminate | constructor] | cbn; lia].
Qed.

(** A region without submachine states contains what is in it dynamically. *)
Lemma chain_inside dy q : is_comp M q = true -> 
  (forall r m, dy r = Some m -> exists en ex p tbl e, nth_error M m = Some (VSubm en ex p tbl e r)) ->
  plain c M q = true -> forall s l, chain M dy s l -> In q l -> forall v, s = Some v -> inside q v.
Proof.
  intros Hq Hd Hpl.
  assert (forall s l, chain M dy s l -> In q l -> forall v, s = Some v ->
    inside q v \/ exists m en ex p tbl e r, nth_error M m = Some (VSubm en ex p tbl e r) /\ inside q m) as G.
  { induction 1 as [| s p l Hp H IH]; intros Hi v E; [discriminate|]. injection E as ->.
    destruct Hi as [-> | Hi]; [left; constructor|].
    destruct p as [p|]; [| cbn in H; inversion H; subst; destruct Hi]. cbn in IH. destruct (is_rsm M p) eqn:Er.
    - destruct (dy p) as [m|] eqn:Em; [| cbn in H; rewrite Er, Em in H; inversion H; subst; destruct Hi].
      destruct (IH Hi _ eq_refl) as [K | K]; [right | right; exact K].
      destruct (Hd _ _ Em) as (en & ex & p' & tbl & e & Hm). do 7 eexists. eauto.
    - destruct (IH Hi _ eq_refl) as [K | K]; [left; econstructor; eauto | right; exact K]. }
  intros s l H Hi v E. destruct (G _ _ H Hi _ E) as [K | (m & en & ex & p & tbl & e & r & Hm & K)]; [exact K|].
  exfalso. eapply plain_no_subm; eauto.
Qed.

(** * Chains are short and bound *)
Lemma chain_short dy (Hd : forall r m, dy r = Some m -> exists en ex p tbl e, nth_error M m = Some (VSubm en ex p tbl e r)) s l :
  chain M dy s l -> match s with Some v => (length l <= S (rank v))%nat | None => l = [] end.
Proof.
  induction 1 as [| s p l Hp H IH]; [reflexivity|]. cbn. destruct p as [p|]; cbn in IH; [| subst; cbn; lia].
  destruct (wf_parent_some _ _ Hp) as [Hr _]. destruct (is_rsm M p) eqn:Er; [| lia].
  destruct (dy p) as [m|] eqn:Em; [| subst; cbn; lia].
  destruct (Hd _ _ Em) as (en & ex & p' & tbl & e & Hm). pose proof (ty_sub _ _ wf_tidy _ _ _ _ _ _ _ Hm). lia.
Qed.
Lemma chain_bound d : ram_ok d -> forall s l, chain M (d_dyp d) s l -> (forall v, s = Some v -> bound (d_dyp d) (home v)) ->
  forall v, In v l -> bound (d_dyp d) (home v).
Proof.
  intros Hr. induction 1 as [| s p l Hp H IH]; intros Hs v Hi; [destruct Hi|]. destruct Hi as [<- | Hi]; [apply Hs; reflexivity|].
  apply IH; [| exact Hi]. intros x Ex. destruct p as [p|]; cbn in Ex; [| discriminate].
  destruct (wf_parent_some _ _ Hp) as [_ [(Hc & Er & Hh) | (Er & Hh)]]; rewrite Er in Ex.
  - injection Ex as <-. rewrite <- Hh. apply Hs. reflexivity.
  - destruct (ro_dyp _ _ _ _ Hr _ _ Ex) as [_ Hb]. exact Hb.
Qed.

(** * Preservation *)
Lemma bound_set d r m h : bound (d_dyp d) h -> bound (d_dyp (set_dyp d r (Some m))) h.
Proof. destruct h as [r'|]; cbn; [| auto]. unfold fupd. destruct (r' =? r)%nat; congruence. Qed.
Lemma ram_say d x : ram_ok d -> ram_ok (say d x).
Proof. intros [H1 H2 H3]. constructor; auto. Qed.
Lemma ram_bind d m en ex p tbl e r : ram_ok d -> nth_error M m = Some (VSubm en ex p tbl e r) -> bound (d_dyp d) (home m) ->
  ram_ok (set_dyp d r (Some m)).
Proof.
  intros [H1 H2 H3] Hm Hb. constructor; cbn.
  - exact H1.
  - intros r' m'. unfold fupd at 1. destruct (Nat.eqb_spec r' r) as [-> | Hne].
    + injection 1 as <-. split; [eauto 10|]. apply (bound_set d). exact Hb.
    + intros E. destruct (H2 _ _ E) as [A B]. split; [exact A|]. apply (bound_set d). exact B.
  - intros h deep q dft s Hh E. destruct (H3 _ _ _ _ _ Hh E) as [A B]. split; [apply (bound_set d), A | exact B].
Qed.

(** A point of a path is at a proper vertex of a machine in use. *)
Definition good (p : point) : Prop :=
  ram_ok (p_d p) /\ ok_kind M (p_v p) = true /\ bound (d_dyp (p_d p)) (home (p_v p)).

Lemma state_kind s : parent_of M s <> None -> ok_kind M s = true.
Proof. unfold parent_of, ok_kind. destruct (nth_error M s) as [[]|]; congruence. Qed.

Lemma hist_owner q en ex p tbl dc ia h deep p' t : nth_error M q = Some (VComp en ex p tbl dc ia (Some h)) ->
  nth_error M h = Some (VHist deep p' t) -> p' = Some q.
Proof.
  intros Hq Hh. pose proof (wf_at _ _ Hq) as H. cbn in H. rewrite Hh in H. rewrite ?andb_true_iff in H.
  destruct H as [[_ H] _]. destruct p'; [| discriminate]. apply Nat.eqb_eq in H. congruence.
Qed.
Lemma leave1_ok d s : ram_ok d -> parent_of M s <> None -> bound (d_dyp d) (home s) -> ram_ok (leave1 M d s).
Proof.
  intros Hr Hp Hb. pose proof (tidy_leave1 M d s (ram_tidy _ Hr) Hp) as Ht.
  destruct Hr as [H1 H2 H3]. unfold leave1 in *. destruct (shallow_of M s) as [h|] eqn:E; [| constructor; auto].
  constructor; [apply Ht | exact H2 |]. cbn. intros h' deep q dft s' Hh. unfold fupd. destruct (Nat.eqb_spec h' h) as [-> |]; [| eauto].
  injection 1 as <-. split; [exact Hb|]. unfold shallow_of in E. destruct (parent_of M s) as [[q'|]|] eqn:Ep; try discriminate.
  destruct (nth_error M q') as [[]|] eqn:Eq; try discriminate. destruct hist as [h0|]; [| discriminate].
  destruct (nth_error M h0) as [[]|] eqn:Eh; try discriminate. destruct deep0; [discriminate|]. injection E as ->.
  pose proof (hist_owner _ _ _ _ _ _ _ _ _ _ _ Eq Eh) as ->. rewrite Eh in Hh. injection Hh as <- <- <-. reflexivity.
Qed.
Lemma leave_ok l : forall d, ram_ok d -> (forall s, In s l -> parent_of M s <> None /\ bound (d_dyp d) (home s)) -> ram_ok (leave M l d).
Proof.
  induction l as [| s l IH]; intros d H Hl; [exact H|]. apply (IH (leave1 M d s)).
  - apply leave1_ok; [exact H | apply Hl; left; reflexivity | apply Hl; left; reflexivity].
  - intros x Hx. rewrite leave1_dyp. apply Hl. right. exact Hx.
Qed.
Lemma rested_ok d s d' : rested M d s d' -> ram_ok d -> is_leaf M s = true -> bound (d_dyp d) (home s) -> machine_ok c M home d'.
Proof.
  intros Hrest Hr Hs Hb. pose proof (rested_ram M d s d' Hrest (ram_tidy _ Hr) Hs) as Ht.
  destruct Hrest as (anc & Hc & E1 & E2 & _ & E4). split; [| exists s; rewrite E2; auto].
  constructor; [apply Ht | rewrite E2; apply (ro_dyp _ _ _ _ Hr) |].
  intros h deep q dft x Hh Ex. rewrite E4 in Ex. rewrite E2. destruct (existsb (has_deep M h) anc) eqn:Ed.
  - injection Ex as <-. split; [exact Hb|]. apply existsb_exists in Ed as (q' & Hq' & Ed). unfold has_deep in Ed.
    destruct (nth_error M q') as [[]|] eqn:Eq; try discriminate. destruct hist as [h'|]; [| discriminate].
    apply andb_true_iff in Ed as [Ed Ed2]. apply Nat.eqb_eq in Ed as <-. rewrite Hh in Ed2. destruct deep; [| discriminate].
    pose proof (hist_owner _ _ _ _ _ _ _ _ _ _ _ Eq Hh) as [= <-]. split; [exact Hs|]. intros Hpl.
    eapply (chain_inside (d_dyp d)); [| apply (ram_tidy _ Hr) | exact Hpl | exact Hc | right; exact Hq' | reflexivity].
    unfold is_comp. rewrite Eq. reflexivity.
  - apply (ro_hist _ _ _ _ Hr _ _ _ _ _ Hh Ex).
Qed.
Context (grd : nat -> evt -> list xev -> bool).
Lemma seg_good pe p q : seg c M grd pe p q -> good p -> good q.
Proof.
  intros H (Hr & Hk & Hb). inversion H as [d v l b tbl t d1 v1 Hv F Hroom Et | d v l b tbl t d1 v1 Hv F Hroom Et
    | d v l b deep qq dft s Hv Eh | d v l b deep qq dft d1 v1 Hv Eh Et Hen Hroom | d v l b deep qq dft Hv Eh Et
    | d v l b en ex pp tbl e r v1 ia Hv Hv2 Hroom | d v l b a m v1 en ex pp tbl e r Hv Hm Hroom
    | d v l b ix r m a v1 en ex pp tbl e r' Hv Em Hm He Hroom]; subst; cbn [p_d p_v] in *; pose proof (wf_at _ _ Hv) as Wv; cbn in Wv.
  - pose proof (first_in _ _ _ _ _ _ F) as Hi. apply filter_In in Hi as [Hi _].
    destruct (branches_ok _ _ _ Wv Hi) as (w & E & K1 & K2). rewrite Et in E. injection E as <-.
    destruct (first_ram _ _ _ _ _ _ F) as [x ->]. split; [apply ram_say, Hr|]. split; [exact K1|]. cbn. rewrite K2. exact Hb.
  - pose proof (first_in _ _ _ _ _ _ F) as Hi. apply filter_In in Hi as [Hi _].
    destruct (branches_ok _ _ _ Wv Hi) as (w & E & K1 & K2). rewrite Et in E. injection E as <-.
    destruct (first_ram _ _ _ _ _ _ F) as [x ->]. unfold effects. split; [apply ram_say, ram_say, Hr|]. split; [exact K1|]. cbn. rewrite K2. exact Hb.
  - destruct (ro_hist _ _ _ _ Hr _ _ _ _ _ Hv Eh) as [B1 B2]. split; [exact Hr|]. split; [| exact B1].
    apply state_kind. destruct deep; [apply leaf_parent, B2 | cbn; congruence].
  - destruct (enabled_ram _ _ _ _ _ Hen) as [x ->]. apply andb_true_iff in Wv as [_ Wv]. rewrite Et in Wv.
    apply target_ok in Wv as [K1 K2]. split; [apply ram_say, Hr|]. split; [exact K1|]. cbn. rewrite K2. exact Hb.
  - apply andb_true_iff in Wv as [Wv _]. unfold ok_kind, good, p_v, p_d. destruct (nth_error M qq) as [[]|] eqn:Eq; try discriminate.
    split; [exact Hr|]. unfold ok_kind. rewrite Eq. split; [reflexivity|]. destruct hist; [| discriminate]. apply andb_true_iff in Wv as [_ Wv].
    apply same_home_eq in Wv. rewrite Wv. exact Hb.
  - pose proof (wf_at _ _ Hv2) as W2. cbn in W2. apply target_ok in W2 as [K1 K2].
    split; [eapply ram_bind; eauto|]. split; [exact K1|]. cbn [p_v p_d]. rewrite K2. cbn. unfold fupd. rewrite Nat.eqb_refl. discriminate.
  - rewrite Hm in Wv. apply andb_true_iff in Wv as [Wh Wv]. apply same_home_eq in Wh. apply target_ok in Wv as [K1 K2].
    split; [eapply ram_bind; eauto; rewrite Wh; exact Hb|]. split; [exact K1|]. cbn [p_v p_d]. rewrite K2. cbn. unfold fupd. rewrite Nat.eqb_refl. discriminate.
  - destruct (ro_dyp _ _ _ _ Hr _ _ Em) as [_ Hbm]. pose proof (wf_at _ _ Hm) as Wm. cbn in Wm. apply andb_true_iff in Wm as [_ Wm].
    rewrite forallb_forall in Wm. specialize (Wm _ (nth_error_In _ _ He)). cbn in Wm. apply target_ok in Wm as [K1 K2].
    split; [exact Hr|]. split; [exact K1|]. cbn [p_v p_d]. rewrite K2. exact Hbm.
Qed.
Lemma segs_good pe p q : segs c M grd pe p q -> good p -> good q.
Proof. induction 1 as [| p q r H1 H2 IH]; [auto|]. intros H. apply IH. eapply seg_good; eauto. Qed.
Lemma fails_good pe p e d1 : fails c M grd pe p e d1 -> good p -> ram_ok d1.
Proof.
  intros H (Hr & Hk & Hb). inversion H; subst; cbn [p_d p_v] in *;
    try match goal with F : denied _ _ _ _ _ |- _ => destruct (denied_ram _ _ _ _ _ F) as [x ->] end;
    unfold effects; auto using ram_say.
  match goal with F : overfull _ _ _ _ _ _ _ _ |- _ => inversion F; subst; cbn;
    try match goal with F : first_of _ _ _ _ _ _ |- _ => destruct (first_ram _ _ _ _ _ _ F) as [x ->] end;
    try match goal with F : enabled _ _ _ _ _ |- _ => destruct (enabled_ram _ _ _ _ _ F) as [x ->] end;
    unfold effects; auto using ram_say
  end.
  - eapply ram_bind; eauto.
  - eapply ram_bind; eauto. match goal with E : nth_error M v = _ |- _ => pose proof (wf_at _ _ E) as Wv; cbn in Wv end.
    match goal with E : nth_error M m = _ |- _ => rewrite E in Wv end. apply andb_true_iff in Wv as [Wh _]. apply same_home_eq in Wh. congruence.
Qed.

End Wf.
