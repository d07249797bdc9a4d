(** Stages 4 to 8 of the dispatcher: exits, actions, entries, default entry,
    histories; and the whole of a dispatch. *)
From Verif Require Import Base L_Base M_Sm S_Sm L_Sm L_SmWalk.

Section Sm.
Context (c : smcfg) (M : machine).
Notation chain := (chain M).

Lemma mem_In s l : mem s l = true <-> In s l.
Proof.
  unfold mem. rewrite existsb_exists. split; [intros (x & H & ->%Nat.eqb_eq); exact H | intros H; exists s; split; [exact H | apply Nat.eqb_refl]].
Qed.
Lemma mem_nIn s l : mem s l = false <-> ~ In s l.
Proof. rewrite <- mem_In. destruct (mem s l); split; intros; congruence. Qed.
Lemma filter_all {A} (f : A -> bool) l : (forall x, In x l -> f x = true) -> filter f l = l.
Proof. induction l as [| x l IH]; intros H; cbn; [reflexivity|]. rewrite (H x) by (left; reflexivity). f_equal. apply IH. intros; apply H; right; assumption. Qed.
Lemma filter_none {A} (f : A -> bool) l : (forall x, In x l -> f x = false) -> filter f l = [].
Proof. induction l as [| x l IH]; intros H; cbn; [reflexivity|]. rewrite (H x) by (left; reflexivity). apply IH. intros; apply H; right; assumption. Qed.

(** * The entry list *)
Lemma entry_list_ok fuel : forall d stx stn ix se l r,
  chain (d_dyp d) stn l -> entry_list c M fuel d stx stn ix se = Ok r -> (ix <= sm_depth c)%nat ->
  match r with
  | None => (sm_depth c < ix + length l)%nat /\ (forall l', l = stx :: l' -> False)
  | Some (o, n, se') =>
    length se' = length se /\
    exists a b, l = a ++ b /\ ~ In stx a /\ n = (ix + length a)%nat /\ (n <= sm_depth c)%nat /\
      firstn n se' = firstn ix se ++ map Some a /\
      ((o = None /\ b = []) \/ (o = Some stx /\ exists b', b = stx :: b'))
  end.
Proof.
  induction fuel as [| f IH]; intros d stx stn ix se l r Hc H Hix; destruct stn as [n|]; cbn [entry_list] in H.
  2, 4: injection H as <-; inversion Hc; subst; split; [reflexivity|]; exists [], []; cbn; rewrite Nat.add_0_r, app_nil_r; auto 10.
  all: inversion Hc as [| s' p l' Hp Hl]; subst.
  all: destruct (Nat.eqb_spec stx n) as [-> | Hne].
  1, 3: injection H as <-; split; [reflexivity|]; exists [], (n :: l'); cbn; rewrite Nat.add_0_r, app_nil_r; eauto 12.
  all: destruct (Nat.ltb_spec ix (sm_depth c)) as [Hlt | Hge].
  1: discriminate.
  1, 3: injection H as <-; cbn; split; [lia | congruence].
  apply bind_ok in H as (se1 & Hw & H). apply wr_ok in Hw as [Hlen ->].
  apply bind_ok in H as (p' & Hp' & H). apply update_parent_ok in Hp' as (q & Hq & ->).
  assert (q = p) by congruence; subst q. pose proof (IH _ _ _ _ _ _ _ Hl H ltac:(lia)) as G.
  destruct r as [[[o n'] se']|].
  - destruct G as (G0 & a & b & -> & G1 & G2 & G3 & G4 & G5). rewrite length_upd in G0. split; [exact G0|].
    exists (n :: a), b. split; [reflexivity|]. split; [intros [-> | Hi]; [congruence | auto]|].
    cbn. split; [lia|]. split; [lia|]. split; [| exact G5].
    rewrite G4, (firstn_S _ _ (Some n)), firstn_upd, <- app_assoc; [reflexivity|]. apply nth_upd_eq. exact Hlen.
  - destruct G as [G _]. cbn. split; [lia | congruence].
Qed.

(** * Exits *)
Lemma update_shallow_ok d s a d' x : nth_error M s = Some x -> st_exit x = Ok a ->
  update_shallow M (say d [XExit s a]) s = Ok d' -> d' = leave1 M d s.
Proof.
  intros Hx Ha H. pose proof (st_exit_ok _ _ _ _ Hx Ha) as Ea. unfold leave1, shallow_of. rewrite Ea.
  unfold update_shallow in H. apply bind_ok in H as (x' & Hx'%vx_ok & H). rewrite Hx in Hx'. injection Hx' as <-.
  apply bind_ok in H as (p & Hp & H). rewrite (st_parent_ok _ _ _ _ Hx Hp).
  destruct p as [q|]; [| injection H as <-; reflexivity].
  apply bind_ok in H as (y & Hy%vx_ok & H). rewrite Hy. destruct y; try (injection H as <-; reflexivity).
  destruct hist as [h|]; [| injection H as <-; reflexivity].
  apply bind_ok in H as (z & Hz%vx_ok & H). rewrite Hz. destruct z; try discriminate; try (injection H as <-; reflexivity).
  destruct deep; injection H as <-; reflexivity.
Qed.
Lemma leave1_dyp d s : d_dyp (leave1 M d s) = d_dyp d.
Proof. unfold leave1. destruct (shallow_of M s); reflexivity. Qed.
Lemma leave1_st d s : d_st (leave1 M d s) = d_st d.
Proof. unfold leave1. destruct (shallow_of M s); reflexivity. Qed.
Lemma leave1_log d s : d_log (leave1 M d s) = d_log d ++ [XExit s (exit_of M s)].
Proof. unfold leave1. destruct (shallow_of M s); reflexivity. Qed.
Lemma leave_dyp l : forall d, d_dyp (leave M l d) = d_dyp d.
Proof. induction l as [| s l IH]; intros d; cbn; [reflexivity|]. unfold leave in IH. rewrite IH. apply leave1_dyp. Qed.
Lemma leave_st l : forall d, d_st (leave M l d) = d_st d.
Proof. induction l as [| s l IH]; intros d; cbn; [reflexivity|]. unfold leave in IH. rewrite IH. apply leave1_st. Qed.
Lemma leave_log l : forall d, d_log (leave M l d) = d_log d ++ map (fun s => XExit s (exit_of M s)) l.
Proof.
  induction l as [| s l IH]; intros d; cbn; [rewrite app_nil_r; reflexivity|]. unfold leave in IH. rewrite IH, leave1_log, <- app_assoc. reflexivity.
Qed.

(** The common ancestors: where chains meet they go on together. *)
Lemma chains_meet dy a l1 b l2 x r1 r2 : chain dy a l1 -> chain dy b l2 -> l1 = r1 ++ x -> l2 = r2 ++ x ->
  forall s x', x = s :: x' -> filter (fun y => negb (mem y x)) l2 = filter (fun y => negb (mem y x)) r2.
Proof.
  intros H1 H2 -> -> s x' ->. rewrite filter_app. rewrite (filter_none _ (s :: x')), app_nil_r; [reflexivity|].
  intros y Hy. apply negb_false_iff, mem_In, Hy.
Qed.
Lemma nodup_app_notin {A} (a b : list A) x : NoDup (a ++ b) -> In x a -> ~ In x b.
Proof.
  induction a as [| y a IH]; cbn; [tauto|]. intros H [-> | Hx] Hb; inversion H; subst.
  - match goal with N : ~ In _ _ |- _ => apply N end. apply in_app_iff. auto.
  - eapply IH; eauto.
Qed.

Lemma exec_exits_tail fuel : forall k d stx ix tgt se l lt r,
  chain (d_dyp d) stx l -> chain (d_dyp d) tgt lt ->
  ix = length lt -> (ix <= sm_depth c)%nat -> firstn ix se = map Some lt -> length se = sm_depth c ->
  exec_exits c M fuel d stx (S k) tgt se ix = Ok r ->
  match r with
  | Stop _ _ => False
  | Go (d', se', nn) =>
    d' = leave M (filter (fun s => negb (mem s lt)) l) d /\ length se' = sm_depth c /\
    nn = length (filter (fun s => negb (mem s l)) lt) /\ firstn nn se' = map Some (filter (fun s => negb (mem s l)) lt) /\
    (lt <> [] -> nth_error se' 0 = nth_error se 0)
  end.
Proof.
  induction fuel as [| f IH]; intros k d stx ix tgt se l lt r Hc Ht -> Hix Hse Hlen H; destruct stx as [s|]; cbn [exec_exits] in H.
  1: discriminate.
  1, 3: injection H as <-; inversion Hc; subst; cbn; rewrite filter_all by reflexivity; auto 10.
  inversion Hc as [| s' p l' Hp Hl]; subst.
  apply bind_ok in H as (r1 & He & H). pose proof (entry_list_ok _ _ _ _ _ _ _ _ Ht He ltac:(lia)) as G.
  destruct r1 as [[[o n] se1]|].
  2: { destruct G as [G _]. cbn in G. lia. }
  destruct G as (G0 & a & b & Elt & Ga & -> & Gn & Gs & Go). cbn in Gs, Gn.
  destruct Go as [[-> ->] | [-> [b' ->]]]; cbn [negb orb Nat.eqb] in H; cbn zeta in H.
  - (* not in the target: exit *)
    rewrite app_nil_r in Elt. subst a.
    apply bind_ok in H as (x & Hx%vx_ok & H). apply bind_ok in H as (ac & Hac & H).
    apply bind_ok in H as (d1 & Hd1 & H). apply (update_shallow_ok _ _ _ _ _ Hx Hac) in Hd1. subst d1.
    apply bind_ok in H as (p' & Hp' & H). apply update_parent_ok in Hp' as (q & Hq & ->).
    assert (q = p) by congruence; subst q. rewrite leave1_dyp in H.
    pose proof (IH _ _ _ _ _ _ l' lt _ ltac:(rewrite leave1_dyp; exact Hl) ltac:(rewrite leave1_dyp; exact Ht) eq_refl Hix Gs ltac:(congruence) H) as G.
    destruct r as [[[d' se'] nn] | ? ?]; [| exact G]. destruct G as (E1 & E2 & E3 & E4 & E5).
    assert (filter (fun y => negb (mem y (s :: l'))) lt = filter (fun y => negb (mem y l')) lt) as ->.
    { apply filter_ext_in. intros y Hy. f_equal. cbn. destruct (Nat.eqb_spec y s) as [-> |]; [contradiction | reflexivity]. }
    cbn [filter]. rewrite (proj2 (mem_nIn s lt) Ga). cbn [negb leave fold_left]. split; [exact E1|]. split; [exact E2|].
    split; [exact E3|]. split; [exact E4|]. intros Hne. rewrite (E5 Hne).
    destruct lt as [| t0 lt']; [congruence|]. cbn in Gs, Hse. destruct se1, se; try discriminate. cbn. congruence.
  - injection H as <-.
    pose proof (chain_split _ _ _ _ Ht _ _ _ Elt) as Hc2. pose proof (chain_fun _ _ _ _ Hc2 _ Hc) as E. injection E as ->.
    pose proof (chain_nodup _ _ _ _ Ht) as Nd. rewrite Elt in Nd.
    assert (filter (fun y => negb (mem y lt)) (s :: l') = []) as ->.
    { apply filter_none. intros y Hy. apply negb_false_iff, mem_In. rewrite Elt. apply in_app_iff. right. exact Hy. }
    assert (filter (fun y => negb (mem y (s :: l'))) lt = a) as ->.
    { rewrite Elt, filter_app, (filter_none _ (s :: l')), app_nil_r, filter_all; [reflexivity | |].
      - intros y Hy. apply negb_true_iff, mem_nIn. eapply nodup_app_notin; eauto.
      - intros y Hy. apply negb_false_iff, mem_In, Hy. }
    cbn [leave fold_left length]. split; [reflexivity|]. split; [congruence|]. split; [reflexivity|]. split; [exact Gs|].
    intros _. destruct a as [| t0 a].
    + (* the list was not touched *)
      clear -He Elt Ht. cbn in Elt. subst lt. inversion Ht; subst. cbn [entry_list] in He.
      rewrite Nat.eqb_refl in He. injection He as <-. reflexivity.
    + subst lt. cbn in Hse, Gs. destruct se1, se; try discriminate. cbn. congruence.
Qed.

Lemma exec_exits_ok fuel d cs ts se lc lt r :
  chain (d_dyp d) (Some cs) lc -> chain (d_dyp d) (Some ts) lt -> length se = sm_depth c ->
  exec_exits c M fuel d (Some cs) 0 (Some ts) se 0 = Ok r ->
  match r with
  | Stop e d' => e = EX_HLEVEL /\ sm_asrt c = false /\ d' = d /\ cs <> ts /\ (sm_depth c < length lt)%nat
  | Go (d', se', nn) =>
    d' = leave M (exits lc lt) d /\ length se' = sm_depth c /\
    nn = length (enters lc lt) /\ firstn nn se' = map Some (rev (enters lc lt)) /\
    nth_error se' 0 = Some (Some ts) /\ (In cs lt \/ (length lt <= sm_depth c)%nat)
  end.
Proof.
  intros Hc Ht Hlen H. destruct fuel as [| f]; [discriminate|]. cbn [exec_exits] in H.
  inversion Hc as [| s' p l' Hp Hl]; subst. inversion Ht as [| t' pt lt' Hpt Hlt]; subst.
  unfold exits, enters. rewrite rev_involutive, rev_length. cbn [tl].
  apply bind_ok in H as (r1 & He & H). pose proof (entry_list_ok _ _ _ _ _ _ _ _ Ht He ltac:(lia)) as G.
  destruct r1 as [[[o n] se1]|].
  2: { apply error_ok in H as [Hc0 ->]. destruct G as [G1 G2]. split; [reflexivity|]. split; [exact Hc0|]. split; [reflexivity|].
       split; [intros ->; eapply G2; reflexivity | exact G1]. }
  destruct G as (G0 & a & b & Elt & Ga & -> & Gn & Gs & Go). cbn in Gs, Gn.
  assert (nth_error se1 0 = Some (Some ts) \/ a = [] /\ cs = ts) as Hse1.
  { destruct a as [| t0 a].
    - right. destruct Go as [[-> ->] | [_ [b' ->]]]; [discriminate|]. cbn in Elt. injection Elt as -> _. auto.
    - left. injection Elt as <- _. cbn in Gs. destruct se1; [discriminate|]. cbn. congruence. }
  destruct Go as [[-> ->] | [-> [b' ->]]]; cbn [negb orb Nat.eqb] in H; cbn zeta in H.
  - (* not in the target *)
    rewrite app_nil_r in Elt. subst a. destruct Hse1 as [Hse1 | [? ?]]; [| discriminate].
    apply bind_ok in H as (x & Hx%vx_ok & H). apply bind_ok in H as (ac & Hac & H).
    apply bind_ok in H as (d1 & Hd1 & H). apply (update_shallow_ok _ _ _ _ _ Hx Hac) in Hd1. subst d1.
    apply bind_ok in H as (p' & Hp' & H). apply update_parent_ok in Hp' as (q & Hq & ->).
    assert (q = p) by congruence; subst q. rewrite leave1_dyp in H.
    pose proof (fun A B => exec_exits_tail _ _ _ _ _ _ _ l' (ts :: lt') _ A B eq_refl Gn Gs ltac:(congruence) H) as G.
    specialize (G ltac:(rewrite leave1_dyp; exact Hl) ltac:(rewrite leave1_dyp; exact Ht)).
    destruct r as [[[d' se'] nn] | ? ?]; [| contradiction]. destruct G as (E1 & E2 & E3 & E4 & E5).
    cbn [leave fold_left]. split; [exact E1|]. split; [exact E2|]. split; [exact E3|]. split; [exact E4|].
    split; [rewrite E5; [exact Hse1 | discriminate] | auto].
  - (* the active state is in the target's chain *)
    apply bind_ok in H as (x & Hx%vx_ok & H). apply bind_ok in H as (ac & Hac & H).
    apply bind_ok in H as (d1 & Hd1 & H). apply (update_shallow_ok _ _ _ _ _ Hx Hac) in Hd1. subst d1.
    apply bind_ok in H as (se2 & Hw & H). apply wr_ok in Hw as [Hwl ->]. injection H as <-.
    pose proof (chain_split _ _ _ _ Ht _ _ _ Elt) as Hc2. pose proof (chain_fun _ _ _ _ Hc2 _ Hc) as E. injection E as ->.
    pose proof (chain_nodup _ _ _ _ Ht) as Nd. rewrite Elt in Nd.
    assert (NoDup (cs :: l')) as Nd2 by (eapply chain_nodup; eauto).
    assert (filter (fun y => negb (mem y (ts :: lt'))) l' = []) as ->.
    { apply filter_none. intros y Hy. apply negb_false_iff, mem_In. rewrite Elt. apply in_app_iff. right. right. exact Hy. }
    assert (filter (fun y => negb (mem y l')) (ts :: lt') = a ++ [cs]) as ->.
    { rewrite Elt, filter_app. f_equal.
      - apply filter_all. intros y Hy. apply negb_true_iff, mem_nIn. intros Hy'. eapply nodup_app_notin; eauto. right. exact Hy'.
      - cbn [filter]. inversion Nd2; subst. rewrite (proj2 (mem_nIn cs l')) by assumption. cbn [negb]. f_equal.
        apply filter_none. intros y Hy. apply negb_false_iff, mem_In, Hy. }
    cbn [leave fold_left]. rewrite app_length. cbn [length]. rewrite length_upd. split; [reflexivity|]. split; [congruence|].
    split; [lia|]. split; [| split].
    + rewrite (firstn_S _ _ (Some cs)), firstn_upd, Gs, map_app; [reflexivity|]. apply nth_upd_eq. exact Hwl.
    + destruct Hse1 as [Hse1 | [-> ->]].
      * destruct a as [| t0 a]; [| rewrite nth_upd_ne by (cbn; lia); exact Hse1].
        cbn in Elt. injection Elt as <- _. cbn [length]. apply nth_upd_eq. exact Hwl.
      * apply nth_upd_eq. exact Hwl.
    + left. rewrite Elt. apply in_app_iff. right. left. reflexivity.
Qed.

(** * Entries *)
Lemma add_target_loop_ok fuel : forall st se n cmp se' n',
  add_target_loop M fuel st se n cmp = Ok (se', n') ->
  exists l, below M cmp st l /\ n' = (n + length l)%nat /\ firstn n' se' = firstn n se ++ map Some l.
Proof.
  induction fuel as [| f IH]; intros st se n cmp se' n' H; cbn [add_target_loop] in H.
  - destruct st as [a|], cmp as [b|]; try discriminate.
    + destruct (Nat.eqb_spec a b) as [-> |]; [| discriminate]. injection H as <- <-. exists []. rewrite app_nil_r, Nat.add_0_r.
      split; [constructor | auto].
    + injection H as <- <-. exists []. rewrite app_nil_r, Nat.add_0_r. split; [constructor | auto].
  - assert (forall st, st <> cmp -> (do se <- wr se n st; do x <- vxo M st; do p <- st_parent x; add_target_loop M f p se (S n) cmp) = Ok (se', n') ->
      exists l, below M cmp st l /\ n' = (n + length l)%nat /\ firstn n' se' = firstn n se ++ map Some l) as G.
    { clear H st. intros st Hne H. apply bind_ok in H as (se1 & Hw & H). apply wr_ok in Hw as [Hlt ->].
      apply bind_ok in H as (x & Hx & H). apply vxo_ok in Hx as (s & -> & Hx).
      apply bind_ok in H as (p & Hp & H). apply IH in H as (l & H1 & -> & H3).
      exists (s :: l). split; [econstructor; eauto using st_parent_ok|]. split; [cbn; lia|].
      rewrite H3, (firstn_S _ _ (Some s)), firstn_upd, <- app_assoc; [reflexivity|]. apply nth_upd_eq. exact Hlt. }
    destruct st as [a|], cmp as [b|].
    + destruct (Nat.eqb_spec a b) as [-> | Hne]; [| apply G; [congruence | exact H]].
      injection H as <- <-. exists []. rewrite app_nil_r, Nat.add_0_r. split; [constructor | auto].
    + apply G; [discriminate | exact H].
    + apply G; [discriminate | exact H].
    + injection H as <- <-. exists []. rewrite app_nil_r, Nat.add_0_r. split; [constructor | auto].
Qed.
Lemma add_target_ok fuel t se cmp se' n : is_target M t = true -> add_target M fuel (Some t) se cmp = Ok (se', n) ->
  exists l, below M cmp (Some t) l /\ n = length l /\ firstn n se' = map Some l /\ length se' = length se.
Proof.
  intros Ht H. pose proof (length_add_target _ _ _ _ _ _ _ H) as Hl. unfold add_target in H.
  apply bind_ok in H as (x & Hx & H). cbn in Hx. apply vx_ok in Hx.
  unfold is_target in Ht. rewrite Hx in Ht.
  destruct x; try discriminate; apply add_target_loop_ok in H as (l & H1 & H2 & H3); exists l; cbn in *; auto.
Qed.

Lemma is_completion_ok s x : nth_error M s = Some x -> is_completion c x = completes c M s.
Proof. unfold completes. intros ->. destruct x; reflexivity. Qed.

Lemma exec_entries_ok n : forall se d isc d' isc' es, firstn n se = map Some es -> length es = n ->
  exec_entries c M n se d isc = Ok (d', isc') ->
  d' = enter M (rev es) d /\ isc' = match es with [] => isc | s :: _ => completes c M s end.
Proof.
  induction n as [| n IH]; intros se d isc d' isc' es Hse Hl H; cbn [exec_entries] in H.
  - destruct es; [| discriminate]. injection H as <- <-. unfold enter. cbn. rewrite say_nil. auto.
  - apply bind_ok in H as (o & Ho & H). apply rd_ok in Ho. rewrite (firstn_S _ _ _ Ho) in Hse.
    destruct (exists_last (l := es)) as (es' & s & ->); [destruct es; [discriminate | congruence]|].
    rewrite map_app in Hse. apply app_inj_tail in Hse as [Hse ->]. rewrite app_length in Hl. cbn in Hl.
    apply bind_ok in H as (x & Hx & H). cbn in Hx. apply vx_ok in Hx. apply bind_ok in H as (a & Ha & H).
    apply (IH _ _ _ _ _ es') in H; [| exact Hse | lia]. destruct H as [-> ->]. split.
    + unfold enter. rewrite say_say, rev_app_distr. cbn. rewrite (st_enter_ok _ _ _ _ Hx Ha). reflexivity.
    + destruct es'; cbn; [apply is_completion_ok, Hx | reflexivity].
Qed.

Lemma target_rsm v : is_target M v = true -> is_rsm M v = false.
Proof. unfold is_target, is_rsm. destruct (nth_error M v) as [[]|]; congruence. Qed.
Lemma target_cases v x : nth_error M v = Some x -> is_target M v = true ->
  is_leaf M v = true \/ exists en ex p tbl dc ia h, x = VComp en ex p tbl dc ia h.
Proof. unfold is_target, is_leaf. intros ->. destruct x; try discriminate; eauto 10. Qed.
Lemma target_parent v : is_target M v = true -> parent_of M v <> None.
Proof. unfold is_target, parent_of. destruct (nth_error M v) as [[]|]; congruence. Qed.
Lemma leaf_parent v : is_leaf M v = true -> parent_of M v <> None.
Proof. unfold is_leaf, parent_of. destruct (nth_error M v) as [[]|]; congruence. Qed.
Lemma leaf_comp v : is_leaf M v = true -> is_comp M v = false.
Proof. unfold is_leaf, is_comp. destruct (nth_error M v) as [[]|]; congruence. Qed.

Lemma tidy_say d x : tidy_ram M d -> tidy_ram M (say d x).
Proof. intros [H1 H2]. constructor; auto. Qed.
Lemma tidy_leave1 d s : tidy_ram M d -> parent_of M s <> None -> tidy_ram M (leave1 M d s).
Proof.
  intros [H1 H2] Hs. unfold leave1. destruct (shallow_of M s) as [h|]; [| constructor; auto].
  constructor; cbn; [| auto]. intros h' s'. unfold fupd. destruct (h' =? h)%nat; [| apply H1].
  injection 1 as <-. unfold parent_of in Hs. unfold is_rsm. destruct (nth_error M s) as [[]|]; congruence.
Qed.
Lemma tidy_leave l : forall d, tidy_ram M d -> (forall s, In s l -> parent_of M s <> None) -> tidy_ram M (leave M l d).
Proof.
  induction l as [| s l IH]; intros d H Hl; [exact H|]. apply (IH (leave1 M d s)).
  - apply tidy_leave1; [exact H | apply Hl; left; reflexivity].
  - intros x Hx. apply Hl. right. exact Hx.
Qed.
Lemma chain_parents dy s l : chain dy s l -> forall x, In x l -> parent_of M x <> None.
Proof. induction 1 as [| s p l Hp H IH]; cbn; [tauto|]. intros x [<- | Hx]; [congruence | auto]. Qed.
Lemma exits_in lc lt x : In x (exits lc lt) -> In x lc.
Proof. destruct lc as [| s l]; cbn; [tauto|]. intros [H | H]; [auto|]. apply filter_In in H. tauto. Qed.

Context (rank : nat -> nat) (T : tidy M rank).
Lemma leaf_no_child dy s l x : (forall r m, dy r = Some m -> exists en ex p tbl e, nth_error M m = Some (VSubm en ex p tbl e r)) ->
  chain dy s l -> In x (tl l) -> is_leaf M x = false.
Proof.
  intros Hd H. induction H as [| s p l Hp H IH]; cbn; [tauto|]. intros Hx.
  inversion H as [| s2 p2 l2 Hp2 H2 E]; subst; [destruct Hx|]. cbn in IH. destruct Hx as [-> | Hx]; [| auto].
  destruct p as [q|]; [| discriminate]. cbn in E. destruct (is_rsm M q) eqn:Er.
  - destruct (Hd _ _ (eq_sym E)) as (en & ex & p & tbl & e & Hm). unfold is_leaf. rewrite Hm. reflexivity.
  - injection E as ->. destruct (ty_par _ _ T _ _ Hp) as [Hq _]. rewrite Er, orb_false_r in Hq.
    unfold is_comp in Hq. unfold is_leaf. destruct (nth_error M q) as [[]|]; congruence.
Qed.

(** * Default entry *)
Context (grd : nat -> evt -> list xev -> bool).
Notation segs := (segs c M grd).
Notation default := (default c M grd).
Lemma descend_default pe cs fuel : forall d q en ex p tbl dc ia h w isc r,
  nth_error M q = Some (VComp en ex p tbl dc ia h) -> tidy_ram M d ->
  w_d w = d -> w_ets w = dc -> w_stn w = Some q -> length (w_al w) = sm_segs c -> length (w_se w) = sm_depth c ->
  descend c M grd fuel true cs pe ia w isc = Ok r ->
  match r with
  | Stop e d' => default pe d q (Failed d' e)
  | Go (d', stn, isc') => exists s, stn = Some s /\ default pe d q (Arrived d' s) /\ isc' = completes c M s
  end.
Proof.
  induction fuel as [| f IH]; intros d q en ex p tbl dc ia h w isc r Hq Hr Wd We Ws Wa Wse H; [discriminate|].
  cbn [descend] in H.
  apply bind_ok in H as (r1 & Ha & H).
  apply (add_action_ok c _ _ []) in Ha; [| constructor; cbn; auto; lia].
  destruct r1 as [[al nal]|].
  2: { apply error_ok in H as [Hc ->]. rewrite Wd. eapply def_none; eauto. }
  destruct Ha as [Hroom Hal]. cbn [app] in Hal.
  apply bind_ok in H as (r2 & Hw & H).
  destruct dc as [v|].
  2: { cbn [walk] in Hw. unfold pseudo in Hw at 1. cbn [w_seg w_ets] in Hw. rewrite We in Hw. discriminate. }
  eapply (walk_ok c M grd rank T _ _ _ _ (mkP d v (act1 ia) q)) in Hw.
  2: { constructor; cbn; auto. }
  destruct r2 as [w' | e d1].
  2: { injection H as <-. destruct Hw as (p' & H1 & H2). eapply def_fail; eauto. }
  destruct Hw as ([d1 t l b] & Hsegs & Ht & Hap).
  assert (is_rsm M v = false) as Hv by (eapply (ty_tgt _ _ T q); [exact Hq | left; reflexivity]).
  destruct (segs_ram c M grd rank T _ _ _ Hsegs Hr Hv) as (Ht2 & Hr1 & Hb). cbn [p_d p_v p_base] in *.
  rewrite Ht2, orb_false_r in Ht. destruct Hap as [A1 A2 A3 A4 A5]. cbn [p_d p_v p_pend p_base] in *.
  assert (is_comp M b = true) as Hbc by (destruct Hb as [? | ->]; [assumption | unfold is_comp; rewrite Hq; reflexivity]).
  rewrite A1, A2, A4 in H.
  apply bind_ok in H as (r3 & He & H). apply bind_ok in He as ([se nn] & He & E). injection E as <-.
  destruct (add_target_ok _ _ _ _ _ _ Ht He) as (es & Hes & -> & Hse & Hsel).
  apply bind_ok in H as (d2 & Hx & H). apply (exec_acts_ok c _ _ _ _ _ _ A3) in Hx. subst d2.
  apply bind_ok in H as ([d3 isc3] & Hen & H). apply (exec_entries_ok _ _ _ _ _ _ es) in Hen as [-> ->]; [| exact Hse | reflexivity].
  apply bind_ok in H as (stn & Hstn & H). apply rd_ok in Hstn.
  apply bind_ok in H as (x & Hx & H). cbn in Hx. apply vx_ok in Hx.
  assert (forall o, default pe (enter M (rev es) (effects pe l d1)) t o -> default pe d q o) as Hdef.
  { intros o Ho. eapply def_comp; eauto. }
  destruct (target_cases _ _ Hx Ht) as [Hleaf | (en' & ex' & p' & tbl' & dc' & ia' & h' & ->)].
  - assert (r = Go (enter M (rev es) (effects pe l d1), stn, match es with [] => isc | s :: _ => completes c M s end)) as ->.
    { unfold is_leaf in Hleaf. rewrite Hx in Hleaf. destruct x; try discriminate; injection H as <-; reflexivity. }
    inversion Hes as [Eb | s p0 es' Hne Hp0 Hbel]; subst.
    + rewrite (leaf_comp _ Hleaf) in Hbc. discriminate.
    + exists t. cbn in Hse. destruct se; [discriminate|]. cbn in Hstn. split; [congruence|]. split; [| reflexivity].
      apply Hdef. apply def_leaf, Hleaf.
  - eapply (IH _ t) in H; [| exact Hx | | reflexivity | reflexivity | reflexivity | cbn; apply A3 | cbn; congruence].
    + destruct r as [[[d' stn'] isc'] | e d']; [| apply Hdef, H].
      destruct H as (s & -> & H1 & H2). exists s. split; [reflexivity|]. split; [apply Hdef, H1 | exact H2].
    + unfold enter, effects. apply tidy_say, tidy_say, Hr1.
Qed.

(** * A transition *)
Lemma descend_fire pe fuel d cs src v a al se isc r :
  parent_of M cs <> None -> is_rsm M v = false -> tidy_ram M d -> length al = sm_segs c -> length se = sm_depth c ->
  descend c M grd fuel false (Some (Some cs)) pe a (mkW (say d [XTrn src (Some v)]) (Some v) al 0 (Some src) se 0) isc = Ok r ->
  match r with
  | Stop e d' => fire c M grd pe d cs src v a (Failed d' e)
  | Go (d', stn, isc') => exists s, stn = Some s /\ fire c M grd pe d cs src v a (Arrived d' s) /\ isc' = completes c M s
  end.
Proof.
  intros Hcs Hv Hr Hal Hse H. destruct fuel as [| f]; [discriminate|]. cbn [descend] in H.
  apply bind_ok in H as (r1 & Ha & H).
  apply (add_action_ok c _ _ []) in Ha; [| constructor; cbn; auto; lia].
  destruct r1 as [[al1 nal]|].
  2: { apply error_ok in H as [Hc ->]. eapply fire_full; eauto. }
  destruct Ha as [Hroom Hal1]. cbn [app] in Hal1.
  apply bind_ok in H as (r2 & Hw & H).
  eapply (walk_ok c M grd rank T _ _ _ _ (mkP (say d [XTrn src (Some v)]) v (act1 a) src)) in Hw.
  2: { constructor; cbn; auto. }
  destruct r2 as [w' | e d1].
  2: { injection H as <-. destruct Hw as (p' & H1 & H2). eapply fire_fail; eauto. }
  destruct Hw as ([d1 t l b] & Hsegs & Ht & Hap).
  destruct (segs_ram c M grd rank T _ _ _ Hsegs (tidy_say _ _ Hr) Hv) as (Ht2 & Hr1 & _). cbn [p_d p_v p_base] in *.
  rewrite Ht2, orb_false_r in Ht. destruct Hap as [A1 A2 A3 A4 A5]. cbn [p_d p_v p_pend p_base] in *.
  rewrite A1, A2 in H.
  destruct (chain_ex M rank T (d_dyp d1) (tr_dyp _ _ Hr1) cs Hcs) as [lc' Hlc].
  destruct (chain_ex M rank T (d_dyp d1) (tr_dyp _ _ Hr1) t (target_parent _ Ht)) as [lt' Hlt].
  apply bind_ok in H as (r3 & He & H). pose proof (exec_exits_ok _ _ _ _ _ _ _ _ Hlc Hlt A5 He) as G.
  destruct r3 as [[[d2 se2] nn] | e d2].
  2: { injection H as <-. destruct G as (-> & Hc & -> & Hne & Hdep). eapply fire_deep; eauto. }
  destruct G as (-> & Gl & -> & Gs & G0 & Gin).
  apply bind_ok in H as (d2 & Hx & H). apply (exec_acts_ok c _ _ _ _ _ _ A3) in Hx. subst d2.
  apply bind_ok in H as ([d3 isc3] & Hen & H).
  apply (exec_entries_ok _ _ _ _ _ _ (rev (enters (cs :: lc') (t :: lt')))) in Hen as [-> ->]; [| exact Gs | apply rev_length].
  rewrite rev_involutive in H.
  apply bind_ok in H as (stn & Hstn & H). apply rd_ok in Hstn. rewrite G0 in Hstn. injection Hstn as <-.
  apply bind_ok in H as (x & Hx & H). cbn in Hx. apply vx_ok in Hx.
  set (d4 := enter M (enters (cs :: lc') (t :: lt')) (effects pe l (leave M (exits (cs :: lc') (t :: lt')) d1))) in *.
  assert (forall o, default pe d4 t o -> fire c M grd pe d cs src v a o) as Hdef.
  { intros o Ho. eapply fire_ok; eauto. }
  destruct (target_cases _ _ Hx Ht) as [Hleaf | (en' & ex' & p' & tbl' & dc' & ia' & h' & ->)].
  - assert (filter (fun x => negb (mem x (tl (cs :: lc')))) (t :: lt') =
            t :: filter (fun x => negb (mem x (tl (cs :: lc')))) lt') as Ef.
    { cbn [filter]. destruct (mem t (tl (cs :: lc'))) eqn:Em; [| reflexivity]. apply mem_In in Em.
      rewrite (leaf_no_child _ _ _ _ (tr_dyp _ _ Hr1) Hlc Em) in Hleaf. discriminate. }
    unfold enters in H. rewrite rev_involutive, Ef in H.
    assert (r = Go (d4, Some t, completes c M t)) as ->.
    { unfold is_leaf in Hleaf. rewrite Hx in Hleaf. destruct x; try discriminate; injection H as <-; reflexivity. }
    exists t. split; [reflexivity|]. split; [| reflexivity]. apply Hdef, def_leaf, Hleaf.
  - eapply (descend_default _ _ _ d4 t) in H; [| exact Hx | | reflexivity | reflexivity | reflexivity | cbn; apply A3 | cbn; congruence].
    + destruct r as [[[d' stn'] isc'] | e d']; [| apply Hdef, H].
      destruct H as (s & -> & H1 & H2). exists s. split; [reflexivity|]. split; [apply Hdef, H1 | exact H2].
    + unfold d4, enter, effects. apply tidy_say, tidy_say, tidy_leave; [exact Hr1|].
      intros s Hs. apply exits_in in Hs. eapply (chain_parents _ _ _ Hlc); eauto.
Qed.

(** * Deep histories *)
Lemma update_deep_loop_ok from fuel : forall d s d' l,
  (forall r m, d_dyp d r = Some m -> exists en ex p tbl e, nth_error M m = Some (VSubm en ex p tbl e r)) ->
  chain (d_dyp d) (outer M (d_dyp d) s) l -> update_deep_loop M fuel d from s = Ok d' ->
  d_st d' = d_st d /\ d_dyp d' = d_dyp d /\ d_log d' = d_log d /\
  forall h, d_hist d' h = if existsb (has_deep M h) l then Some from else d_hist d h.
Proof.
  induction fuel as [| f IH]; intros d s d' l Hd Hc H; destruct s as [q|]; cbn [update_deep_loop] in H.
  1: discriminate.
  1, 3: injection H as <-; inversion Hc; subst; auto.
  apply bind_ok in H as (y & Hy%vx_ok & H). cbn [outer] in Hc. unfold is_rsm in Hc. rewrite Hy in Hc.
  destruct y; try discriminate.
  - inversion Hc as [| s' p l' Hp Hl]; subst. unfold parent_of in Hp. rewrite Hy in Hp. injection Hp as <-.
    assert (forall d1, d_dyp d1 = d_dyp d -> update_deep_loop M f d1 from parent = Ok d' ->
       d_st d' = d_st d1 /\ d_dyp d' = d_dyp d1 /\ d_log d' = d_log d1 /\
       forall h, d_hist d' h = if existsb (has_deep M h) l' then Some from else d_hist d1 h) as G.
    { intros d1 E1 H1. eapply IH; [| | exact H1]; rewrite E1; [exact Hd | exact Hl]. }
    assert (forall h, d_hist d' h = (if existsb (has_deep M h) l' then Some from else d_hist d h) -> has_deep M h q = false ->
       d_hist d' h = if existsb (has_deep M h) (q :: l') then Some from else d_hist d h) as K.
    { intros h E1 E2. cbn [existsb]. rewrite E2. exact E1. }
    destruct hist as [hq|].
    + apply bind_ok in H as (z & Hz%vx_ok & H).
      assert (forall h, has_deep M h q = (h =? hq)%nat && match z with VHist true _ _ => true | _ => false end) as HD.
      { intros h. unfold has_deep. rewrite Hy. destruct (Nat.eqb_spec h hq) as [-> |]; [| reflexivity]. rewrite Hz. reflexivity. }
      destruct z; try discriminate.
      * destruct deep.
        -- destruct (G (set_hist d hq (Some from)) eq_refl H) as (E1 & E2 & E3 & E4). cbn in E1, E2, E3. repeat split; auto.
           intros h. cbn [existsb]. rewrite HD, andb_true_r, E4. cbn. unfold fupd.
           destruct (h =? hq)%nat; cbn; destruct (existsb (has_deep M h) l'); reflexivity.
        -- destruct (G _ eq_refl H) as (E1 & E2 & E3 & E4). repeat split; auto. intros h. apply K; [apply E4|]. rewrite HD, andb_false_r. reflexivity.
      * destruct (G _ eq_refl H) as (E1 & E2 & E3 & E4). repeat split; auto. intros h. apply K; [apply E4|]. rewrite HD, andb_false_r. reflexivity.
    + destruct (G _ eq_refl H) as (E1 & E2 & E3 & E4). repeat split; auto. intros h. apply K; [apply E4|]. unfold has_deep. rewrite Hy. reflexivity.
  - apply bind_ok in H as (z & Hz & H). apply vxo_ok in Hz as (m & Em & Hm). rewrite Em in Hc.
    inversion Hc as [| s' p l' Hp Hl]; subst. apply bind_ok in H as (p' & Hp' & H).
    pose proof (st_parent_ok _ _ _ _ Hm Hp') as Hp2. assert (p' = p) by congruence; subst p'.
    destruct (IH _ _ _ _ Hd Hl H) as (E1 & E2 & E3 & E4). repeat split; auto. intros h. rewrite E4. cbn [existsb].
    assert (has_deep M h m = false) as ->; [| reflexivity].
    destruct (Hd _ _ Em) as (en & ex & pp & tbl & e & Hm'). unfold has_deep. rewrite Hm'. reflexivity.
Qed.

Lemma update_deep_ok fuel d s d' : tidy_ram M d -> is_leaf M s = true -> update_deep M fuel d (Some s) = Ok d' ->
  rested M d s (say (set_st d' (Some s)) [XState s]).
Proof.
  intros Hr Hs H. unfold update_deep in H. apply bind_ok in H as (x & Hx & H). cbn in Hx. apply vx_ok in Hx.
  apply bind_ok in H as (p & Hp & H). pose proof (st_parent_ok _ _ _ _ Hx Hp) as Hp'.
  destruct (chain_ex M rank T (d_dyp d) (tr_dyp _ _ Hr) s (leaf_parent _ Hs)) as [l Hl].
  exists l. split; [exact Hl|]. inversion Hl as [| s' p' l' Hp2 Hl2]; subst. assert (p' = p) by congruence; subst p'.
  destruct (update_deep_loop_ok _ _ _ _ _ _ (tr_dyp _ _ Hr) Hl2 H) as (E1 & E2 & E3 & E4). cbn. rewrite E2, E3. auto.
Qed.

(** * Invariance *)
Lemma default_keeps pe d q o : default pe d q o -> tidy_ram M d -> is_target M q = true ->
  match o with
  | Arrived d' s => tidy_ram M d' /\ is_leaf M s = true /\ d_st d' = d_st d
  | Failed d' _ => tidy_ram M d' /\ d_st d' = d_st d
  end.
Proof.
  induction 1 as [d s Hs | d q en ex p tbl v ia h d1 t l b es o Hq Hroom Hsegs Ht Hb Hd IH
                 | d q en ex p tbl v ia h p1 r d1 Hq Hroom Hsegs Hf | d q en ex p tbl dc ia h Hq Hroom Hc]; intros Hr Hq0.
  - auto.
  - assert (is_rsm M v = false) as Hv by (eapply (ty_tgt _ _ T q); [exact Hq | left; reflexivity]).
    destruct (segs_ram c M grd rank T _ _ _ Hsegs Hr Hv) as (_ & Hr1 & _). cbn in Hr1.
    destruct (segs_keeps _ _ _ _ _ _ Hsegs) as (E & _ & _). cbn in E.
    specialize (IH ltac:(unfold enter, effects; apply tidy_say, tidy_say, Hr1) Ht).
    unfold enter, effects in IH. cbn in IH. rewrite E in IH. exact IH.
  - assert (is_rsm M v = false) as Hv by (eapply (ty_tgt _ _ T q); [exact Hq | left; reflexivity]).
    destruct (segs_ram c M grd rank T _ _ _ Hsegs Hr Hv) as (_ & Hr1 & _). cbn in Hr1.
    destruct (segs_keeps _ _ _ _ _ _ Hsegs) as (E & _ & _). cbn in E.
    destruct (fails_keeps _ _ _ _ _ _ _ Hf) as (E2 & _ & _).
    split; [eapply fails_ram; eauto | congruence].
  - auto.
Qed.
Lemma fire_keeps pe d cs src v a o : fire c M grd pe d cs src v a o -> tidy_ram M d -> is_rsm M v = false ->
  match o with
  | Arrived d' s => tidy_ram M d' /\ is_leaf M s = true /\ d_st d' = d_st d
  | Failed d' _ => tidy_ram M d' /\ d_st d' = d_st d
  end.
Proof.
  intros H Hr Hv. pose proof (tidy_say d [XTrn src (Some v)] Hr) as Hr0.
  inversion H as [d1 ts l b lc lt o' Hsegs Hroom Ht Hlc Hlt Hin Hd | p1 r d1 Hsegs Hroom Hf
                 | d1 ts l b lt Hsegs Hroom Ht Hc Hne Hlt Hdep | Hroom Hc]; subst.
  - destruct (segs_ram c M grd rank T _ _ _ Hsegs Hr0 Hv) as (_ & Hr1 & _). cbn in Hr1.
    destruct (segs_keeps _ _ _ _ _ _ Hsegs) as (E & _ & _). cbn in E.
    apply default_keeps in Hd; [| | exact Ht].
    + unfold enter, effects in Hd. cbn in Hd. rewrite leave_st, E in Hd. exact Hd.
    + unfold enter, effects. apply tidy_say, tidy_say, tidy_leave; [exact Hr1|].
      intros s Hs. apply exits_in in Hs. eapply (chain_parents _ _ _ Hlc); eauto.
  - destruct (segs_ram c M grd rank T _ _ _ Hsegs Hr0 Hv) as (_ & Hr1 & _).
    destruct (segs_keeps _ _ _ _ _ _ Hsegs) as (E & _ & _). cbn in E.
    destruct (fails_keeps _ _ _ _ _ _ _ Hf) as (E2 & _ & _).
    split; [eapply fails_ram; eauto | congruence].
  - destruct (segs_ram c M grd rank T _ _ _ Hsegs Hr0 Hv) as (_ & Hr1 & _).
    destruct (segs_keeps _ _ _ _ _ _ Hsegs) as (E & _ & _). cbn in E. auto.
  - auto.
Qed.
Lemma rested_ram d s d' : rested M d s d' -> tidy_ram M d -> is_leaf M s = true -> tidy_ram M d'.
Proof.
  intros (anc & _ & _ & E1 & _ & E2) [H1 H2] Hs. constructor.
  - intros h x. rewrite E2. destruct (existsb _ _); [| apply H1]. injection 1 as <-.
    unfold is_leaf in Hs. unfold is_rsm. destruct (nth_error M s) as [[]|]; congruence.
  - rewrite E1. exact H2.
Qed.

Lemma selected_tgt pe d l s t d' v : selected M grd pe d l s t d' -> t_tgt t = Some v -> is_rsm M v = false.
Proof.
  intros (inn & out & dm & _ & _ & F) E. apply first_in in F. apply filter_In in F as [F _].
  unfold table_of in F. destruct (nth_error M s) as [x|] eqn:Hx; [| destruct F].
  eapply (ty_tgt _ _ T s); [exact Hx|]. destruct x; cbn in F; try destruct F; cbn; rewrite ?in_app_iff;
    try right; eapply tgt_in; eauto.
Qed.
Lemma selected_ram pe d l s t d' : selected M grd pe d l s t d' -> exists x, d' = say d x.
Proof.
  intros (inn & out & dm & _ & D & F). destruct (denied_ram _ _ _ _ _ D) as [x ->]. destruct (first_ram _ _ _ _ _ _ F) as [y ->].
  rewrite say_say. eauto.
Qed.

(** What holds between events: tidy RAM, and the machine rests in a leaf. *)
Definition resting (d : dyn) : Prop := tidy_ram M d /\ exists s, d_st d = Some s /\ is_leaf M s = true.

(** * One turn *)
Lemma round_ok fuel d pe al se r : resting d -> length al = sm_segs c -> length se = sm_depth c ->
  round c M grd fuel d None pe al se = Ok r ->
  match r with
  | Stop e d' => step c M grd pe d (Error d' e)
  | Go (d', true) => step c M grd pe d (Chained d')
  | Go (d', false) => step c M grd pe d (Rest d')
  end.
Proof.
  intros [Hr (cs & Ecs & Hcs)] Hal Hse H. unfold round in H. rewrite Ecs in H.
  destruct (chain_ex M rank T (d_dyp d) (tr_dyp _ _ Hr) cs (leaf_parent _ Hcs)) as [l Hl].
  apply bind_ok in H as (r0 & H0 & H). apply bind_ok in H0 as ([d1 r1] & Hf & H0).
  apply (find_up_ok _ _ _ _ _ _ _ _ _ Hf) in Hl as Hsel.
  destruct r1 as [[src t]|].
  2: { injection H0 as <-. injection H as <-. eapply step_none; eauto. }
  injection H0 as <-. destruct (t_tgt t) as [v|] eqn:Et.
  - pose proof (selected_tgt _ _ _ _ _ _ _ Hsel Et) as Hv. destruct (selected_ram _ _ _ _ _ _ Hsel) as [x ->].
    apply bind_ok in H as (r2 & Hd & H).
    eapply (descend_fire pe fuel (say d x) cs src v) in Hd; auto using tidy_say, leaf_parent.
    destruct r2 as [[[d2 stn] isc] | e d2].
    + destruct Hd as (s & -> & Hfire & ->). destruct (fire_keeps _ _ _ _ _ _ _ Hfire (tidy_say _ _ Hr) Hv) as (Hr2 & Hs & _).
      apply bind_ok in H as (d3 & Hdeep & H). injection H as <-. apply (update_deep_ok _ _ _ _ Hr2 Hs) in Hdeep.
      destruct (completes c M s) eqn:Ec; eapply step_fire; eauto; cbn; eexists; (split; [exact Hdeep|]); rewrite Ec; reflexivity.
    + injection H as <-. eapply step_fire; eauto. reflexivity.
  - apply bind_ok in H as (r2 & Ha & H).
    apply (add_action_ok c _ _ []) in Ha; [| constructor; cbn; auto; lia].
    destruct r2 as [[al1 nal]|].
    + destruct Ha as [Hroom Ha]. apply bind_ok in H as (d2 & Hx & H). apply (exec_acts_ok c _ _ _ _ _ _ Ha) in Hx.
      injection H as <-. subst d2. eapply step_internal; eauto.
    + apply error_ok in H as [Hc ->]. eapply step_internal_full; eauto.
Qed.

Lemma descend_create pe fuel d v a al se isc r :
  is_rsm M v = false -> tidy_ram M d -> length al = sm_segs c -> length se = sm_depth c ->
  descend c M grd fuel false None pe a (mkW (say d [XTrn v (Some v)]) (Some v) al 0 (Some v) se 0) isc = Ok r ->
  match r with
  | Stop e d' => create c M grd pe d v a (Error d' e)
  | Go (d', stn, isc') => exists s, stn = Some s /\ isc' = completes c M s /\ tidy_ram M d' /\ is_leaf M s = true /\
      exists d1 ts l b es, segs pe (mkP (say d [XTrn v (Some v)]) v (act1 a) v) (mkP d1 ts l b) /\ room c [] /\ is_target M ts = true /\
        below M None (Some ts) es /\ default pe (enter M (rev es) (effects pe l d1)) ts (Arrived d' s)
  end.
Proof.
  intros Hv Hr Hal Hse H. destruct fuel as [| f]; [discriminate|]. cbn [descend] in H.
  apply bind_ok in H as (r1 & Ha & H).
  apply (add_action_ok c _ _ []) in Ha; [| constructor; cbn; auto; lia].
  destruct r1 as [[al1 nal]|].
  2: { apply error_ok in H as [Hc ->]. eapply create_full; eauto. }
  destruct Ha as [Hroom Hal1]. cbn [app] in Hal1.
  apply bind_ok in H as (r2 & Hw & H).
  eapply (walk_ok c M grd rank T _ _ _ _ (mkP (say d [XTrn v (Some v)]) v (act1 a) v)) in Hw as Hw'.
  2: { constructor; cbn; auto. }
  destruct r2 as [w' | e d1].
  2: { injection H as <-. destruct Hw' as (p' & H1 & H2). eapply create_fail; eauto. }
  destruct Hw' as ([d1 t l b] & Hsegs & Ht & Hap).
  destruct (segs_ram c M grd rank T _ _ _ Hsegs (tidy_say _ _ Hr) Hv) as (Ht2 & Hr1 & _). cbn [p_d p_v p_base] in *.
  rewrite Ht2, orb_false_r in Ht. destruct Hap as [A1 A2 A3 A4 A5]. cbn [p_d p_v p_pend p_base] in *.
  assert (w_nn w' = 0%nat) as Hnn by (apply (walk_nn _ _ _ _ _ _ _ Hw)).
  rewrite A1, A2, Hnn in H.
  apply bind_ok in H as (r3 & He & H). apply bind_ok in He as ([se2 nn] & He & E). injection E as <-.
  destruct (add_target_ok _ _ _ _ _ _ Ht He) as (es & Hes & -> & Hse2 & Hsel). cbn [Nat.add] in H.
  apply bind_ok in H as (d2 & Hx & H). apply (exec_acts_ok c _ _ _ _ _ _ A3) in Hx. subst d2.
  apply bind_ok in H as ([d3 isc3] & Hen & H). apply (exec_entries_ok _ _ _ _ _ _ es) in Hen as [-> ->]; [| exact Hse2 | reflexivity].
  apply bind_ok in H as (stn & Hstn & H). apply rd_ok in Hstn.
  apply bind_ok in H as (x & Hx & H). cbn in Hx. apply vx_ok in Hx.
  set (d4 := enter M (rev es) (effects pe l d1)) in *.
  assert (tidy_ram M d4) as Hr4 by (unfold d4, enter, effects; apply tidy_say, tidy_say, Hr1).
  assert (forall o r, default pe d4 t o -> settle c M o r -> create c M grd pe d v a r) as Hdef.
  { intros o r0 Ho Hr0. eapply create_ok; eauto. }
  destruct (target_cases _ _ Hx Ht) as [Hleaf | (en' & ex' & p' & tbl' & dc' & ia' & h' & ->)].
  - assert (exists es', es = t :: es') as [es' ->] by (inversion Hes; eauto).
    assert (r = Go (d4, stn, completes c M t)) as ->.
    { unfold is_leaf in Hleaf. rewrite Hx in Hleaf. destruct x; try discriminate; injection H as <-; reflexivity. }
    exists t. cbn in Hse2. destruct se2; [discriminate|]. cbn in Hstn. split; [congruence|]. split; [reflexivity|].
    split; [exact Hr4|]. split; [exact Hleaf|]. exists d1, t, l, b, (t :: es'). auto 10 using def_leaf.
  - eapply (descend_default _ _ _ d4 t) in H; [| exact Hx | exact Hr4 | reflexivity | reflexivity | reflexivity | cbn; apply A3 | cbn; congruence].
    destruct r as [[[d' stn'] isc'] | e d']; [| eapply Hdef; [apply H | reflexivity]].
    destruct H as (s & -> & H1 & H2). exists s. split; [reflexivity|]. split; [exact H2|].
    destruct (default_keeps _ _ _ _ H1 Hr4 Ht) as (K1 & K2 & _). split; [exact K1|]. split; [exact K2|].
    exists d1, t, l, b, es. auto 10.
Qed.

Lemma round_create fuel d v a pe al se r : is_rsm M v = false -> tidy_ram M d -> length al = sm_segs c -> length se = sm_depth c ->
  round c M grd fuel d (Some (v, a)) pe al se = Ok r ->
  match r with
  | Stop e d' => create c M grd pe d v a (Error d' e)
  | Go (d', true) => create c M grd pe d v a (Chained d')
  | Go (d', false) => create c M grd pe d v a (Rest d')
  end.
Proof.
  intros Hv Hr Hal Hse H. unfold round in H. cbn [bind] in H.
  apply bind_ok in H as (r2 & Hd & H). eapply descend_create in Hd; eauto.
  destruct r2 as [[[d2 stn] isc] | e d2]; [| injection H as <-; exact Hd].
  destruct Hd as (s & -> & -> & Hr2 & Hs & d1 & ts & l & b & es & C1 & C2 & C3 & C4 & C5).
  assert (forall r, settle c M (Arrived d2 s) r -> create c M grd pe d v a r) as Hc by (intros r0 Hset; eapply create_ok; eauto).
  apply bind_ok in H as (d3 & Hdeep & H). injection H as <-. apply (update_deep_ok _ _ _ _ Hr2 Hs) in Hdeep.
  destruct (completes c M s) eqn:Ec; apply Hc; cbn; eexists; (split; [exact Hdeep|]); rewrite Ec; reflexivity.
Qed.

Lemma settle_rest o r : settle c M o r ->
  match o with Arrived d s => tidy_ram M d /\ is_leaf M s = true | Failed d _ => tidy_ram M d end ->
  match r with Rest d | Chained d => resting d | Error d _ => tidy_ram M d end.
Proof.
  destruct o as [d s | d e]; cbn.
  - intros (d' & Hd & ->) [Hr Hs]. assert (resting d') as G; [| destruct (completes c M s); exact G].
    split; [eapply rested_ram; eauto|]. exists s. split; [| exact Hs]. destruct Hd as (anc & _ & E & _). exact E.
  - intros -> Hr. exact Hr.
Qed.
Lemma step_rest pe d r : step c M grd pe d r -> resting d ->
  match r with Rest d' | Chained d' | Error d' _ => resting d' end /\
  match r with Error d' _ => d_st d' = d_st d | _ => True end.
Proof.
  intros H [Hr (s0 & Es & Hs)].
  assert (forall x, resting (say d x)) as K by (intros x; split; [apply tidy_say, Hr | exists s0; auto]).
  inversion H as [cs l d' Ecs Hl Hn | cs l src t d1 Ecs Hl Hsel Et Hroom | cs l src t d1 Ecs Hl Hsel Et Hroom Hc
                 | cs l src t d1 v o r' Ecs Hl Hsel Et Hfire Hset]; subst.
  - destruct (denied_ram _ _ _ _ _ Hn) as [x ->]. split; [apply K | reflexivity].
  - destruct (selected_ram _ _ _ _ _ _ Hsel) as [x ->]. unfold effects. rewrite !say_say. split; [apply K | exact I].
  - destruct (selected_ram _ _ _ _ _ _ Hsel) as [x ->]. rewrite say_say. split; [apply K | reflexivity].
  - pose proof (selected_tgt _ _ _ _ _ _ _ Hsel Et) as Hv. destruct (selected_ram _ _ _ _ _ _ Hsel) as [x ->].
    pose proof (fire_keeps _ _ _ _ _ _ _ Hfire (tidy_say _ _ Hr) Hv) as F.
    pose proof (settle_rest _ _ Hset) as G. destruct o as [d1 s1 | d1 e].
    + destruct F as (F1 & F2 & F3). specialize (G (conj F1 F2)). cbn in Hset. destruct Hset as (d' & _ & ->).
      destruct (completes c M s1); (split; [exact G | exact I]).
    + destruct F as [F1 F2]. cbn in Hset. subst r. cbn in F2. split; [| exact F2]. split; [exact F1 | exists s0; rewrite F2; auto].
Qed.
Lemma create_rest pe d v a r : create c M grd pe d v a r -> tidy_ram M d -> is_rsm M v = false ->
  match r with Rest d' | Chained d' => resting d' | Error d' _ => tidy_ram M d' /\ d_st d' = d_st d end.
Proof.
  intros H Hr Hv. pose proof (tidy_say d [XTrn v (Some v)] Hr) as Hr0.
  inversion H as [d1 ts l b es o r' Hsegs Hroom Ht Hb Hd Hset | p1 r' d1 Hsegs Hroom Hf | Hroom Hc]; subst.
  - destruct (segs_ram c M grd rank T _ _ _ Hsegs Hr0 Hv) as (_ & Hr1 & _). cbn in Hr1.
    destruct (segs_keeps _ _ _ _ _ _ Hsegs) as (E & _ & _). cbn in E.
    apply default_keeps in Hd; [| unfold enter, effects; apply tidy_say, tidy_say, Hr1 | exact Ht].
    pose proof (settle_rest _ _ Hset) as G. destruct o as [d2 s2 | d2 e].
    + destruct Hd as (F1 & F2 & F3). specialize (G (conj F1 F2)). cbn in Hset. destruct Hset as (d' & _ & ->).
      destruct (completes c M s2); exact G.
    + destruct Hd as [F1 F2]. cbn in Hset. subst r. split; [exact F1|]. rewrite F2. unfold enter, effects. cbn. congruence.
  - destruct (segs_ram c M grd rank T _ _ _ Hsegs Hr0 Hv) as (_ & Hr1 & _).
    destruct (segs_keeps _ _ _ _ _ _ Hsegs) as (E & _ & _). cbn in E.
    destruct (fails_keeps _ _ _ _ _ _ _ Hf) as (E2 & _ & _).
    split; [eapply fails_ram; eauto | congruence].
  - auto.
Qed.

(** * A dispatch *)
Lemma complete_ok fuel : forall d isc ars k d' e, resting d ->
  (forall k, length (fst (ars k)) = sm_segs c /\ length (snd (ars k)) = sm_depth c) ->
  complete c M grd fuel d isc ars k = Ok (d', e) -> finish c M grd (if isc then Chained d else Rest d) d' e.
Proof.
  induction fuel as [| f IH]; intros d isc ars k d' e Hr Ha H; destruct isc; cbn [complete] in H; try discriminate.
  1, 3: injection H as <- <-; constructor.
  apply bind_ok in H as (r & H1 & H). destruct (Ha k) as [Ha1 Ha2].
  pose proof (round_ok _ _ _ _ _ _ Hr Ha1 Ha2 H1) as G. destruct r as [[d1 isc] | e1 d1].
  - destruct isc; (destruct (step_rest _ _ _ G Hr) as [Hr1 _]); apply (IH _ _ _ _ _ _ Hr1 Ha) in H; econstructor; eauto.
  - injection H as <- <-. econstructor; [exact G | constructor].
Qed.

Lemma dispatch_ok fuel istate iact d pe ars d' e :
  is_rsm M istate = false -> (forall k, length (fst (ars k)) = sm_segs c /\ length (snd (ars k)) = sm_depth c) ->
  (if (ev_sig pe =? sm_any c - 2)%N then tidy_ram M d else resting d) ->
  dispatch c M grd fuel istate iact d pe ars = Ok (d', e) -> uml_dispatch c M grd istate iact d pe d' e.
Proof.
  intros Hi Ha Hd H. unfold dispatch, sig_creation in H. destruct (Ha O) as [Ha1 Ha2]. unfold uml_dispatch.
  destruct (ev_sig pe =? sm_any c - 2)%N.
  - apply bind_ok in H as (r & H1 & H). pose proof (round_create _ _ _ _ _ _ _ _ Hi Hd Ha1 Ha2 H1) as G.
    destruct r as [[d1 isc] | e1 d1].
    + exists (if isc then Chained d1 else Rest d1). split; [destruct isc; exact G|].
      assert (resting d1) by (destruct isc; apply (create_rest _ _ _ _ _ G Hd Hi)). eapply complete_ok; eauto.
    + injection H as <- <-. exists (Error d1 e1). split; [exact G | constructor].
  - apply bind_ok in H as (r & H1 & H). pose proof (round_ok _ _ _ _ _ _ Hd Ha1 Ha2 H1) as G.
    destruct r as [[d1 isc] | e1 d1].
    + exists (if isc then Chained d1 else Rest d1). split; [destruct isc; exact G|].
      assert (resting d1) by (destruct isc; apply (step_rest _ _ _ G Hd)). eapply complete_ok; eauto.
    + injection H as <- <-. exists (Error d1 e1). split; [exact G | constructor].
Qed.
End Sm.
