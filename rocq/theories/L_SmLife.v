(** Two dispatches that start with different logs, and possibly different states,
    side by side. *)
From Verif Require Import Base L_Base M_Sm S_Sm S_SmWf S_SmRun L_SmArr.

Section Life.
Context (c : smcfg) (M : machine) (grd : nat -> evt -> list xev -> bool).
Context (Hblind : forall g e l1 l2, grd g e l1 = grd g e l2).
Context (p1 p2 : list xev).

(** The same histories and dynamic parents, the same added to the logs; with [b]
    also the same state. *)
Definition al (b : bool) (d1 d2 : dyn) : Prop :=
  (b = true -> d_st d1 = d_st d2) /\ (forall h, d_hist d1 h = d_hist d2 h) /\ (forall r, d_dyp d1 r = d_dyp d2 r) /\
  exists x, d_log d1 = p1 ++ x /\ d_log d2 = p2 ++ x.
Definition cal {A} (b : bool) (R : A -> A -> Prop) (x y : ctl A) : Prop :=
  match x, y with Go a, Go b => R a b | Stop r d, Stop r' d' => (r = r' /\ r <> EVT_PROC) /\ al b d d' | _, _ => False end.
Definition wal (b : bool) (w1 w2 : wst) : Prop :=
  al b (w_d w1) (w_d w2) /\ w_ets w1 = w_ets w2 /\ w_al w1 = w_al w2 /\ w_nal w1 = w_nal w2 /\ w_stn w1 = w_stn w2 /\
  w_se w1 = w_se w2 /\ w_nn w1 = w_nn w2.

Ltac stp := cbn; split; [split; [reflexivity|first [discriminate|assumption]]|assumption].

Lemma al_say b d1 d2 x : al b d1 d2 -> al b (say d1 x) (say d2 x).
Proof.
  intros (A & B & C & y & E1 & E2). split; [exact A|]. split; [exact B|]. split; [exact C|]. exists (y ++ x).
  cbn [say d_log]. rewrite E1, E2, !app_assoc. auto.
Qed.
Lemma al_hist b d1 d2 h s : al b d1 d2 -> al b (set_hist d1 h s) (set_hist d2 h s).
Proof.
  intros (A & B & C & D). split; [exact A|]. split; [|split; [exact C|exact D]]. intros k. cbn [set_hist d_hist]. unfold fupd.
  destruct (Nat.eqb _ _); auto.
Qed.
Lemma al_dyp b d1 d2 h s : al b d1 d2 -> al b (set_dyp d1 h s) (set_dyp d2 h s).
Proof.
  intros (A & B & C & D). split; [exact A|]. split; [exact B|]. split; [|exact D]. intros k. cbn [set_dyp d_dyp]. unfold fupd.
  destruct (Nat.eqb _ _); auto.
Qed.
Lemma al_st b b' d1 d2 s : al b d1 d2 -> al b' (set_st d1 s) (set_st d2 s).
Proof. intros (A & B & C & D). split; [reflexivity|]. auto. Qed.
Lemma al_guard b d1 d2 g pe : al b d1 d2 ->
  al b (fst (exec_guard grd d1 g pe)) (fst (exec_guard grd d2 g pe)) /\ snd (exec_guard grd d1 g pe) = snd (exec_guard grd d2 g pe).
Proof. intros H. unfold exec_guard. rewrite (Hblind g pe (d_log d1) (d_log d2)). cbn [fst snd]. auto using al_say. Qed.
Lemma al_trn b pe sig tbl : forall d1 d2, al b d1 d2 ->
  al b (fst (find_trn grd d1 pe tbl sig)) (fst (find_trn grd d2 pe tbl sig)) /\ snd (find_trn grd d1 pe tbl sig) = snd (find_trn grd d2 pe tbl sig).
Proof.
  induction tbl as [|t r IH]; intros d1 d2 H; cbn [find_trn]; [auto|]. destruct (t_evt t =? sig)%N; [|auto]. destruct (t_grd t) as [g|]; [|auto].
  destruct (al_guard b d1 d2 g pe H) as [H1 H2]. destruct (exec_guard grd d1 g pe), (exec_guard grd d2 g pe). cbn [fst snd] in *. subst.
  match goal with |- context [if ?b then _ else _] => destruct b end; auto.
Qed.
Lemma al_branch b pe tbl : forall d1 d2, al b d1 d2 ->
  al b (fst (find_branch grd d1 pe tbl)) (fst (find_branch grd d2 pe tbl)) /\ snd (find_branch grd d1 pe tbl) = snd (find_branch grd d2 pe tbl).
Proof.
  induction tbl as [|t r IH]; intros d1 d2 H; cbn [find_branch]; [auto|]. destruct (t_grd t) as [g|]; [|auto].
  destruct (al_guard b d1 d2 g pe H) as [H1 H2]. destruct (exec_guard grd d1 g pe), (exec_guard grd d2 g pe). cbn [fst snd] in *. subst.
  match goal with |- context [if ?b then _ else _] => destruct b end; auto.
Qed.
Lemma al_parent b d1 d2 s : al b d1 d2 -> update_parent M d1 s = update_parent M d2 s.
Proof.
  intros (_ & _ & C & _). unfold update_parent. destruct (vx M s) as [x|]; [|reflexivity]. cbn [bind]. destruct (st_parent x) as [[q|]|]; try reflexivity.
  cbn [bind]. destruct (vx M q) as [y|]; [|reflexivity]. cbn [bind]. destruct y; try reflexivity. now rewrite C.
Qed.
Lemma al_up b pe : forall fuel stn d1 d2, al b d1 d2 ->
  rrel (fun x y => al b (fst x) (fst y) /\ snd x = snd y) (find_up M grd fuel d1 stn pe) (find_up M grd fuel d2 stn pe).
Proof.
  induction fuel as [|f IH]; intros stn d1 d2 H; cbn [find_up]; destruct stn as [s|]; try (cbn; auto; fail).
  apply bind_same. intros x. apply bind_same. intros tbl.
  destruct (al_trn b pe (ev_sig pe) tbl d1 d2 H) as [H1 H2]. destruct (find_trn grd d1 pe tbl (ev_sig pe)) as [e1 o1], (find_trn grd d2 pe tbl (ev_sig pe)) as [e2 o2].
  cbn [fst snd] in *. subst o2. destruct o1 as [t|]; [cbn; auto|]. rewrite (al_parent b e1 e2 s H1). apply bind_same. intros p. now apply IH.
Qed.
Lemma al_acts b l pe : forall n i d1 d2, al b d1 d2 -> rrel (al b) (exec_acts l i n d1 pe) (exec_acts l i n d2 pe).
Proof.
  induction n as [|n IH]; intros i d1 d2 H; cbn [exec_acts]; [exact H|]. apply bind_same. intros a. apply IH. now apply al_say.
Qed.
Lemma al_error {A} b (R : A -> A -> Prop) line r d1 d2 : r <> EVT_PROC -> al b d1 d2 -> rrel (cal b R) (error c line r d1) (error c line r d2).
Proof. intros Hr H. unfold error. destruct (rassert (sm_asrt c) line false); cbn; auto. Qed.
Lemma wal_seg b w1 w2 d1 d2 ets x : wal b w1 w2 -> al b d1 d2 -> wal b (w_seg w1 d1 ets x) (w_seg w2 d2 ets x).
Proof. intros (H1 & H2 & H3 & H4 & H5 & H6 & H7) H. repeat split; cbn; auto; apply H. Qed.
Lemma wal_micro b fuel micro w1 w2 : wal b w1 w2 -> rrel (wal b) (micro_targets M fuel micro w1) (micro_targets M fuel micro w2).
Proof.
  intros H. pose proof H as (H1 & H2 & H3 & H4 & H5 & H6 & H7). unfold micro_targets. destruct micro; [|exact H].
  rewrite H2, H5, H6. apply bind_same. intros [se nn]. unfold rrel, wal. cbn. auto 10.
Qed.
Lemma wal_branch b fuel micro pe w1 w2 tbl : wal b w1 w2 ->
  rrel (cal b (wal b)) (branch c M grd fuel micro pe w1 tbl) (branch c M grd fuel micro pe w2 tbl).
Proof.
  intros H. pose proof H as (H1 & H2 & H3 & H4 & H5 & H6 & H7). unfold branch.
  destruct (al_branch b pe tbl _ _ H1) as [A1 A2]. destruct (find_branch grd (w_d w1) pe tbl) as [e1 o1], (find_branch grd (w_d w2) pe tbl) as [e2 o2].
  cbn [fst snd] in *. subst o2. destruct o1 as [t|]; [|stp]. rewrite H3, H4. apply bind_same. intros [an|]; [|apply al_error; [discriminate|assumption]].
  eapply bind_rel; [apply (wal_micro b); now apply wal_seg|]. intros x y Hxy. exact Hxy.
Qed.
Lemma wal_pseudo b fuel micro pe w1 w2 : wal b w1 w2 ->
  rrel (orel (cal b (wal b))) (pseudo c M grd fuel micro pe w1) (pseudo c M grd fuel micro pe w2).
Proof.
  intros H. pose proof H as (H1 & H2 & H3 & H4 & H5 & H6 & H7). unfold pseudo. rewrite H2. apply bind_same. intros x.
  assert (forall (x y : ctl wst), cal b (wal b) x y -> rrel (orel (cal b (wal b))) (Ok (Some x)) (Ok (Some y))) as Some_rel by (cbn; auto).
  assert (forall line r d1 d2, r <> EVT_PROC -> al b d1 d2 -> rrel (orel (cal b (wal b))) (do e <- error c line r d1; Ok (Some e)) (do e <- error c line r d2; Ok (Some e))) as Err_rel.
  { intros line r d1 d2 Hr Hd. eapply bind_rel; [apply (al_error b (wal b) line r _ _ Hr Hd)|]. intros x1 y1 Hab. apply Some_rel, Hab. }
  destruct x; try exact I.
  - apply bind_same. intros y. destruct y; try reflexivity. rewrite H3, H4. apply bind_same. intros [an|]; [|apply Err_rel; [discriminate|now apply al_dyp]].
    apply Some_rel. cbn [cal]. apply wal_seg; [exact H|now apply al_dyp].
  - eapply bind_rel; [apply (wal_branch b); exact H|]. intros x y Hab. apply Some_rel, Hab.
  - rewrite H3, H4. eapply bind_rel; [apply (al_acts b); exact H1|]. intros e1 e2 He.
    eapply bind_rel; [apply (wal_branch b)|]. { unfold wal; cbn; auto 10. } intros x y Hab. apply Some_rel, Hab.
  - apply bind_same. intros u. destruct (w_ets w2) as [v|]; [|reflexivity]. cbn zeta. cbn [w_d w_ets w_al w_nal w_stn w_se w_nn].
    rewrite H3, H4, H6, H7.
    set (v1 := mkW (w_d w1) (Some v) (w_al w2) (w_nal w2) parent (w_se w2) (w_nn w2)).
    set (v2 := mkW (w_d w2) (Some v) (w_al w2) (w_nal w2) parent (w_se w2) (w_nn w2)).
    assert (wal b v1 v2) as V by (unfold wal; cbn; auto 10).
    eapply bind_rel with (R := cal b (wal b)).
    + rewrite (proj1 (proj2 H1) v). destruct (d_hist (w_d w2) v) as [s|]; [cbn [rrel cal]; apply wal_seg; auto|].
      destruct (t_tgt dft) as [t|]; [| cbn [rrel cal]; apply wal_seg; auto].
      assert (al b (fst (match t_grd dft with Some g => exec_guard grd (w_d w1) g pe | None => (w_d w1, true) end))
                   (fst (match t_grd dft with Some g => exec_guard grd (w_d w2) g pe | None => (w_d w2, true) end)) /\
              snd (match t_grd dft with Some g => exec_guard grd (w_d w1) g pe | None => (w_d w1, true) end) =
              snd (match t_grd dft with Some g => exec_guard grd (w_d w2) g pe | None => (w_d w2, true) end)) as [G1 G2].
      { destruct (t_grd dft); [now apply al_guard|auto]. }
      destruct (match t_grd dft with Some g => exec_guard grd (w_d w1) g pe | None => (w_d w1, true) end) as [e1 b1].
      destruct (match t_grd dft with Some g => exec_guard grd (w_d w2) g pe | None => (w_d w2, true) end) as [e2 b2].
      cbn [fst snd] in *. subst b2. destruct b1; [|stp]. apply bind_same. intros [an|]; [|apply al_error; [discriminate|assumption]]. cbn [rrel cal]. now apply wal_seg.
    + intros [x|r d] [y|r' d']; cbn [cal]; try contradiction; [| intros [[<- Hr] He]; stp].
      intros Hab. eapply bind_rel; [apply (wal_micro b); exact Hab|]. intros x0 y0 Hxy. apply Some_rel, Hxy.
  - apply bind_same. intros y. destruct y; try reflexivity. apply bind_same. intros y. destruct y; try reflexivity. rewrite H3, H4.
    apply bind_same. intros [an|]; [|apply Err_rel; [discriminate|now apply al_dyp]]. apply Some_rel. cbn [cal]. apply wal_seg; [exact H|now apply al_dyp].
  - apply bind_same. intros y. destruct y; try reflexivity. rewrite (proj1 (proj2 (proj2 H1)) rsm). apply bind_same. intros y. destruct y; try reflexivity.
    apply bind_same. intros [act tgt]. rewrite H3, H4. apply bind_same. intros [an|]; [|apply Err_rel; [discriminate|assumption]]. apply Some_rel. cbn [cal]. now apply wal_seg.
  - apply Err_rel; [discriminate|assumption].
Qed.
Lemma wal_walk b micro pe : forall fuel w1 w2, wal b w1 w2 ->
  rrel (cal b (wal b)) (walk c M grd fuel micro pe w1) (walk c M grd fuel micro pe w2).
Proof.
  induction fuel as [|f IH]; intros w1 w2 H; cbn [walk]; [reflexivity|].
  eapply bind_rel; [apply (wal_pseudo b); exact H|]. intros [[x|r d]|] [[y|r' d']|]; cbn [orel cal]; try contradiction; auto.
Qed.
Lemma al_shallow b d1 d2 s : al b d1 d2 -> rrel (al b) (update_shallow M d1 s) (update_shallow M d2 s).
Proof.
  intros H. unfold update_shallow. apply bind_same. intros x. apply bind_same. intros [q|]; [|exact H]. apply bind_same. intros y.
  destruct y; try exact H. destruct hist as [h|]; [|exact H]. apply bind_same. intros z. destruct z; try reflexivity; [|exact H].
  destruct deep; [exact H|]. now apply al_hist.
Qed.
Lemma al_list b d1 d2 stx : al b d1 d2 -> forall fuel stn ix se, entry_list c M fuel d1 stx stn ix se = entry_list c M fuel d2 stx stn ix se.
Proof.
  intros H. induction fuel as [|f IH]; intros stn ix se; cbn [entry_list]; destruct stn as [n|]; try reflexivity.
  destruct (Nat.eqb stx n); [reflexivity|]. destruct (ix <? sm_depth c); [|reflexivity]. destruct (wr se ix (Some n)); [|reflexivity]. cbn [bind].
  rewrite (al_parent b d1 d2 n H). destruct (update_parent M d2 n); [|reflexivity]. cbn [bind]. apply IH.
Qed.
Definition xal (b : bool) (x y : dyn * list (option nat) * nat) : Prop := al b (fst (fst x)) (fst (fst y)) /\ snd (fst x) = snd (fst y) /\ snd x = snd y.
Lemma al_exits b tgt : forall fuel d1 d2 stx ixx se ixn, al b d1 d2 ->
  rrel (cal b (xal b)) (exec_exits c M fuel d1 stx ixx tgt se ixn) (exec_exits c M fuel d2 stx ixx tgt se ixn).
Proof.
  induction fuel as [|f IH]; intros d1 d2 stx ixx se ixn H; cbn [exec_exits]; destruct stx as [s|]; try reflexivity; try (unfold xal; cbn; auto; fail).
  rewrite (al_list b d1 d2 s H). apply bind_same. intros [[[stn ix] se']|]; [|apply al_error; [discriminate|assumption]].
  cbn zeta. destruct (negb _ || _); [|unfold xal; cbn; auto]. apply bind_same. intros x. apply bind_same. intros a.
  eapply bind_rel; [apply (al_shallow b); apply al_say; exact H|]. intros e1 e2 He. destruct stn as [n|].
  - apply bind_same. intros se2. unfold xal; cbn; auto.
  - rewrite (al_parent b e1 e2 s He). apply bind_same. intros p. now apply IH.
Qed.
Lemma al_entries b : forall n se d1 d2 isc, al b d1 d2 ->
  rrel (fun x y => al b (fst x) (fst y) /\ snd x = snd y) (exec_entries c M n se d1 isc) (exec_entries c M n se d2 isc).
Proof.
  induction n as [|n IH]; intros se d1 d2 isc H; cbn [exec_entries]; [cbn; auto|]. apply bind_same. intros s. apply bind_same. intros x.
  apply bind_same. intros a. destruct s as [s|]; [|reflexivity]. apply IH. now apply al_say.
Qed.
Lemma al_deep_loop b from : forall fuel s d1 d2, al b d1 d2 -> rrel (al b) (update_deep_loop M fuel d1 from s) (update_deep_loop M fuel d2 from s).
Proof.
  induction fuel as [|f IH]; intros s d1 d2 H; cbn [update_deep_loop]; destruct s as [q|]; try reflexivity; try exact H.
  apply bind_same. intros y. destruct y; try reflexivity.
  - destruct hist as [h|]; [|now apply IH]. apply bind_same. intros z. destruct z; try reflexivity; [|now apply IH].
    destruct deep; apply IH; [now apply al_hist|exact H].
  - rewrite (proj1 (proj2 (proj2 H)) q). apply bind_same. intros z. apply bind_same. intros p. now apply IH.
Qed.
Lemma al_deep b fuel from d1 d2 : al b d1 d2 -> rrel (al b) (update_deep M fuel d1 from) (update_deep M fuel d2 from).
Proof.
  intros H. unfold update_deep. apply bind_same. intros x. apply bind_same. intros p. destruct from; [|reflexivity]. now apply al_deep_loop.
Qed.
Definition dal (b : bool) (x y : dyn * option nat * bool) : Prop := al b (fst (fst x)) (fst (fst y)) /\ snd (fst x) = snd (fst y) /\ snd x = snd y.
Lemma al_descend b pe cs : forall fuel micro act w1 w2 isc, wal b w1 w2 ->
  rrel (cal b (dal b)) (descend c M grd fuel micro cs pe act w1 isc) (descend c M grd fuel micro cs pe act w2 isc).
Proof.
  induction fuel as [|f IH]; intros micro act w1 w2 isc H; cbn [descend]; [reflexivity|].
  pose proof H as (H1 & H2 & H3 & H4 & H5 & H6 & H7). rewrite H3. apply bind_same. intros [an|]; [|apply al_error; [discriminate|assumption]].
  eapply bind_rel; [apply (wal_walk b)|]. { rewrite H2. now apply wal_seg. }
  intros [x|r d] [y|r' d']; cbn [cal]; try contradiction; [|intros [[<- Hr] He]; stp].
  intros Hw. pose proof Hw as (W1 & W2 & W3 & W4 & W5 & W6 & W7).
  eapply bind_rel with (R := cal b (xal b)).
  - rewrite W2, W5, W6, W7. destruct micro.
    + apply bind_same. intros [se nn]. unfold xal; cbn; auto.
    + destruct cs as [s|]; [now apply al_exits|]. apply bind_same. intros [se n]. unfold xal; cbn; auto.
  - intros [[[d1 s1] n1]|r1 d1] [[[d2 s2] n2]|r2 d2]; cbn [cal]; try contradiction; [|intros [[<- Hr] He]; stp].
    intros (E1 & E2 & E3). cbn [fst snd] in E1, E2, E3. subst s2 n2. rewrite W3, W4.
    eapply bind_rel; [apply (al_acts b); exact E1|]. intros e1 e2 He.
    eapply bind_rel; [apply (al_entries b); exact He|]. intros [g1 i1] [g2 i2] [Hg Hi]. cbn [fst snd] in Hg, Hi. subst i2.
    apply bind_same. intros stn. rewrite W2. apply bind_same. intros xv. destruct xv; try (unfold dal; cbn; auto; fail).
    apply IH. unfold wal; cbn; auto 10.
Qed.

(** One turn.  After the turn that creates the machine the states agree too. *)
Definition ral (x y : dyn * bool) : Prop := al true (fst x) (fst y) /\ snd x = snd y.
Lemma al_round b fuel d1 d2 cr pe l se : al b d1 d2 -> (cr = None -> b = true) -> (b = false -> exists v a, cr = Some (v, a)) ->
  rrel (cal b ral) (round c M grd fuel d1 cr pe l se) (round c M grd fuel d2 cr pe l se).
Proof.
  intros H Hb Hf. unfold round.
  eapply bind_rel with (R := cal b (fun x y => al b (fst (fst (fst (fst x)))) (fst (fst (fst (fst y)))) /\ snd (fst (fst (fst x))) = snd (fst (fst (fst y))) /\
     snd (fst (fst x)) = snd (fst (fst y)) /\ snd (fst x) = snd (fst y) /\ snd x = snd y /\ (b = false -> snd (fst x) <> None))).
  - destruct cr as [[v a]|]; [cbn; repeat split; auto; try apply H; discriminate|].
    rewrite (proj1 H (Hb eq_refl)). destruct (d_st d2) as [s|]; [|reflexivity].
    eapply bind_rel; [apply (al_up b); exact H|]. intros [e1 o1] [e2 o2] [He Ho]. cbn [fst snd] in He, Ho. subst o2. destruct o1 as [[src t]|]; [|stp].
    cbn. repeat split; auto; try apply He. intros Eb. rewrite (Hb eq_refl) in Eb. discriminate.
  - intros [[[[[e1 src] cs] ets] act]|r e1] [[[[[e2 src2] cs2] ets2] act2]|r2 e2]; cbn [cal fst snd]; try contradiction; [|intros [[<- Hr] He]; stp].
    intros (He & <- & <- & <- & <- & Hn). cbn zeta. apply (al_say b _ _ [XTrn src ets]) in He. destruct ets as [t|].
    + eapply bind_rel; [apply (al_descend b)|]. { unfold wal; cbn; auto 10. }
      intros [[[g1 st1] i1]|r g1] [[[g2 st2] i2]|r2 g2]; cbn [cal]; try contradiction; [|intros [[<- Hr] Hg]; stp].
      intros (G1 & G2 & G3). cbn [fst snd] in G1, G2, G3. subst st2 i2. eapply bind_rel; [apply (al_deep b); exact G1|]. intros h1 h2 Hh.
      destruct st1 as [s|]; [|reflexivity]. cbn. split; [|reflexivity]. cbn. apply al_say, (al_st b). exact Hh.
    + assert (b = true) as -> by (destruct b; [reflexivity|]; now destruct (Hn eq_refl)).
      apply bind_same. intros [[a n]|]; [|apply al_error; [discriminate|assumption]]. eapply bind_rel; [apply (al_acts true); exact He|].
      intros h1 h2 Hh. cbn. split; [exact Hh|reflexivity].
Qed.
Lemma al_complete ars : forall fuel d1 d2 isc k, al true d1 d2 ->
  rrel (fun x y => al true (fst x) (fst y) /\ snd x = snd y) (complete c M grd fuel d1 isc ars k) (complete c M grd fuel d2 isc ars k).
Proof.
  induction fuel as [|f IH]; intros d1 d2 isc k H; cbn [complete]; destruct isc; try reflexivity; try (cbn; auto; fail).
  eapply bind_rel; [apply (al_round true); [exact H|auto|discriminate]|].
  intros [[g1 i1]|r g1] [[g2 i2]|r2 g2]; cbn [cal]; try contradiction; [|intros [[<- Hr] Hg]; cbn; auto].
  intros [G1 G2]. cbn [fst snd] in G1, G2. subst i2. now apply IH.
Qed.
Lemma al_dispatch fuel istate iact d1 d2 pe ars : al true d1 d2 ->
  rrel (fun x y => al true (fst x) (fst y) /\ snd x = snd y) (dispatch c M grd fuel istate iact d1 pe ars) (dispatch c M grd fuel istate iact d2 pe ars).
Proof.
  intros H. unfold dispatch. eapply bind_rel; [apply (al_round true); [exact H|auto|discriminate]|].
  intros [[g1 i1]|r g1] [[g2 i2]|r2 g2]; cbn [cal]; try contradiction; [|intros [[<- Hr] Hg]; cbn; auto].
  intros [G1 G2]. cbn [fst snd] in G1, G2. subst i2. now apply al_complete.
Qed.
(** The creation of the machine: the states may differ if it was left half way. *)
Lemma al_init fuel istate iact d1 d2 ars : al false d1 d2 ->
  rrel (fun x y => (al true (fst x) (fst y) \/ al false (fst x) (fst y) /\ snd x <> EVT_PROC) /\ snd x = snd y)
    (sm_init c M grd fuel istate iact d1 ars) (sm_init c M grd fuel istate iact d2 ars).
Proof.
  intros H. unfold sm_init, dispatch. cbn [ev_sig evCreation]. rewrite N.eqb_refl.
  pose proof (al_round false fuel d1 d2 (Some (istate, iact)) (evCreation c) (fst (ars 0)) (snd (ars 0)) H ltac:(discriminate) ltac:(eauto)) as K.
  destruct (round c M grd fuel d1 (Some (istate, iact)) (evCreation c) (fst (ars 0)) (snd (ars 0))) as [[[g1 i1]|r g1]|] eqn:E1;
  destruct (round c M grd fuel d2 (Some (istate, iact)) (evCreation c) (fst (ars 0)) (snd (ars 0))) as [[[g2 i2]|r2 g2]|] eqn:E2; cbn [rrel cal] in K; try contradiction; cbn [bind].
  - destruct K as [G1 G2]. cbn [fst snd] in G1, G2. subst i2. eapply rrel_weak; [apply al_complete; exact G1|]. cbn. intros x y [A B]. auto.
  - cbn. destruct K as [[<- Hr] K]. split; [|reflexivity]. right. auto.
  - exact K.
Qed.
End Life.
