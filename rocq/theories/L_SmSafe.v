(** A well-formed machine is dispatched without undefined behaviour. *)
From Verif Require Import Base L_Base M_Sm S_Sm S_SmWf S_SmRun L_Sm L_SmWalk L_SmStep L_SmWf L_SmKeep.

Lemma bind_safe c {A B} (r : res A) (k : A -> res B) : safe c r -> (forall a, r = Ok a -> safe c (k a)) -> safe c (bind r k).
Proof. destruct r as [a | f]; cbn; auto. Qed.
Lemma error_safe c {A} line r d : In line seg_lines -> safe c (error c (A := A) line r d).
Proof. unfold error, rassert. destruct (sm_asrt c) eqn:E; cbn; auto. Qed.
Lemma wr_safe c {A} (l : list A) i x : (i < length l)%nat -> safe c (wr l i x).
Proof. intros H. rewrite wr_lt by exact H. exact I. Qed.
Lemma rd_safe c {A} (l : list A) i : (i < length l)%nat -> safe c (rd l i).
Proof. intros H. apply rd_lt in H as (x & -> & _). exact I. Qed.
Lemma holds_safe c al nal l act : holds c al nal l -> safe c (add_action c al nal act).
Proof.
  intros [H1 H2 H3 H4]. unfold add_action. destruct (Nat.leb_spec (sm_segs c) nal); [exact I|]. destruct act; [| exact I].
  apply bind_safe; [apply wr_safe; lia | intros; exact I].
Qed.
Lemma acts_safe c pe n : forall al i d, (i + n <= length al)%nat -> safe c (exec_acts al i n d pe).
Proof.
  induction n as [| n IH]; intros al i d H; cbn [exec_acts]; [exact I|]. apply bind_safe; [apply rd_safe; lia|]. intros a _. apply IH. lia.
Qed.

Section Safe.
Context (c : smcfg) (M : machine) (rank : nat -> nat) (home : nat -> option nat).
Context (W : wf_machine c M rank home = true).
Notation ram_ok := (ram_ok c M home).
Notation machine_ok := (machine_ok c M home).
Notation good := (good c M home).
Notation safe := (safe c).
Notation chain := (chain M).
Notation T := (wf_tidy c M rank home W).

Lemma vx_safe v : nth_error M v <> None -> safe (vx M v).
Proof. unfold vx. destruct (nth_error M v); [intros; exact I | congruence]. Qed.
Lemma parent_vx s : parent_of M s <> None -> nth_error M s <> None.
Proof. unfold parent_of. destruct (nth_error M s); congruence. Qed.
Lemma parent_in s q : parent_of M s = Some (Some q) -> nth_error M q <> None.
Proof.
  intros H. destruct (wf_parent_some _ _ _ _ W _ _ H) as [_ [(Hc & _) | (Hc & _)]]; unfold is_comp, is_rsm in Hc; destruct (nth_error M q); congruence.
Qed.
Lemma st_parent_safe s x : nth_error M s = Some x -> parent_of M s <> None -> safe (st_parent x).
Proof. unfold parent_of. intros ->. destruct x; cbn; congruence || auto. Qed.
Lemma st_enter_safe s x : nth_error M s = Some x -> parent_of M s <> None -> safe (st_enter x).
Proof. unfold parent_of. intros ->. destruct x; cbn; congruence || auto. Qed.
Lemma st_exit_safe s x : nth_error M s = Some x -> parent_of M s <> None -> safe (st_exit x).
Proof. unfold parent_of. intros ->. destruct x; cbn; congruence || auto. Qed.
Lemma st_tbl_safe s x : nth_error M s = Some x -> parent_of M s <> None -> safe (st_tbl x).
Proof. unfold parent_of. intros ->. destruct x; cbn; congruence || auto. Qed.

Lemma update_parent_safe d s : parent_of M s <> None -> safe (update_parent M d s).
Proof.
  intros Hs. unfold update_parent. apply bind_safe; [apply vx_safe, parent_vx, Hs|]. intros x Hx%vx_ok.
  apply bind_safe; [eapply st_parent_safe; eauto|]. intros p Hp. pose proof (st_parent_ok _ _ _ _ Hx Hp) as Hp'.
  destruct p as [q|]; [| exact I]. apply bind_safe; [eapply vx_safe, parent_in; eauto|]. intros y _. destruct y; exact I.
Qed.

Lemma find_up_safe grd pe fuel : forall d stn l, chain (d_dyp d) stn l -> safe (find_up M grd fuel d stn pe).
Proof.
  induction fuel as [| f IH]; intros d stn l Hl; (destruct stn as [s|]; cbn [find_up]; [| exact I]); [exact I|].
  assert (parent_of M s <> None) as Hs by (inversion Hl; congruence).
  apply bind_safe; [apply vx_safe, parent_vx, Hs|]. intros x Hx%vx_ok.
  apply bind_safe; [eapply st_tbl_safe; eauto|]. intros tbl _.
  destruct (find_trn grd d pe tbl (ev_sig pe)) as [d1 [t|]] eqn:F; [exact I|].
  apply bind_safe; [apply update_parent_safe, Hs|]. intros p Hp%update_parent_ok. destruct Hp as (q & Hq & ->).
  inversion Hl as [| s' p' l' Hp' Hl']; subst. assert (p' = q) by congruence. subst p'.
  assert (d_dyp d1 = d_dyp d) as E.
  { pose proof (find_trn_ok grd pe (ev_sig pe) tbl d) as K. rewrite F in K. destruct (denied_ram _ _ _ _ _ K) as [y ->]. reflexivity. }
  eapply IH. rewrite E. exact Hl'.
Qed.

(** * Target lists *)
Lemma add_loop_safe fuel : forall st se n cmp l, below M cmp st l -> (n + length l <= length se)%nat ->
  safe (add_target_loop M fuel st se n cmp).
Proof.
  induction fuel as [| f IH]; intros st se n cmp l H Hn; cbn [add_target_loop].
  - destruct (match st with Some a => _ | None => _ end); exact I.
  - inversion H as [| s p l' Hne Hp Hb]; subst.
    + destruct st as [b|]; [rewrite Nat.eqb_refl|]; exact I.
    + assert ((match cmp with Some b => (s =? b)%nat | None => false end) = false) as ->.
      { destruct cmp as [b|]; [| reflexivity]. destruct (Nat.eqb_spec s b); congruence. }
      cbn [length] in Hn. apply bind_safe; [apply wr_safe; lia|]. intros se' Hw. apply wr_ok in Hw as [_ ->].
      apply bind_safe; [apply vx_safe, parent_vx; congruence|]. intros x Hx. cbn in Hx. apply vx_ok in Hx.
      apply bind_safe; [eapply st_parent_safe; eauto; congruence|]. intros p' Hp'. pose proof (st_parent_ok _ _ _ _ Hx Hp') as E.
      assert (p' = p) by congruence. subst p'. eapply IH; [exact Hb|]. rewrite length_upd. lia.
Qed.
Lemma add_target_safe fuel v se cmp : nth_error M v <> None ->
  (is_target M v = true -> exists l, below M cmp (Some v) l /\ (length l <= length se)%nat) ->
  safe (add_target M fuel (Some v) se cmp).
Proof.
  intros Hv H. unfold add_target. apply bind_safe; [apply vx_safe, Hv|]. intros x Hx. cbn in Hx. apply vx_ok in Hx.
  unfold is_target in H. rewrite Hx in H. destruct x; try exact I; destruct (H eq_refl) as (l & H1 & H2); eapply add_loop_safe; eauto.
Qed.

Lemma target_rank v : is_target M v = true -> (rank v < sm_depth c)%nat.
Proof.
  intros H. pose proof (target_parent _ _ H) as Hp. destruct (parent_of M v) as [p|] eqn:E; [| congruence].
  apply (wf_parent _ _ _ _ W _ _ E).
Qed.
Lemma inside_list q v : is_target M v = true -> inside M q v -> exists l, below M (Some q) (Some v) l /\ (length l <= sm_depth c)%nat.
Proof.
  intros Ht H. pose proof (target_rank _ Ht). destruct (inside_below _ _ _ _ W _ _ H) as (l & H1 & H2). exists l. split; [exact H1 | lia].
Qed.
Lemma root_list v : is_target M v = true -> home v = None -> exists l, below M None (Some v) l /\ (length l <= sm_depth c)%nat.
Proof.
  intros Ht H. pose proof (target_rank _ Ht). destruct (root_below _ _ _ _ W v) as (l & H1 & H2); [apply target_parent, Ht | exact H |].
  exists l. split; [exact H1 | lia].
Qed.
Lemma kind_vx v : ok_kind M v = true -> nth_error M v <> None.
Proof. unfold ok_kind. destruct (nth_error M v); congruence. Qed.

Lemma micro_safe fuel micro w p : at_point c w p -> ok_kind M (p_v p) = true ->
  (micro = true -> is_target M (p_v p) = true -> inside M (p_base p) (p_v p)) ->
  safe (micro_targets M fuel micro w).
Proof.
  intros [A1 A2 A3 A4 A5] Hk Hm. unfold micro_targets. destruct micro; [| exact I]. rewrite A2, A4.
  apply bind_safe; [| intros [se nn] _; exact I].
  apply add_target_safe; [apply kind_vx, Hk|]. intros Ht. rewrite A5. apply inside_list; auto.
Qed.

(** * Paths *)
Context (grd : nat -> evt -> list xev -> bool).
(** In a micro-step, the path stays in the region. *)
Definition within_region (q : nat) (p : point) : Prop :=
  p_base p = q /\ is_comp M q = true /\
  ((exists n, ok_default c M home n (Some q) (p_v p) = true) \/ is_target M (p_v p) = true /\ inside M q (p_v p)).
Lemma region_target q p : within_region q p -> is_target M (p_v p) = true -> inside M (p_base p) (p_v p).
Proof.
  intros (-> & _ & [(n & H) | H]) Ht; [| tauto]. destruct n; [discriminate|]. cbn in H. unfold is_target in Ht.
  destruct (nth_error M (p_v p)) as [[]|]; try discriminate; eapply within_inside; eauto.
Qed.
Lemma comp_target q : is_comp M q = true -> is_target M q = true.
Proof. unfold is_comp, is_target. destruct (nth_error M q) as [[]|]; congruence. Qed.
Lemma seg_region pe q p p' : seg c M grd pe p p' -> good p -> within_region q p -> within_region q p'.
Proof.
  intros H (Hr & Hk & Hb) (Eb & Hc & Hm).
  inversion H as [d v l b tbl t d1 v1 Hv F Hroom Et | d v l b tbl t d1 v1 Hv F Hroom Et
    | d v l b deep qq dft s Hv Eh | d v l b deep qq dft d1 v1 Hv Eh Et Hen Hroom | d v l b deep qq dft Hv Eh Et
    | d v l b en ex pp tbl e r v1 ia Hv Hv2 Hroom | d v l b a m v1 en ex pp tbl e r Hv Hm' Hroom
    | d v l b ix r m a v1 en ex pp tbl e r' Hv Em Hm' He Hroom]; subst; cbn [p_d p_v p_base] in *;
    (destruct Hm as [(n & Hm) | [Hm _]]; [| unfold is_target in Hm; rewrite Hv in Hm; discriminate]);
    (destruct n as [| n]; [discriminate|]); cbn [ok_default] in Hm; rewrite Hv in Hm; try discriminate.
  - pose proof (first_in _ _ _ _ _ _ F) as Hi. apply filter_In in Hi as [Hi _]. rewrite forallb_forall in Hm. specialize (Hm _ Hi).
    rewrite Et in Hm. split; [reflexivity|]. split; [exact Hc|]. eauto.
  - pose proof (first_in _ _ _ _ _ _ F) as Hi. apply filter_In in Hi as [Hi _]. rewrite forallb_forall in Hm. specialize (Hm _ Hi).
    rewrite Et in Hm. split; [reflexivity|]. split; [exact Hc|]. eauto.
  - apply andb_true_iff in Hm as [Hm _]. apply andb_true_iff in Hm as [Hp Hq]. apply Nat.eqb_eq in Hq as ->.
    split; [reflexivity|]. split; [exact Hc|]. right. cbn [p_v]. destruct (ro_hist _ _ _ _ Hr _ _ _ _ _ Hv Eh) as [_ B]. destruct deep.
    + destruct B as [B1 B2]. split; [| auto]. unfold is_leaf in B1. unfold is_target. destruct (nth_error M s) as [[]|]; congruence.
    + assert (inside M b s) as Hin by (econstructor; [exact B | constructor]). split; [| exact Hin].
      unfold parent_of in B. unfold is_target. destruct (nth_error M s) as [[]|] eqn:Es; try discriminate; try reflexivity.
      exfalso. eapply (plain_no_subm c M rank home W); eauto.
  - rewrite Et in Hm. apply andb_true_iff in Hm as [Hm Hw]. apply andb_true_iff in Hm as [_ Hq]. apply Nat.eqb_eq in Hq as ->.
    split; [reflexivity|]. split; [exact Hc|]. eauto.
  - apply andb_true_iff in Hm as [Hm _]. apply andb_true_iff in Hm as [_ Hq]. apply Nat.eqb_eq in Hq as ->.
    split; [reflexivity|]. split; [exact Hc|]. right. cbn [p_v]. split; [apply comp_target, Hc | constructor].
Qed.
(** At creation it stays in the top machine. *)
Definition within_top (p : point) : Prop :=
  (exists n, ok_default c M home n None (p_v p) = true) \/ is_target M (p_v p) = true /\ home (p_v p) = None.
Lemma top_target p : within_top p -> is_target M (p_v p) = true -> home (p_v p) = None.
Proof.
  intros [(n & H) | H] Ht; [| tauto]. destruct n; [discriminate|]. cbn in H. unfold is_target in Ht.
  destruct (nth_error M (p_v p)) as [[]|]; try discriminate; apply same_home_eq in H; exact H.
Qed.
Lemma inside_home q v : is_comp M q = true -> inside M q v -> home v = home q.
Proof.
  intros Hq. induction 1 as [| v p Hp H IH]; [reflexivity|].
  destruct (wf_parent_some _ _ _ _ W _ _ Hp) as [_ [(_ & _ & E) | (Hr & _)]]; [congruence|].
  exfalso. inversion H as [| p' pp Hpp Hin]; subst.
  - unfold is_comp, is_rsm in *. destruct (nth_error M p) as [[]|]; congruence.
  - unfold parent_of in Hpp. unfold is_rsm in Hr. destruct (nth_error M p) as [[]|]; congruence.
Qed.
Lemma hist_comp h deep q dft : nth_error M h = Some (VHist deep (Some q) dft) -> is_comp M q = true.
Proof. intros H. destruct (ty_hist _ _ T _ _ _ _ H) as (q' & [= <-] & Hq). exact Hq. Qed.
Lemma seg_top pe p p' : seg c M grd pe p p' -> good p -> within_top p -> within_top p'.
Proof.
  intros H (Hr & Hk & Hb) Hm.
  inversion H as [d v l b tbl t d1 v1 Hv F Hroom Et | d v l b tbl t d1 v1 Hv F Hroom Et
    | d v l b deep qq dft s Hv Eh | d v l b deep qq dft d1 v1 Hv Eh Et Hen Hroom | d v l b deep qq dft Hv Eh Et
    | d v l b en ex pp tbl e r v1 ia Hv Hv2 Hroom | d v l b a m v1 en ex pp tbl e r Hv Hm' Hroom
    | d v l b ix r m a v1 en ex pp tbl e r' Hv Em Hm' He Hroom]; subst; cbn [p_d p_v p_base] in *;
    (destruct Hm as [(n & Hm) | [Hm _]]; [| cbn [p_v] in Hm; unfold is_target in Hm; rewrite Hv in Hm; discriminate]);
    (destruct n as [| n]; [discriminate|]); cbn [ok_default p_v] in Hm; rewrite Hv in Hm; try discriminate.
  - pose proof (first_in _ _ _ _ _ _ F) as Hi. apply filter_In in Hi as [Hi _]. rewrite forallb_forall in Hm. specialize (Hm _ Hi).
    rewrite Et in Hm. left. eauto.
  - pose proof (first_in _ _ _ _ _ _ F) as Hi. apply filter_In in Hi as [Hi _]. rewrite forallb_forall in Hm. specialize (Hm _ Hi).
    rewrite Et in Hm. left. eauto.
  - apply andb_true_iff in Hm as [Hm _]. apply andb_true_iff in Hm as [Hp Hq]. apply same_home_eq in Hq.
    right. cbn [p_v]. pose proof (hist_comp _ _ _ _ Hv) as Hc.
    destruct (ro_hist _ _ _ _ Hr _ _ _ _ _ Hv Eh) as [_ B]. destruct deep.
    + destruct B as [B1 B2]. split.
      * unfold is_leaf in B1. unfold is_target. destruct (nth_error M s) as [[]|]; congruence.
      * rewrite <- Hq. apply inside_home; auto.
    + assert (inside M qq s) as Hin by (econstructor; [exact B | constructor]). split; [| rewrite <- Hq; apply inside_home; auto].
      unfold parent_of in B. unfold is_target. destruct (nth_error M s) as [[]|] eqn:Es; try discriminate; try reflexivity.
      exfalso. eapply (plain_no_subm c M rank home W); eauto.
  - rewrite Et in Hm. apply andb_true_iff in Hm as [Hm Hw]. left. eauto.
  - apply andb_true_iff in Hm as [Hm _]. apply andb_true_iff in Hm as [_ Hq]. apply same_home_eq in Hq.
    right. cbn [p_v]. split; [apply comp_target; eapply hist_comp; eauto | exact Hq].
Qed.

Definition region_ok (micro : bool) (p : point) : Prop := micro = true -> within_region (p_base p) p.
Lemma seg_region_ok pe micro p p' : seg c M grd pe p p' -> good p -> region_ok micro p -> region_ok micro p'.
Proof.
  intros Hs G H E. pose proof (seg_region _ _ _ _ Hs G (H E)) as K. destruct K as (Eb & K). rewrite Eb. split; auto.
Qed.

Lemma branch_safe fuel micro pe w d v l b tbl : w_d w = d -> holds c (w_al w) (w_nal w) l -> w_stn w = Some b -> length (w_se w) = sm_depth c ->
  ok_branches M home (home v) tbl = true ->
  (forall t d1 v1, first_of grd pe d (guarded tbl) t d1 -> room c l -> t_tgt t = Some v1 ->
     region_ok micro (mkP d1 v1 (l ++ act1 (t_act t)) b)) ->
  safe (branch c M grd fuel micro pe w tbl).
Proof.
  intros Hd Hl Hb Hse Hbr Hreg. unfold branch. rewrite Hd. pose proof (find_branch_ok grd pe tbl d) as F.
  destruct (find_branch _ _ _ _) as [d1 [t|]]; [| exact I].
  apply bind_safe; [eapply holds_safe; eauto|]. intros r Ha. apply (add_action_ok _ _ _ _ _ _ Hl) in Ha.
  destruct r as [[al' nal']|]; [| apply error_safe; cbn; tauto]. destruct Ha as [Hr Ha].
  pose proof (first_in _ _ _ _ _ _ F) as Hi. apply filter_In in Hi as [Hi _].
  destruct (branches_ok _ _ _ _ _ Hbr Hi) as (v1 & Et & K1 & _). rewrite Et.
  apply bind_safe; [| intros; exact I].
  eapply (micro_safe _ _ _ (mkP d1 v1 (l ++ act1 (t_act t)) b)); [constructor; cbn; auto | exact K1 |].
  intros -> Ht. exact (region_target _ _ (Hreg _ _ _ F Hr Et eq_refl) Ht).
Qed.

Lemma pseudo_safe fuel micro pe w p : at_point c w p -> good p -> region_ok micro p -> safe (pseudo c M grd fuel micro pe w).
Proof.
  intros Hp G Hreg.
  assert (forall p', seg c M grd pe p p' -> region_ok micro p') as Hnext by (intros p' Hs; eapply seg_region_ok; eauto).
  assert (forall p', seg c M grd pe p p' -> ok_kind M (p_v p') = true) as Hkind.
  { intros p' Hs. apply (seg_good _ _ _ _ W _ _ _ _ Hs G). }
  assert (forall p' w' : _, seg c M grd pe p p' -> at_point c w' p' -> safe (micro_targets M fuel micro w')) as Hmic.
  { intros p' w' Hs Hw'. eapply micro_safe; [exact Hw' | apply Hkind, Hs |]. intros -> Ht. exact (region_target _ _ (Hnext _ Hs eq_refl) Ht). }
  destruct G as (Hr & Hk & Hb).
  destruct Hp as [A1 A2 A3 A4 A5]. destruct p as [d v l b]. cbn [p_d p_v p_pend p_base] in *.
  unfold pseudo. rewrite A2. apply bind_safe; [apply vx_safe, kind_vx, Hk|]. intros x Hx. cbn in Hx. apply vx_ok in Hx.
  pose proof (wf_at _ _ _ _ W _ _ Hx) as Wx.
  destruct x as [en ex par tbl | en ex par tbl dc ia hi | par | en ex par tbl expcn rsm | dc ia | tbl | tbl
               | deep par dft | a tgt par | ix rsm | par]; try exact I; cbn in Wx.
  - (* submachine state *)
    rewrite ?andb_true_iff in Wx. destruct Wx as [[_ Wr] _]. unfold is_rsm in Wr.
    apply bind_safe; [apply vx_safe; destruct (nth_error M rsm); congruence|]. intros y Hy%vx_ok. rewrite Hy in Wr. destruct y; try discriminate.
    cbn zeta. apply bind_safe; [eapply holds_safe; eauto|]. intros [an|] _; [exact I|].
    apply bind_safe; [apply error_safe; cbn; tauto | intros; exact I].
  - (* conditional *)
    apply bind_safe; [| intros; exact I]. eapply branch_safe; eauto. intros t d1 v1 F Hroom Et. apply Hnext. eapply seg_cond; eauto.
  - (* choice *)
    apply bind_safe; [apply acts_safe; destruct A3; lia|]. intros d0 Hx0. apply (exec_acts_ok _ _ _ _ _ _ _ A3) in Hx0.
    rewrite A1 in Hx0. apply bind_safe; [| intros; exact I].
    eapply (branch_safe _ _ _ _ d0 v [] b); cbn; auto.
    + destruct A3. constructor; cbn; auto; lia.
    + intros t d1 v1 F Hroom Et. apply Hnext. subst d0. eapply seg_choice; eauto.
  - (* history *)
    apply andb_true_iff in Wx as [Wp Wd]. destruct par as [q|]; [| discriminate].
    destruct (nth_error M q) as [y|] eqn:Hy; [| discriminate]. destruct y as [| en ex pp tb dc ia hi | | | | | | | | |]; try discriminate.
    destruct hi as [h|]; [| discriminate].
    apply bind_safe.
    { destruct (sm_asrt c); [| exact I]. unfold vx. rewrite Hy. exact I. }
    intros _ _. cbn zeta. cbn [w_d w_al w_nal w_se w_nn]. rewrite A1.
    assert (forall v1 al' nal' l' d1, seg c M grd pe (mkP d v l b) (mkP d1 v1 l' q) -> holds c al' nal' l' ->
      safe (do w0 <- micro_targets M fuel micro (w_seg (mkW d (Some v) (w_al w) (w_nal w) (Some q) (w_se w) (w_nn w)) d1 (Some v1) (al', nal')); Ok (Some (Go w0) : option (ctl wst)))) as K.
    { intros v1 al' nal' l' d1 Hs Hh. apply bind_safe; [| intros; exact I]. eapply Hmic; [exact Hs|]. constructor; cbn; auto. }
    destruct (d_hist d v) as [s|] eqn:Eh.
    + cbn [bind]. eapply K; [eapply seg_hist; eauto | eauto].
    + destruct (t_tgt dft) as [t|] eqn:Et.
      2: { cbn [bind]. eapply K; [eapply seg_hist_none; eauto | eauto]. }
      destruct (t_grd dft) as [g|] eqn:Eg; [cbn [exec_guard]; unfold exec_guard; destruct (grd g pe (d_log d)) eqn:Eb; [| exact I] |];
        (apply bind_safe; [apply bind_safe; [eapply holds_safe; eauto|]; intros [an|] _; [exact I | apply error_safe; cbn; tauto] |]);
        intros r H1; apply bind_ok in H1 as (r2 & Ha & H1); apply (add_action_ok _ _ _ _ _ _ A3) in Ha;
        (destruct r2 as [[al' nal']|]; [| apply error_ok in H1 as [_ ->]; exact I]);
        injection H1 as <-; destruct Ha as [Hroom Ha];
        (eapply K; [eapply seg_hist_dft; eauto; unfold enabled; rewrite Eg; auto | exact Ha]).
  - (* entry point *)
    destruct (nth_error M par) as [y|] eqn:Hy; [| discriminate]. apply bind_safe; [apply vx_safe; congruence|]. intros y' Hy'%vx_ok.
    rewrite Hy in Hy'. injection Hy' as <-. destruct y; try discriminate.
    pose proof (wf_at _ _ _ _ W _ _ Hy) as Wy. cbn in Wy. rewrite ?andb_true_iff in Wy. destruct Wy as [[_ Wr] _]. unfold is_rsm in Wr.
    apply bind_safe; [apply vx_safe; destruct (nth_error M rsm); congruence|]. intros z Hz%vx_ok. rewrite Hz in Wr. destruct z; try discriminate.
    cbn zeta. apply bind_safe; [eapply holds_safe; eauto|]. intros [an|] _; [exact I|].
    apply bind_safe; [apply error_safe; cbn; tauto | intros; exact I].
  - (* exit point *)
    rewrite !andb_true_iff in Wx. destruct Wx as [[Wr Wh] Wi]. apply same_home_eq in Wh. rewrite Wh in Hb. cbn in Hb.
    unfold is_rsm in Wr.
    apply bind_safe; [apply vx_safe; destruct (nth_error M rsm); congruence|]. intros y Hy%vx_ok. rewrite Hy in Wr. destruct y; try discriminate.
    rewrite A1. destruct (d_dyp d rsm) as [m|] eqn:Em; [| congruence].
    destruct (ro_dyp _ _ _ _ Hr _ _ Em) as [(en & ex & p & tbl & e & Hm) _].
    apply bind_safe; [apply vx_safe; congruence|]. intros z Hz. cbn in Hz. apply vx_ok in Hz. rewrite Hm in Hz. injection Hz as <-.
    rewrite forallb_forall in Wi. pose proof (Wi _ (nth_error_In _ _ Hm)) as Wm. cbn in Wm. rewrite Nat.eqb_refl in Wm. cbn in Wm.
    apply bind_safe; [apply rd_safe, Nat.ltb_lt, Wm|]. intros [act tgt] _.
    apply bind_safe; [eapply holds_safe; eauto|]. intros [an|] _; [exact I|].
    apply bind_safe; [apply error_safe; cbn; tauto | intros; exact I].
  - (* no history *) unfold ok_kind in Hk. rewrite Hx in Hk. discriminate.
Qed.


Lemma pseudo_next fuel micro pe w p w' : at_point c w p -> good p ->
  pseudo c M grd fuel micro pe w = Ok (Some (Go w')) -> exists p', seg c M grd pe p p' /\ at_point c w' p'.
Proof.
  intros Hp G H. pose proof (pseudo_ok c M grd rank T _ _ _ _ _ _ Hp H) as [Hn | K]; [| exact K]. exfalso.
  destruct G as (Hr & Hk & Hb). destruct Hp as [A1 A2 A3 A4 A5]. destruct p as [d v l b]. cbn [p_d p_v p_pend p_base] in *.
  unfold pseudo in H. rewrite A2 in H. apply bind_ok in H as (x & Hx & H). cbn in Hx. apply vx_ok in Hx.
  pose proof (wf_at _ _ _ _ W _ _ Hx) as Wx.
  assert (forall w0 tbl, ok_branches M home (home v) tbl = true -> branch c M grd fuel micro pe w0 tbl = Ok (Go w') -> False) as B.
  { intros w0 tbl Wb Hbr. unfold branch in Hbr. pose proof (find_branch_ok grd pe tbl (w_d w0)) as F.
    destruct (find_branch _ _ _ _) as [d1 [t|]]; [| discriminate].
    apply bind_ok in Hbr as (r & _ & Hbr). destruct r; [| apply error_ok in Hbr as [_ Hbr]; discriminate].
    apply bind_ok in Hbr as (w1 & Hw1 & Hbr). injection Hbr as ->. apply micro_ok in Hw1 as (_ & E & _). cbn in E.
    pose proof (first_in _ _ _ _ _ _ F) as Hi. apply filter_In in Hi as [Hi _].
    destruct (branches_ok _ _ _ _ _ Wb Hi) as (v1 & Et & _). congruence. }
  assert (forall A line r d (k : ctl A -> res (option (ctl wst))), (forall e d, k (Stop e d) = Ok (Some (Stop e d))) ->
       (do e <- error c line r d; k e) = Ok (Some (Go w')) -> False) as E.
  { intros A line r d0 k Hk1 H1. apply bind_ok in H1 as (e & He & H1). apply error_ok in He as [_ ->]. rewrite Hk1 in H1. discriminate. }
  destruct x as [en ex par tbl | en ex par tbl dc ia hi | par | en ex par tbl expcn rsm | dc ia | tbl | tbl
               | deep par dft | a tgt par | ix rsm | par]; try discriminate; cbn in Wx.
  - rewrite ?andb_true_iff in Wx. destruct Wx as [[_ Wr] _]. unfold is_rsm in Wr.
    apply bind_ok in H as (y & Hy%vx_ok & H). destruct y; try discriminate.
    pose proof (wf_at _ _ _ _ W _ _ Hy) as Wy. cbn in Wy. destruct defchild; [| discriminate].
    apply bind_ok in H as (r & _ & H). destruct r; [injection H as <-; discriminate | eapply (E wst); [| exact H]; reflexivity].
  - apply bind_ok in H as (r & H & H'). injection H' as ->. eauto.
  - apply bind_ok in H as (d0 & _ & H). apply bind_ok in H as (r & H & H'). injection H' as ->. eauto.
  - apply andb_true_iff in Wx as [Wp Wd]. destruct par as [q|]; [| discriminate].
    apply bind_ok in H as (u & _ & H). apply bind_ok in H as (r & H1 & H). destruct r as [w1|]; [| discriminate].
    apply bind_ok in H as (w2 & Hw2 & H). injection H as ->. apply micro_ok in Hw2 as (_ & E2 & _). cbn zeta in H1.
    destruct (d_hist _ _); [injection H1 as <-; cbn in E2; congruence|]. destruct (t_tgt dft); [| injection H1 as <-; cbn in E2; congruence].
    destruct (match t_grd dft with Some g => _ | None => _ end) as [d1 b1]. destruct b1; [| discriminate].
    apply bind_ok in H1 as (r & _ & H1). destruct r; [injection H1 as <-; cbn in E2; congruence|].
    apply error_ok in H1 as [_ H1]. discriminate.
  - destruct (nth_error M par) as [y'|] eqn:Hy'; [| discriminate].
    apply bind_ok in H as (y & Hy%vx_ok & H). destruct y; try discriminate. rewrite Hy' in Hy. injection Hy as ->.
    apply bind_ok in H as (z & _ & H). destruct z; try discriminate. destruct tgt; [| rewrite andb_false_r in Wx; discriminate].
    apply bind_ok in H as (r & _ & H). destruct r; [injection H as <-; discriminate | eapply (E wst); [| exact H]; reflexivity].
  - apply bind_ok in H as (y & _ & H). destruct y; try discriminate. apply bind_ok in H as (z & Hz & H). apply vxo_ok in Hz as (m & Em & Hm). destruct z; try discriminate.
    apply bind_ok in H as ([a t] & Ht & H). apply rd_ok in Ht. pose proof (wf_at _ _ _ _ W _ _ Hm) as Wm. cbn in Wm.
    apply andb_true_iff in Wm as [_ Wm]. rewrite forallb_forall in Wm. specialize (Wm _ (nth_error_In _ _ Ht)). cbn in Wm. destruct t; [| discriminate].
    apply bind_ok in H as (r & _ & H). destruct r; [injection H as <-; discriminate | eapply (E wst); [| exact H]; reflexivity].
  - eapply (E wst); [| exact H]; reflexivity.
Qed.

Lemma walk_safe pe micro fuel : forall w p, at_point c w p -> good p -> region_ok micro p -> safe (walk c M grd fuel micro pe w).
Proof.
  induction fuel as [| f IH]; intros w p Hp G Hreg; cbn [walk]; [exact I|].
  apply bind_safe; [eapply pseudo_safe; eauto|]. intros r H. destruct r as [[w1 | e d1]|]; try exact I.
  destruct (pseudo_next _ _ _ _ _ _ Hp G H) as (p' & Hs & Hp'). eapply IH; [exact Hp' | | eapply seg_region_ok; eauto].
  eapply (seg_good c M rank home W); eauto.
Qed.
Lemma segs_region_ok pe micro p p' : segs c M grd pe p p' -> good p -> region_ok micro p -> region_ok micro p'.
Proof.
  induction 1 as [| p q r H1 H2 IH]; [auto|]. intros G H. apply IH; [eapply (seg_good c M rank home W); eauto | eapply seg_region_ok; eauto].
Qed.
Lemma segs_top pe p p' : segs c M grd pe p p' -> good p -> within_top p -> within_top p'.
Proof.
  induction 1 as [| p q r H1 H2 IH]; [auto|]. intros G H. apply IH; [eapply (seg_good c M rank home W); eauto | eapply seg_top; eauto].
Qed.

(** * Exits, entries, histories *)
Lemma below_parents cmp s l : below M cmp s l -> forall x, In x l -> parent_of M x <> None.
Proof. induction 1 as [| s p l Hne Hp H IH]; cbn; [tauto|]. intros x [<- | Hx]; [congruence | auto]. Qed.
Lemma entry_list_safe fuel : forall d stx stn ix se l, chain (d_dyp d) stn l -> length se = sm_depth c ->
  safe (entry_list c M fuel d stx stn ix se).
Proof.
  induction fuel as [| f IH]; intros d stx stn ix se l Hl Hse; (destruct stn as [n|]; cbn [entry_list]; [| exact I]);
    (destruct (stx =? n)%nat; [exact I|]); (destruct (Nat.ltb_spec ix (sm_depth c)) as [Hlt|]; [| exact I]); [exact I|].
  apply bind_safe; [apply wr_safe; lia|]. intros se' Hw. apply wr_ok in Hw as [_ ->].
  apply bind_safe; [apply update_parent_safe; inversion Hl; congruence|]. intros p Hp%update_parent_ok. destruct Hp as (q & Hq & ->).
  inversion Hl as [| s' p' l' Hp' Hl']; subst. assert (p' = q) by congruence. subst p'.
  eapply IH; [exact Hl' | rewrite length_upd; exact Hse].
Qed.
Lemma update_shallow_safe d s : parent_of M s <> None -> safe (update_shallow M d s).
Proof.
  intros Hs. unfold update_shallow. apply bind_safe; [apply vx_safe, parent_vx, Hs|]. intros x Hx%vx_ok.
  apply bind_safe; [eapply st_parent_safe; eauto|]. intros p Hp. pose proof (st_parent_ok _ _ _ _ Hx Hp) as Hp'.
  destruct p as [q|]; [| exact I]. apply bind_safe; [eapply vx_safe, parent_in; eauto|]. intros y Hy%vx_ok. destruct y; try exact I.
  destruct hist as [h|]; [| exact I]. pose proof (wf_at _ _ _ _ W _ _ Hy) as Wy. cbn in Wy. rewrite !andb_true_iff in Wy. destruct Wy as [[_ Wy] _].
  apply bind_safe; [apply vx_safe; destruct (nth_error M h); congruence|]. intros z Hz%vx_ok. rewrite Hz in Wy.
  destruct z; try discriminate; [destruct deep; exact I | exact I].
Qed.
Lemma exits_safe fuel : forall d stx k tgt se ix lc lt, chain (d_dyp d) stx lc -> chain (d_dyp d) tgt lt ->
  (length lt <= sm_depth c)%nat -> length se = sm_depth c -> safe (exec_exits c M fuel d stx k tgt se ix).
Proof.
  induction fuel as [| f IH]; intros d stx k tgt se ix lc lt Hlc Hlt Hd Hse; (destruct stx as [s|]; cbn [exec_exits]; [| exact I]); [exact I|].
  apply bind_safe; [eapply entry_list_safe; eauto|]. intros r Hr. pose proof (entry_list_ok c M _ _ _ _ _ _ _ _ Hlt Hr ltac:(lia)) as K.
  destruct r as [[[o n] se']|]; [| destruct K; lia]. destruct K as (Hse' & a & b & El & _ & En & Hn & _ & Ho). cbn [Nat.add] in En.
  assert (parent_of M s <> None) as Hs by (inversion Hlc; congruence).
  destruct (negb match o with Some _ => true | None => false end || (k =? 0)%nat); [| exact I].
  apply bind_safe; [apply vx_safe, parent_vx, Hs|]. intros x Hx%vx_ok.
  apply bind_safe; [eapply st_exit_safe; eauto|]. intros ac Ha.
  apply bind_safe; [apply update_shallow_safe, Hs|]. intros d1 Hd1. apply (update_shallow_ok _ _ _ _ _ _ Hx Ha) in Hd1 as ->.
  destruct o as [o|].
  - destruct Ho as [[? _] | [_ (b' & ->)]]; [discriminate|]. apply bind_safe; [| intros; exact I].
    apply wr_safe. rewrite El, app_length in Hd. cbn [length] in Hd. lia.
  - apply bind_safe; [apply update_parent_safe, Hs|]. intros p Hp%update_parent_ok. destruct Hp as (q & Hq & ->).
    inversion Hlc as [| s' p' l' Hp' Hl']; subst. assert (p' = q) by congruence. subst p'. rewrite leave1_dyp.
    eapply IH; rewrite ?leave1_dyp; [exact Hl' | exact Hlt | exact Hd | lia].
Qed.
Lemma entries_safe n : forall se d isc es, firstn n se = map Some es -> length es = n -> (forall s, In s es -> parent_of M s <> None) ->
  safe (exec_entries c M n se d isc).
Proof.
  induction n as [| n IH]; intros se d isc es Hse Hl Hp; cbn [exec_entries]; [exact I|].
  assert (n < length se)%nat as Hn.
  { assert (length (firstn (S n) se) = S n) as E by (rewrite Hse, map_length; exact Hl). rewrite firstn_length in E. lia. }
  apply bind_safe; [apply rd_safe, Hn|]. intros o Ho%rd_ok.
  rewrite (firstn_S _ _ _ Ho) in Hse. destruct (@exists_last _ es) as (es' & s & ->); [destruct es; cbn in Hl; congruence|].
  rewrite map_app in Hse. apply app_inj_tail in Hse as [Hse ->]. cbn [vxo].
  assert (parent_of M s <> None) as Hs by (apply Hp, in_app_iff; right; left; reflexivity).
  apply bind_safe; [apply vx_safe, parent_vx, Hs|]. intros x Hx%vx_ok. apply bind_safe; [eapply st_enter_safe; eauto|]. intros a _.
  rewrite app_length in Hl. cbn in Hl. eapply IH; [exact Hse | lia |]. intros y Hy. apply Hp, in_app_iff. left. exact Hy.
Qed.

Lemma deep_loop_safe from fuel : forall d s l,
  (forall r m, d_dyp d r = Some m -> exists en ex p tbl e, nth_error M m = Some (VSubm en ex p tbl e r)) ->
  chain (d_dyp d) (outer M (d_dyp d) s) l ->
  (forall q, s = Some q -> is_comp M q = true \/ is_rsm M q = true /\ d_dyp d q <> None) ->
  (forall v, In v l -> bound (d_dyp d) (home v)) ->
  safe (update_deep_loop M fuel d from s).
Proof.
  assert (forall dy q l p, chain dy (Some q) (q :: l) -> parent_of M q = Some p -> (forall v, In v (q :: l) -> bound dy (home v)) ->
    forall q', p = Some q' -> is_comp M q' = true \/ is_rsm M q' = true /\ dy q' <> None) as K.
  { intros dy q l p Hc Hp Hb q' ->. destruct (wf_parent_some _ _ _ _ W _ _ Hp) as [_ [(H & _) | (H & E)]]; [auto|].
    right. split; [exact H|]. specialize (Hb q (or_introl eq_refl)). rewrite E in Hb. exact Hb. }
  induction fuel as [| f IH]; intros d s l Hd Hl Hs Hb; (destruct s as [q|]; cbn [update_deep_loop]; [| exact I]); [exact I|].
  cbn in Hl. destruct (Hs _ eq_refl) as [Hc | [Hc Hy]].
  - unfold is_comp in Hc. destruct (nth_error M q) as [x|] eqn:Hx; [| discriminate]. destruct x as [| en ex p tbl dc ia hi | | | | | | | | |]; try discriminate.
    assert (is_rsm M q = false) as Er by (unfold is_rsm; rewrite Hx; reflexivity). rewrite Er in Hl.
    apply bind_safe; [apply vx_safe; congruence|]. intros y Hy%vx_ok. rewrite Hx in Hy. injection Hy as <-.
    assert (parent_of M q = Some p) as Hp by (unfold parent_of; rewrite Hx; reflexivity).
    inversion Hl as [| s' p' l' Hp' Hl']; subst. assert (p' = p) by congruence. subst p'.
    assert (forall d', d_dyp d' = d_dyp d -> safe (update_deep_loop M f d' from p)) as R.
    { intros d' E. eapply IH; rewrite E; [exact Hd | exact Hl' | eapply K; eauto | intros v Hv; apply Hb; right; exact Hv]. }
    destruct hi as [h|]; [| apply R; reflexivity].
    pose proof (wf_at _ _ _ _ W _ _ Hx) as Wy. cbn in Wy. rewrite !andb_true_iff in Wy. destruct Wy as [[_ Wy] _].
    apply bind_safe; [apply vx_safe; destruct (nth_error M h); congruence|]. intros z Hz%vx_ok. rewrite Hz in Wy.
    destruct z; try discriminate; [destruct deep |]; apply R; reflexivity.
  - rewrite Hc in Hl. unfold is_rsm in Hc. destruct (nth_error M q) as [x|] eqn:Hx; [| discriminate]. destruct x; try discriminate.
    apply bind_safe; [apply vx_safe; congruence|]. intros y Hy'%vx_ok. rewrite Hx in Hy'. injection Hy' as <-.
    destruct (d_dyp d q) as [m|] eqn:Em; [| congruence]. destruct (Hd _ _ Em) as (en & ex & p & tbl & e & Hm).
    apply bind_safe; [apply vx_safe; congruence|]. intros y Hy'. cbn in Hy'. apply vx_ok in Hy'. rewrite Hm in Hy'. injection Hy' as <-.
    apply bind_safe; [exact I|]. intros p' Hp'. injection Hp' as <-.
    assert (parent_of M m = Some p) as Hp by (unfold parent_of; rewrite Hm; reflexivity).
    inversion Hl as [| s' p' l' Hp' Hl']; subst. assert (p' = p) by congruence. subst p'.
    eapply IH; [exact Hd | exact Hl' | eapply K; eauto | intros v Hv; apply Hb; right; exact Hv].
Qed.
Lemma update_deep_safe fuel d s : ram_ok d -> is_leaf M s = true -> bound (d_dyp d) (home s) -> safe (update_deep M fuel d (Some s)).
Proof.
  intros Hr Hs Hb. pose proof (leaf_parent _ _ Hs) as Hp. unfold update_deep. apply bind_safe; [apply vx_safe, parent_vx, Hp|].
  intros x Hx. cbn in Hx. apply vx_ok in Hx. apply bind_safe; [eapply st_parent_safe; eauto|]. intros p Hp'. pose proof (st_parent_ok _ _ _ _ Hx Hp') as E.
  pose proof (ram_tidy c M home _ Hr) as Ht.
  destruct (chain_ex M rank T (d_dyp d) (tr_dyp _ _ Ht) s Hp) as [l Hl].
  pose proof (chain_bound c M rank home W _ Hr _ _ Hl) as Hbl.
  inversion Hl as [| s' p' l' Hp2 Hl2]; subst. assert (p' = p) by congruence. subst p'.
  eapply deep_loop_safe; [apply Ht | exact Hl2 | | intros v Hv; apply Hbl; [intros y [= <-]; exact Hb | right; exact Hv]].
  intros q ->. destruct (wf_parent_some _ _ _ _ W _ _ E) as [_ [(H & _) | (H & Eh)]]; [auto|]. right. split; [exact H|].
  rewrite Eh in Hb. exact Hb.
Qed.

(** * Whole events *)
Lemma target_comp v x : nth_error M v = Some x -> is_target M v = true -> ok_kind M v = true.
Proof. unfold is_target, ok_kind. intros ->. destruct x; congruence. Qed.
Lemma after_walk pe micro fuel w p w' : at_point c w p -> good p -> region_ok micro p ->
  walk c M grd fuel micro pe w = Ok (Go w') ->
  exists p', segs c M grd pe p p' /\ is_target M (p_v p') = true /\ at_point c w' p' /\ good p' /\ region_ok micro p'.
Proof.
  intros Hp G Hreg H. apply (walk_ok c M grd rank T _ _ _ _ _ _ Hp) in H as (p' & Hs & Ht & Hp').
  pose proof (segs_good _ _ _ _ W _ _ _ _ Hs G) as G'. exists p'. split; [exact Hs|].
  destruct G' as (G1 & G2 & G3). rewrite (kind_rsm _ _ G2), orb_false_r in Ht. split; [exact Ht|]. split; [exact Hp'|].
  split; [split; auto | eapply segs_region_ok; eauto].
Qed.
Lemma depth_pos v : is_target M v = true -> (0 < sm_depth c)%nat.
Proof. intros H. pose proof (target_rank _ H). lia. Qed.

Lemma holds_nil al : length al = sm_segs c -> holds c al 0 [].
Proof. intros H. constructor; cbn; auto; lia. Qed.
Lemma micro_descend_safe pe cs fuel : forall q en ex p tbl dc ia h w isc,
  nth_error M q = Some (VComp en ex p tbl dc ia h) -> ram_ok (w_d w) -> bound (d_dyp (w_d w)) (home q) ->
  w_ets w = dc -> w_stn w = Some q -> length (w_al w) = sm_segs c -> length (w_se w) = sm_depth c ->
  safe (descend c M grd fuel true cs pe ia w isc).
Proof.
  induction fuel as [| f IH]; intros q en ex p tbl dc ia h w isc Hq Hr Hb Hets Hstn Hal Hse; cbn [descend]; [exact I|].
  pose proof (holds_nil _ Hal) as Hh.
  apply bind_safe; [eapply holds_safe; eauto|]. intros r Ha. apply (add_action_ok _ _ _ _ _ _ Hh) in Ha.
  destruct r as [an|]; [| apply error_safe; cbn; tauto]. destruct an as [al nal]. destruct Ha as [Hroom Ha]. cbn [app] in Ha.
  pose proof (wf_at _ _ _ _ W _ _ Hq) as Wq. cbn in Wq. apply andb_true_iff in Wq as [_ Wq]. destruct dc as [v|]; [| discriminate].
  destruct (comp_default c M grd rank home W _ _ _ _ _ _ _ _ Hq) as (K1 & K2 & K3).
  set (w0 := w_seg w (w_d w) (w_ets w) (al, nal)). set (p0 := mkP (w_d w) v (act1 ia) q).
  assert (at_point c w0 p0) as Hp0 by (constructor; cbn; auto).
  assert (good p0) as G0 by (split; [exact Hr|]; split; [exact K1|]; cbn; rewrite K2; exact Hb).
  assert (region_ok true p0) as R0.
  { intros _. split; [reflexivity|]. split; [cbn; unfold is_comp; rewrite Hq; reflexivity|]. left. eauto. }
  apply bind_safe; [eapply walk_safe; eauto|]. intros r Hw. destruct r as [w1|]; [| exact I].
  destruct (after_walk _ _ _ _ _ _ Hp0 G0 R0 Hw) as (p1 & Hs & Ht & Hp1 & G1 & R1).
  destruct Hp1 as [A1 A2 A3 A4 A5]. destruct p1 as [d1 t l b]. cbn [p_d p_v p_pend p_base] in *.
  destruct G1 as (G1 & G2 & G3). cbn [p_d p_v] in *.
  apply bind_safe.
  { apply bind_safe; [| intros [se nn] _; exact I]. rewrite A2, A4. apply add_target_safe; [apply kind_vx, G2|]. intros _. rewrite A5.
    apply inside_list; [exact Ht|]. exact (region_target _ _ (R1 eq_refl) Ht). }
  intros r H1. apply bind_ok in H1 as ([se nn] & Hadd & H1). injection H1 as <-. rewrite A2, A4 in Hadd.
  apply (add_target_ok M) in Hadd as (es & Hbel & -> & Hfst & Hlen); [| exact Ht].
  apply bind_safe; [apply acts_safe; destruct A3; lia|]. intros d2 Hd2. apply (exec_acts_ok _ _ _ _ _ _ _ A3) in Hd2. rewrite A1 in Hd2.
  apply bind_safe; [eapply entries_safe; [exact Hfst | reflexivity | eapply below_parents; eauto]|]. intros [d3 isc3] Hd3.
  apply (exec_entries_ok c M) with (es := es) in Hd3 as [Hd3 _]; [| exact Hfst | reflexivity].
  apply bind_safe; [apply rd_safe; rewrite Hlen, A5; eapply depth_pos; eauto|]. intros stn _. rewrite A2.
  apply bind_safe; [apply vx_safe, kind_vx, G2|]. intros x Hx. cbn in Hx. apply vx_ok in Hx. destruct x; try exact I.
  eapply IH; cbn; [exact Hx | | | reflexivity | reflexivity | apply A3 | lia].
  - subst. apply ram_say, ram_say, G1.
  - subst. exact G3.
Qed.

Lemma enters_parents lc lt dy s : chain dy s lt -> forall x, In x (rev (enters lc lt)) -> parent_of M x <> None.
Proof.
  intros H x Hx. unfold enters in Hx. rewrite rev_involutive in Hx. apply filter_In in Hx as [Hx _].
  eapply chain_parents; eauto.
Qed.
Lemma fire_descend_safe pe fuel d cs src v a al se isc : ram_ok d -> parent_of M cs <> None -> bound (d_dyp d) (home cs) ->
  ok_kind M v = true -> bound (d_dyp d) (home v) -> length al = sm_segs c -> length se = sm_depth c ->
  safe (descend c M grd fuel false (Some (Some cs)) pe a (mkW (say d [XTrn src (Some v)]) (Some v) al 0 (Some src) se 0) isc).
Proof.
  intros Hr Hcs Hbc Hk Hb Hal Hse. destruct fuel as [| f]; [exact I|]. cbn [descend w_al w_d w_ets].
  pose proof (holds_nil _ Hal) as Hh.
  apply bind_safe; [eapply holds_safe; eauto|]. intros r Ha. apply (add_action_ok _ _ _ _ _ _ Hh) in Ha.
  destruct r as [an|]; [| apply error_safe; cbn; tauto]. destruct an as [al' nal]. destruct Ha as [Hroom Ha]. cbn [app] in Ha.
  match goal with |- S_SmRun.safe c (bind (walk _ _ _ _ _ _ ?w) _) => set (w0 := w) end. set (p0 := mkP (say d [XTrn src (Some v)]) v (act1 a) src).
  assert (at_point c w0 p0) as Hp0 by (constructor; cbn; auto).
  assert (good p0) as G0 by (split; [apply ram_say, Hr|]; split; [exact Hk | exact Hb]).
  assert (region_ok false p0) as R0 by (intros E; discriminate).
  apply bind_safe; [eapply walk_safe; eauto|]. intros r Hw. destruct r as [w1|]; [| exact I].
  destruct (after_walk _ _ _ _ _ _ Hp0 G0 R0 Hw) as (p1 & Hs & Ht & Hp1 & G1 & _).
  destruct Hp1 as [A1 A2 A3 A4 A5]. destruct p1 as [d1 t l b]. cbn [p_d p_v p_pend p_base] in *.
  destruct G1 as (G1 & G2 & G3). cbn [p_d p_v] in *. rewrite A1, A2.
  pose proof (tr_dyp _ _ (ram_tidy c M home _ G1)) as Hdy.
  destruct (chain_ex M rank T (d_dyp d1) Hdy cs Hcs) as [lc Hlc].
  destruct (chain_ex M rank T (d_dyp d1) Hdy t (target_parent _ _ Ht)) as [lt Hlt].
  assert (length (t :: lt) <= sm_depth c)%nat as Hd.
  { pose proof (chain_short c M rank home W _ Hdy _ _ Hlt) as K. cbn beta iota in K. pose proof (target_rank _ Ht). lia. }
  apply bind_safe; [eapply exits_safe; eauto|]. intros r H1.
  pose proof (exec_exits_ok c M _ _ _ _ _ _ _ _ Hlc Hlt A5 H1) as K. destruct r as [[[d2 se2] nn]|]; [| exact I].
  destruct K as (-> & Hlen & -> & Hfst & _ & _).
  apply bind_safe; [apply acts_safe; destruct A3; lia|]. intros d3 Hd3. apply (exec_acts_ok _ _ _ _ _ _ _ A3) in Hd3.
  apply bind_safe; [eapply entries_safe; [exact Hfst | apply rev_length | eapply enters_parents; eauto]|]. intros [d4 isc4] Hd4.
  apply (exec_entries_ok c M) with (es := rev (enters (cs :: lc) (t :: lt))) in Hd4 as [Hd4 _]; [| exact Hfst | apply rev_length].
  apply bind_safe; [apply rd_safe; rewrite Hlen; eapply depth_pos; eauto|]. intros stn _.
  apply bind_safe; [apply vx_safe, kind_vx, G2|]. intros x Hx. cbn in Hx. apply vx_ok in Hx. destruct x; try exact I.
  eapply micro_descend_safe; cbn; [exact Hx | | | reflexivity | reflexivity | apply A3 | exact Hlen].
  - subst. apply ram_say, ram_say. apply (leave_ok c M rank home W); [exact G1|]. intros s Hs'%exits_in.
    split; [exact (chain_parents M _ _ _ Hlc _ Hs')|].
    eapply (chain_bound c M rank home W); [exact G1 | exact Hlc | | exact Hs']. intros y [= <-].
    pose proof (segs_bound c M grd _ _ _ (home cs) Hs Hbc) as K. exact K.
  - subst d4 d3. unfold S_Sm.enter, effects. cbn [d_dyp say]. rewrite leave_dyp. exact G3.
Qed.
Lemma create_descend_safe pe fuel d v a al se isc : ram_ok d -> wf_initial c M home v = true ->
  length al = sm_segs c -> length se = sm_depth c ->
  safe (descend c M grd fuel false None pe a (mkW (say d [XTrn v (Some v)]) (Some v) al 0 (Some v) se 0) isc).
Proof.
  intros Hr Hi Hal Hse. unfold wf_initial in Hi. apply andb_true_iff in Hi as [Hk Hdef]. apply target_ok in Hk as [Hk Hhome].
  destruct fuel as [| f]; [exact I|]. cbn [descend w_al w_d w_ets].
  pose proof (holds_nil _ Hal) as Hh.
  apply bind_safe; [eapply holds_safe; eauto|]. intros r Ha. apply (add_action_ok _ _ _ _ _ _ Hh) in Ha.
  destruct r as [an|]; [| apply error_safe; cbn; tauto]. destruct an as [al' nal]. destruct Ha as [Hroom Ha]. cbn [app] in Ha.
  match goal with |- S_SmRun.safe c (bind (walk _ _ _ _ _ _ ?w) _) => set (w0 := w) end. set (p0 := mkP (say d [XTrn v (Some v)]) v (act1 a) v).
  assert (at_point c w0 p0) as Hp0 by (constructor; cbn; auto).
  assert (good p0) as G0 by (split; [apply ram_say, Hr|]; split; [exact Hk | cbn; rewrite Hhome; exact I]).
  assert (region_ok false p0) as R0 by (intros E; discriminate).
  apply bind_safe; [eapply walk_safe; eauto|]. intros r Hw. destruct r as [w1|]; [| exact I].
  destruct (after_walk _ _ _ _ _ _ Hp0 G0 R0 Hw) as (p1 & Hs & Ht & Hp1 & G1 & _).
  assert (within_top p1) as Htop by (eapply segs_top; eauto; left; cbn; eauto).
  pose proof (top_target _ Htop Ht) as Hht.
  destruct Hp1 as [A1 A2 A3 A4 A5]. destruct p1 as [d1 t l b]. cbn [p_d p_v p_pend p_base] in *.
  destruct G1 as (G1 & G2 & G3). cbn [p_d p_v] in *.
  pose proof (walk_nn _ _ _ _ _ _ _ Hw) as Hnn. cbn in Hnn.
  apply bind_safe.
  { apply bind_safe; [| intros [se' nn] _; exact I]. rewrite A2. apply add_target_safe; [apply kind_vx, G2|]. intros _. rewrite A5.
    apply root_list; auto. }
  intros r H1. apply bind_ok in H1 as ([se' nn] & Hadd & H1). injection H1 as <-. rewrite A2 in Hadd. rewrite Hnn. cbn [Nat.add].
  apply (add_target_ok M) in Hadd as (es & Hbel & -> & Hfst & Hlen); [| exact Ht].
  apply bind_safe; [apply acts_safe; destruct A3; lia|]. intros d2 Hd2. apply (exec_acts_ok _ _ _ _ _ _ _ A3) in Hd2. rewrite A1 in Hd2.
  apply bind_safe; [eapply entries_safe; [exact Hfst | reflexivity | eapply below_parents; eauto]|]. intros [d3 isc3] Hd3.
  apply (exec_entries_ok c M) with (es := es) in Hd3 as [Hd3 _]; [| exact Hfst | reflexivity].
  apply bind_safe; [apply rd_safe; rewrite Hlen, A5; eapply depth_pos; eauto|]. intros stn _. rewrite A2.
  apply bind_safe; [apply vx_safe, kind_vx, G2|]. intros x Hx. cbn in Hx. apply vx_ok in Hx. destruct x; try exact I.
  eapply micro_descend_safe; cbn; [exact Hx | | | reflexivity | reflexivity | apply A3 | lia].
  - subst. apply ram_say, ram_say, G1.
  - subst. exact G3.
Qed.

Lemma round_safe fuel d cr pe al se : (match cr with None => machine_ok d | Some (v, _) => ram_ok d /\ wf_initial c M home v = true end) ->
  length al = sm_segs c -> length se = sm_depth c -> safe (round c M grd fuel d cr pe al se).
Proof.
  intros Hm Hal Hse. unfold round. destruct cr as [[v a]|].
  - destruct Hm as [Hr Hi]. cbn [bind].
    apply bind_safe; [apply create_descend_safe; auto|]. intros r H. destruct r as [[[d' stn] isc]|]; [| exact I].
    assert (ok_kind M v = true /\ home v = None) as [Hk Hh].
    { unfold wf_initial in Hi. apply andb_true_iff in Hi as [Hi _]. apply target_ok in Hi. exact Hi. }
    pose proof (descend_create c M rank T grd _ _ _ _ _ _ _ _ _ (kind_rsm _ _ Hk) (ram_tidy c M home _ Hr) Hal Hse H) as (s & -> & _ & Ht & Hs & d1 & ts & l & b & es & C1 & C2 & C3 & C4 & C5).
    assert (good (mkP (say d [XTrn v (Some v)]) v (act1 a) v)) as G by (split; [apply ram_say, Hr|]; split; [exact Hk | cbn; rewrite Hh; exact I]).
    destruct (segs_good _ _ _ _ W _ _ _ _ C1 G) as (G1 & G2 & G3). cbn in G1, G2, G3.
    destruct (default_ok _ _ _ _ _ W _ _ _ _ C5) as [(Hr' & _ & Hb') _]; [apply ram_say, ram_say, G1 | exact C3 | exact G3 |].
    apply bind_safe; [apply update_deep_safe; auto | intros; exact I].
  - destruct Hm as (Hr & cs & Ecs & Hs & Hb). rewrite Ecs.
    pose proof (tr_dyp _ _ (ram_tidy c M home _ Hr)) as Hdy.
    destruct (chain_ex M rank T (d_dyp d) Hdy cs (leaf_parent _ _ Hs)) as [lc Hlc].
    apply bind_safe; [apply bind_safe; [eapply find_up_safe; eauto | intros [d1 [[src t]|]] _; exact I]|].
    intros r H. apply bind_ok in H as ([d1 r1] & Hf & H). eapply find_up_ok in Hf; [| exact Hlc].
    destruct r1 as [[src t]|]; injection H as <-; [| exact I]. pose proof Hf as Hsel.
    destruct (selected_ram M grd _ _ _ _ _ _ Hsel) as [y ->].
    destruct (t_tgt t) as [v|] eqn:Et.
    + destruct (selected_wf _ _ _ _ _ W _ _ _ _ _ _ _ Hsel Et) as (Hin & Hk & Hh).
      assert (bound (d_dyp d) (home v)) as Hbv.
      { rewrite Hh. eapply (chain_bound c M rank home W); [exact Hr | exact Hlc | | exact Hin]. intros z [= <-]. exact Hb. }
      apply bind_safe; [apply fire_descend_safe; auto using ram_say; apply leaf_parent, Hs|]. intros r H. destruct r as [[[d' stn] isc]|]; [| exact I].
      pose proof (descend_fire c M rank T grd _ _ _ _ _ _ _ _ _ _ _ (leaf_parent _ _ Hs) (kind_rsm _ _ Hk) (tidy_say _ _ _ (ram_tidy c M home _ Hr)) Hal Hse H) as (s & -> & Hfire & _).
      destruct (fire_wf _ _ _ _ _ W _ _ _ _ _ _ _ Hfire) as [(I1 & I2 & I3) _]; auto using ram_say.
      apply bind_safe; [apply update_deep_safe; auto | intros; exact I].
    + apply bind_safe; [eapply holds_safe, holds_nil, Hal|]. intros r Ha. apply (add_action_ok _ _ _ _ _ _ (holds_nil _ Hal)) in Ha.
      destruct r as [[al' nal]|]; [| apply error_safe; cbn; tauto]. destruct Ha as [_ Ha].
      apply bind_safe; [apply acts_safe; destruct Ha; lia | intros; exact I].
Qed.

Lemma complete_safe ars : arrays_ok c ars -> forall fuel d isc k, machine_ok d -> safe (complete c M grd fuel d isc ars k).
Proof.
  intros Ha. induction fuel as [| f IH]; intros d isc k Hm; destruct isc; cbn [complete]; try exact I. destruct (Ha k) as [A1 A2].
  apply bind_safe; [apply round_safe; auto|]. intros r Hr.
  assert (resting M d) as Hrest by (destruct Hm as (Hr0 & s & E1 & E2 & _); split; [apply (ram_tidy c M home), Hr0 | eauto]).
  pose proof (round_ok c M rank T grd _ _ _ _ _ _ Hrest A1 A2 Hr) as K.
  destruct r as [[d1 isc1] | e d1]; [| exact I]. apply IH. destruct isc1; apply (step_wf _ _ _ _ _ W _ _ _ K Hm).
Qed.

(** * Executions *)
Definition ready (d : dyn) : Prop :=
  ram_ok d /\ match d_st d with None => True | Some s => is_leaf M s = true /\ bound (d_dyp d) (home s) end.
Lemma ready_machine d s : ready d -> d_st d = Some s -> machine_ok d.
Proof. intros [H1 H2] E. rewrite E in H2. split; [exact H1|]. exists s. auto. Qed.
Lemma machine_ready d : machine_ok d -> ready d.
Proof. intros (H1 & s & E & H2). split; [exact H1|]. rewrite E. exact H2. Qed.
Lemma machine_resting d : machine_ok d -> resting M d.
Proof. intros (Hr0 & s & E1 & E2 & _); split; [apply (ram_tidy c M home), Hr0 | eauto]. Qed.
Lemma initial_kind v : wf_initial c M home v = true -> ok_kind M v = true /\ home v = None.
Proof. unfold wf_initial. intros [H _]%andb_true_iff. apply target_ok in H. exact H. Qed.

Lemma dispatch_safe fuel istate iact d pe ars : wf_initial c M home istate = true -> arrays_ok c ars ->
  ready d -> (d_st d = None -> ev_sig pe = (sm_any c - 2)%N) ->
  safe (dispatch c M grd fuel istate iact d pe ars) /\
  forall d' e, dispatch c M grd fuel istate iact d pe ars = Ok (d', e) -> uml_dispatch c M grd istate iact d pe d' e /\ ready d'.
Proof.
  intros Hi Ha Hd Hn. destruct (initial_kind _ Hi) as [Hk Hh]. destruct (Ha O) as [A1 A2].
  assert (tidy_ram M d) as Ht by (apply (ram_tidy c M home), Hd).
  split.
  - unfold dispatch, sig_creation. apply bind_safe.
    + apply round_safe; auto. destruct (N.eqb_spec (ev_sig pe) (sm_any c - 2)) as [E | E]; [split; [apply Hd | exact Hi]|].
      destruct (d_st d) as [s|] eqn:Es; [eapply ready_machine; eauto | exfalso; auto].
    + intros r Hr. destruct r as [[d1 isc1] | e d1]; [| exact I]. apply complete_safe; [exact Ha|].
      destruct (N.eqb_spec (ev_sig pe) (sm_any c - 2)) as [E | E].
      * pose proof (round_create c M rank T grd _ _ _ _ _ _ _ _ (kind_rsm _ _ Hk) Ht A1 A2 Hr) as K.
        destruct isc1; apply (create_wf _ _ _ _ _ W _ _ _ _ _ K (proj1 Hd) Hk Hh).
      * destruct (d_st d) as [s|] eqn:Es; [| exfalso; auto]. pose proof (ready_machine _ _ Hd Es) as Hm.
        pose proof (round_ok c M rank T grd _ _ _ _ _ _ (machine_resting _ Hm) A1 A2 Hr) as K.
        destruct isc1; apply (step_wf _ _ _ _ _ W _ _ _ K Hm).
  - intros d' e H. apply (dispatch_ok c M rank T grd) in H; [| apply kind_rsm, Hk | exact Ha |].
    2: { destruct (N.eqb_spec (ev_sig pe) (sm_any c - 2)) as [E | E]; [exact Ht|].
         destruct (d_st d) as [s|] eqn:Es; [eapply machine_resting, ready_machine; eauto | exfalso; auto]. }
    split; [exact H|]. destruct H as (r & H1 & H2). destruct (N.eqb_spec (ev_sig pe) (sm_any c - 2)) as [E | E].
    + destruct r as [d1 | d1 | d1 e1].
      * pose proof (create_wf _ _ _ _ _ W _ _ _ _ _ H1 (proj1 Hd) Hk Hh) as K. apply machine_ready. eapply finish_wf; eauto.
      * pose proof (create_wf _ _ _ _ _ W _ _ _ _ _ H1 (proj1 Hd) Hk Hh) as K. apply machine_ready. eapply finish_wf; eauto.
      * pose proof (create_error _ _ _ _ _ W _ _ _ _ _ _ H1 (proj1 Hd) Hk Hh) as (K1 & K2 & K3). inversion H2; subst.
        split; [exact K1|]. rewrite K2. destruct Hd as [_ Hd]. destruct (d_st d); [| exact I]. destruct Hd. auto.
    + destruct (d_st d) as [s|] eqn:Es; [| exfalso; auto]. pose proof (ready_machine _ _ Hd Es) as Hm.
      apply machine_ready. eapply finish_wf; eauto. pose proof (step_wf _ _ _ _ _ W _ _ _ H1 Hm) as K. exact K.
Qed.

Lemma ready_clear d h : ready d -> ready (clear_history d h).
Proof.
  intros [[H1 H2 H3] H4]. split; [| exact H4]. constructor; [| exact H2 |].
  - intros h' s. cbn. unfold fupd. destruct (h' =? h)%nat; [discriminate | apply H1].
  - intros h' deep q dft s Hh. cbn. unfold fupd. destruct (h' =? h)%nat; [discriminate | apply (H3 _ _ _ _ _ Hh)].
Qed.
Lemma do_safe fuel istate iact d op : wf_initial c M home istate = true -> smop_ok c op -> ready d ->
  safe (sm_do c M grd fuel istate iact d op) /\
  forall d', sm_do c M grd fuel istate iact d op = Ok d' -> ready d'.
Proof.
  intros Hi Ho Hd. destruct op as [ars | pe ars | h]; cbn [sm_do].
  - destruct (dispatch_safe fuel istate iact d (evCreation c) ars Hi Ho Hd) as [S1 S2]; [reflexivity|].
    split; [apply bind_safe; [exact S1 | intros [d' e] _; exact I]|].
    intros d' H. apply bind_ok in H as ([d1 e] & H1 & H). injection H as <-. eapply S2; eauto.
  - destruct (d_st d) as [s|] eqn:Es; [| split; [exact I | intros d' [= <-]; exact Hd]].
    destruct (dispatch_safe fuel istate iact d pe ars Hi Ho Hd) as [S1 S2]; [congruence|].
    split; [apply bind_safe; [exact S1 | intros [d' e] _; exact I]|].
    intros d' H. apply bind_ok in H as ([d1 e] & H1 & H). injection H as <-. eapply S2; eauto.
  - split; [exact I|]. intros d' [= <-]. apply ready_clear, Hd.
Qed.
Lemma run_ready fuel istate iact : wf_initial c M home istate = true -> forall ops d, Forall (smop_ok c) ops -> ready d ->
  safe (sm_run c M grd fuel istate iact d ops) /\
  forall d', sm_run c M grd fuel istate iact d ops = Ok d' -> ready d'.
Proof.
  intros Hi. induction ops as [| op r IH]; intros d Ho Hd; cbn [sm_run].
  - split; [exact I | intros d' [= <-]; exact Hd].
  - inversion Ho; subst. destruct (do_safe fuel istate iact d op Hi) as [S1 S2]; auto. split.
    + apply bind_safe; [exact S1|]. intros d1 Hd1. apply IH; auto.
    + intros d' H. apply bind_ok in H as (d1 & Hd1 & H). eapply IH; [| | exact H]; auto.
Qed.
Lemma blank_ready : ready blank.
Proof. split; [| exact I]. constructor; cbn; discriminate. Qed.
End Safe.
