(** A dispatch ends unless completion events follow one another for ever. *)
From Verif Require Import Base L_Base M_Sm S_Sm S_SmWf S_SmRun S_SmTerm L_Sm L_SmWalk L_SmStep L_SmWf L_SmKeep L_SmSafe.

Definition live {A} (r : res A) : Prop := r <> Fault FFuel.
Lemma bind_live {A B} (r : res A) (k : A -> res B) : live r -> (forall a, r = Ok a -> live (k a)) -> live (bind r k).
Proof. unfold live. destruct r as [a | f]; cbn; auto. intros H _ [= ->]. apply H. reflexivity. Qed.
Lemma ok_live {A} (a : A) : live (Ok a).
Proof. discriminate. Qed.
Lemma ub_live {A} k : live (Fault (FUB k) : res A).
Proof. discriminate. Qed.
Lemma assert_live {A} k : live (Fault (FAssert k) : res A).
Proof. discriminate. Qed.
Lemma rassert_live en line b : live (rassert en line b).
Proof. unfold rassert. destruct en, b; discriminate. Qed.
Lemma error_live c {A} line r d : live (error c (A := A) line r d).
Proof. unfold error. apply bind_live; [apply rassert_live | discriminate]. Qed.
Lemma wr_live {A} (l : list A) i x : live (wr l i x).
Proof. unfold wr. destruct (Nat.ltb i (length l)); discriminate. Qed.
Lemma rd_live {A} (l : list A) i : live (rd l i).
Proof. unfold rd. destruct (nth_error l i); discriminate. Qed.
Lemma vx_live M v : live (vx M v).
Proof. unfold vx. destruct (nth_error M v); discriminate. Qed.
Lemma vxo_live M v : live (vxo M v).
Proof. destruct v; [apply vx_live | discriminate]. Qed.
Lemma st_parent_live x : live (st_parent x).
Proof. destruct x; discriminate. Qed.
Lemma st_enter_live x : live (st_enter x).
Proof. destruct x; discriminate. Qed.
Lemma st_exit_live x : live (st_exit x).
Proof. destruct x; discriminate. Qed.
Lemma st_tbl_live x : live (st_tbl x).
Proof. destruct x; discriminate. Qed.
Lemma update_parent_live M d s : live (update_parent M d s).
Proof.
  unfold update_parent. apply bind_live; [apply vx_live|]. intros x _. apply bind_live; [apply st_parent_live|]. intros [q|] _; [| discriminate].
  apply bind_live; [apply vx_live|]. intros [] _; discriminate.
Qed.
Lemma add_action_live c al nal a : live (add_action c al nal a).
Proof.
  unfold add_action. destruct (sm_segs c <=? nal)%nat; [discriminate|]. destruct a; [| discriminate].
  apply bind_live; [apply wr_live | discriminate].
Qed.
Lemma exec_acts_live pe n : forall al i d, live (exec_acts al i n d pe).
Proof. induction n as [| n IH]; intros al i d; cbn [exec_acts]; [discriminate|]. apply bind_live; [apply rd_live | auto]. Qed.
Lemma exec_entries_live c M n : forall se d isc, live (exec_entries c M n se d isc).
Proof.
  induction n as [| n IH]; intros se d isc; cbn [exec_entries]; [discriminate|]. apply bind_live; [apply rd_live|]. intros s _.
  apply bind_live; [apply vxo_live|]. intros x _. apply bind_live; [apply st_enter_live|]. intros a _. destruct s; [apply IH | discriminate].
Qed.
Lemma update_shallow_live M d s : live (update_shallow M d s).
Proof.
  unfold update_shallow. apply bind_live; [apply vx_live|]. intros x _. apply bind_live; [apply st_parent_live|]. intros [q|] _; [| discriminate].
  apply bind_live; [apply vx_live|]. intros [] _; try discriminate. destruct hist; [| discriminate].
  apply bind_live; [apply vx_live|]. intros [] _; try discriminate. destruct deep; discriminate.
Qed.
Global Hint Resolve ok_live ub_live assert_live rassert_live error_live wr_live rd_live vx_live vxo_live st_parent_live st_enter_live st_exit_live
  st_tbl_live update_parent_live add_action_live exec_acts_live exec_entries_live update_shallow_live : live.
Lemma nil_holds c al : length al = sm_segs c -> holds c al 0 [].
Proof. intros H. constructor; cbn; auto; lia. Qed.
Ltac lv := apply bind_live; [solve [auto with live] |].

Section Term.
Context (c : smcfg) (M : machine) (rank : nat -> nat) (home : nat -> option nat).
Context (W : wf_machine c M rank home = true).
Notation ram_ok := (ram_ok c M home).
Notation machine_ok := (machine_ok c M home).
Notation good := (good c M home).
Notation chain := (chain M).
Notation T := (wf_tidy c M rank home W).

Lemma find_up_live grd pe fuel : forall d stn l, chain (d_dyp d) stn l -> (length l <= fuel)%nat -> live (find_up M grd fuel d stn pe).
Proof.
  induction fuel as [| f IH]; intros d stn l Hl Hf; (destruct stn as [s|]; cbn [find_up]; [| discriminate]).
  - inversion Hl; subst. cbn in Hf. lia.
  - lv. intros x Hx%vx_ok. lv. intros tbl _.
    destruct (find_trn grd d pe tbl (ev_sig pe)) as [d1 [t|]] eqn:F; [discriminate|].
    lv. intros p Hp%update_parent_ok. destruct Hp as (q & Hq & ->).
    inversion Hl as [| s' p' l' Hp' Hl']; subst. assert (p' = q) by congruence. subst p'.
    assert (d_dyp d1 = d_dyp d) as E.
    { pose proof (find_trn_ok grd pe (ev_sig pe) tbl d) as K. rewrite F in K. destruct (denied_ram _ _ _ _ _ K) as [y ->]. reflexivity. }
    cbn in Hf. eapply IH; [rewrite E; exact Hl' | lia].
Qed.

Lemma add_loop_live fuel : forall s se n cmp, (rank s + 2 <= fuel)%nat -> live (add_target_loop M fuel (Some s) se n cmp).
Proof.
  induction fuel as [| f IH]; intros s se n cmp Hf; [lia|]. cbn [add_target_loop].
  destruct (match cmp with Some b => (s =? b)%nat | None => false end); [discriminate|].
  lv. intros se' _. lv. intros x Hx. cbn in Hx. apply vx_ok in Hx. lv. intros p Hp. pose proof (st_parent_ok _ _ _ _ Hx Hp) as E.
  destruct p as [q|].
  - apply IH. destruct (wf_parent_some _ _ _ _ W _ _ E) as [K _]. lia.
  - destruct f as [| f]; [lia|]. cbn [add_target_loop]. destruct cmp; [| discriminate]. lv. intros se2 _. discriminate.
Qed.
Lemma add_target_live fuel st se cmp : (sm_depth c + 1 <= fuel)%nat -> live (add_target M fuel st se cmp).
Proof.
  intros Hf. unfold add_target. apply bind_live; [apply vxo_live|]. intros x Hx. apply vxo_ok in Hx as (s & -> & Hx).
  assert (is_target M s = true -> live (add_target_loop M fuel (Some s) se 0 cmp)) as K.
  { intros H. apply add_loop_live. pose proof (target_rank c M rank home W _ H). lia. }
  unfold is_target in K. rewrite Hx in K. destruct x; try discriminate; apply K; reflexivity.
Qed.
Lemma micro_live fuel micro w : (sm_depth c + 1 <= fuel)%nat -> live (micro_targets M fuel micro w).
Proof.
  intros Hf. unfold micro_targets. destruct micro; [| discriminate]. apply bind_live; [apply add_target_live, Hf|]. intros [se nn] _. discriminate.
Qed.

Lemma branch_live grd fuel micro pe w tbl : (sm_depth c + 1 <= fuel)%nat -> live (branch c M grd fuel micro pe w tbl).
Proof.
  intros Hf. unfold branch. destruct (find_branch _ _ _ _) as [d1 [t|]]; [| discriminate]. lv. intros [an|] _; [| apply error_live].
  apply bind_live; [apply micro_live, Hf | discriminate].
Qed.
Lemma pseudo_live grd fuel micro pe w : (sm_depth c + 1 <= fuel)%nat -> live (pseudo c M grd fuel micro pe w).
Proof.
  intros Hf. unfold pseudo. lv. intros x Hx.
  destruct x as [en ex par tbl | en ex par tbl dc ia hi | par | en ex par tbl expcn rsm | dc ia | tbl | tbl
               | deep par dft | a tgt par | ix rsm | par]; try discriminate.
  - lv. intros [] _; try discriminate. cbn zeta. lv. intros [an|] _; [discriminate|]. lv. discriminate.
  - apply bind_live; [apply branch_live, Hf | discriminate].
  - lv. intros d0 _. apply bind_live; [apply branch_live, Hf | discriminate].
  - apply bind_live.
    { destruct (sm_asrt c); [| discriminate]. destruct par; [| discriminate]. lv. intros [] _; try discriminate. auto with live. }
    intros _ _. destruct (w_ets w) as [v|]; [| discriminate]. cbn zeta. apply bind_live.
    { destruct (d_hist _ _); [discriminate|]. destruct (t_tgt dft); [| discriminate].
      destruct (match t_grd dft with Some g => _ | None => _ end) as [d b]. destruct b; [| discriminate].
      lv. intros [an|] _; auto with live. }
    intros [w1 | e d1] _; [| discriminate]. apply bind_live; [apply micro_live, Hf | discriminate].
  - lv. intros [] _; try discriminate. lv. intros [] _; try discriminate. cbn zeta. lv. intros [an|] _; [discriminate|]. lv. discriminate.
  - lv. intros [] _; try discriminate. lv. intros [] _; try discriminate. lv. intros [act tgt] _. lv. intros [an|] _; [discriminate|]. lv. discriminate.
  - lv. discriminate.
Qed.

Lemma entry_list_live fuel : forall d stx stn ix se l, chain (d_dyp d) stn l -> (length l <= fuel)%nat ->
  live (entry_list c M fuel d stx stn ix se).
Proof.
  induction fuel as [| f IH]; intros d stx stn ix se l Hl Hf; (destruct stn as [n|]; cbn [entry_list]; [| discriminate]).
  - inversion Hl; subst. cbn in Hf. lia.
  - destruct (stx =? n)%nat; [discriminate|]. destruct (ix <? sm_depth c)%nat; [| discriminate]. lv. intros se' _.
    lv. intros p Hp%update_parent_ok. destruct Hp as (q & Hq & ->).
    inversion Hl as [| s' p' l' Hp' Hl']; subst. assert (p' = q) by congruence. subst p'. cbn in Hf. eapply IH; [exact Hl' | lia].
Qed.
Lemma exits_live fuel : forall d stx k tgt se ix lc lt, chain (d_dyp d) stx lc -> chain (d_dyp d) tgt lt ->
  (length lc + length lt <= fuel)%nat -> live (exec_exits c M fuel d stx k tgt se ix).
Proof.
  induction fuel as [| f IH]; intros d stx k tgt se ix lc lt Hlc Hlt Hf; (destruct stx as [s|]; cbn [exec_exits]; [| discriminate]).
  - inversion Hlc; subst. cbn in Hf. lia.
  - apply bind_live; [eapply entry_list_live; [exact Hlt | lia]|]. intros r Hr.
    destruct r as [[[o n] se']|]; [| apply error_live].
    destruct (negb match o with Some _ => true | None => false end || (k =? 0)%nat); [| discriminate].
    lv. intros x Hx%vx_ok. lv. intros ac Ha. lv. intros d1 Hd1. apply (update_shallow_ok _ _ _ _ _ _ Hx Ha) in Hd1 as ->.
    destruct o as [o|]; [lv; discriminate|].
    lv. intros p Hp%update_parent_ok. destruct Hp as (q & Hq & ->).
    inversion Hlc as [| s' p' l' Hp' Hl']; subst. assert (p' = q) by congruence. subst p'. rewrite leave1_dyp.
    cbn in Hf. eapply IH; rewrite ?leave1_dyp; [exact Hl' | exact Hlt | lia].
Qed.

Lemma deep_loop_live from fuel : forall d s,
  (forall r m, d_dyp d r = Some m -> exists en ex p tbl e, nth_error M m = Some (VSubm en ex p tbl e r)) ->
  match s with Some q => (rank q < fuel)%nat | None => True end -> live (update_deep_loop M fuel d from s).
Proof.
  induction fuel as [| f IH]; intros d s Hd Hf; (destruct s as [q|]; cbn [update_deep_loop]; [| discriminate]); [lia|].
  lv. intros y Hy%vx_ok.
  assert (forall d' p, d_dyp d' = d_dyp d -> match p with Some q' => (rank q' < rank q)%nat | None => True end ->
    live (update_deep_loop M f d' from p)) as K.
  { intros d' p E Hp. apply IH; [rewrite E; exact Hd|]. destruct p; [lia | exact I]. }
  assert (forall m p, parent_of M m = Some p -> match p with Some q' => (rank q' < rank m)%nat | None => True end) as Q.
  { intros m [q'|] E; [| exact I]. apply (wf_parent_some _ _ _ _ W _ _ E). }
  destruct y as [| en ex p tbl dc ia hi | | | | | | | | |]; try discriminate.
  - pose proof (Q q p ltac:(unfold parent_of; rewrite Hy; reflexivity)) as Hp.
    destruct hi as [h|]; [| apply K; auto]. lv. intros [] _; try discriminate; [destruct deep |]; apply K; auto.
  - apply bind_live; [apply vxo_live|]. intros z Hz. apply vxo_ok in Hz as (m & Em & Hm). destruct (Hd _ _ Em) as (en & ex & p & tbl & e & Hm').
    rewrite Hm in Hm'. injection Hm' as ->. cbn [st_parent bind]. apply K; [reflexivity|].
    pose proof (Q m p ltac:(unfold parent_of; rewrite Hm; reflexivity)) as Hp. pose proof (ty_sub _ _ T _ _ _ _ _ _ _ Hm). destruct p; [lia | exact I].
Qed.
Lemma update_deep_live fuel d s : tidy_ram M d -> (sm_depth c <= fuel)%nat -> live (update_deep M fuel d s).
Proof.
  intros Ht Hf. unfold update_deep. apply bind_live; [apply vxo_live|]. intros x Hx. apply vxo_ok in Hx as (v & -> & Hx).
  apply bind_live; [apply st_parent_live|]. intros p Hp. pose proof (st_parent_ok _ _ _ _ Hx Hp) as E.
  apply deep_loop_live; [apply Ht|]. destruct p as [q|]; [| exact I]. destruct (wf_parent_some _ _ _ _ W _ _ E) as [K _].
  pose proof (wf_parent _ _ _ _ W _ _ E) as [_ K2]. lia.
Qed.

(** * Paths *)
Context (grd : nat -> evt -> list xev -> bool).
Context (order : nat -> nat) (P : paths_end M order = true) (D : defaults_enter M = true).

Lemma path_at v w : nth_error M v <> None -> In w (onward M v) -> is_target M w = true \/ (order w < order v)%nat.
Proof.
  intros Hv Hw. unfold paths_end in P. rewrite forallb_forall in P. specialize (P v). rewrite in_seq in P.
  destruct (andb_prop _ _ (P ltac:(split; [lia|]; cbn; apply nth_error_Some; exact Hv))) as [_ H].
  rewrite forallb_forall in H. specialize (H _ Hw). apply orb_true_iff in H as [H | H]; [auto | right; apply Nat.ltb_lt, H].
Qed.
Lemma order_small v : nth_error M v <> None -> (order v < length M)%nat.
Proof.
  intros Hv. unfold paths_end in P. rewrite forallb_forall in P. specialize (P v). rewrite in_seq in P.
  destruct (andb_prop _ _ (P ltac:(split; [lia|]; cbn; apply nth_error_Some; exact Hv))) as [H _]. apply Nat.ltb_lt, H.
Qed.
Lemma in_targets tbl t w : In t tbl -> t_tgt t = Some w -> In w (flat_map (fun t => some1 (t_tgt t)) tbl).
Proof. intros H E. apply in_flat_map. exists t. rewrite E. cbn. auto. Qed.
Lemma seg_onward pe p p' : seg c M grd pe p p' -> good p -> is_target M (p_v p') = true \/ (order (p_v p') < order (p_v p))%nat.
Proof.
  intros H (Hr & Hk & Hb).
  inversion H as [d v l b tbl t d1 v1 Hv F Hroom Et | d v l b tbl t d1 v1 Hv F Hroom Et
    | d v l b deep qq dft s Hv Eh | d v l b deep qq dft d1 v1 Hv Eh Et Hen Hroom | d v l b deep qq dft Hv Eh Et
    | d v l b en ex pp tbl e r v1 ia Hv Hv2 Hroom | d v l b a m v1 en ex pp tbl e r Hv Hm' Hroom
    | d v l b ix r m a v1 en ex pp tbl e r' Hv Em Hm' He Hroom]; subst; cbn [p_d p_v p_base] in *.
  - apply path_at; [congruence|]. unfold onward. rewrite Hv. pose proof (first_in _ _ _ _ _ _ F) as Hi. apply filter_In in Hi as [Hi _].
    eapply in_targets; eauto.
  - apply path_at; [congruence|]. unfold onward. rewrite Hv. pose proof (first_in _ _ _ _ _ _ F) as Hi. apply filter_In in Hi as [Hi _].
    eapply in_targets; eauto.
  - destruct (ro_hist _ _ _ _ Hr _ _ _ _ _ Hv Eh) as [_ B]. destruct deep.
    + left. destruct B as [B1 _]. unfold is_leaf in B1. unfold is_target. destruct (nth_error M s) as [[]|]; congruence.
    + unfold parent_of in B. destruct (nth_error M s) as [x|] eqn:Es; [| discriminate].
      destruct x; try discriminate; try (left; unfold is_target; rewrite Es; reflexivity). injection B as ->.
      apply path_at; [congruence|]. unfold onward. rewrite Hv. apply in_app_iff. right. apply filter_In. split.
      * apply in_seq. split; [lia|]. cbn. apply nth_error_Some. congruence.
      * rewrite Es. apply Nat.eqb_refl.
  - apply path_at; [congruence|]. unfold onward. rewrite Hv. apply in_app_iff. left. rewrite Et. left. reflexivity.
  - left. apply comp_target. destruct (ty_hist _ _ T _ _ _ _ Hv) as (q' & [= <-] & Hq). exact Hq.
  - apply path_at; [congruence|]. unfold onward. rewrite Hv, Hv2. left. reflexivity.
  - apply path_at; [congruence|]. unfold onward. rewrite Hv. left. reflexivity.
  - destruct (ro_dyp _ _ _ _ Hr _ _ Em) as [(en2 & ex2 & p2 & tbl2 & e2 & Hm2) _]. rewrite Hm' in Hm2. injection Hm2 as -> -> -> -> -> ->.
    apply path_at; [congruence|]. unfold onward. rewrite Hv. apply in_flat_map. exists (VSubm en2 ex2 p2 tbl2 e2 r).
    split; [eapply nth_error_In; eauto|]. cbn. rewrite Nat.eqb_refl, He. left. reflexivity.
Qed.

Definition len (v : nat) : nat := if is_target M v then 0 else S (order v).
Lemma seg_len pe p p' : seg c M grd pe p p' -> good p -> (len (p_v p') < len (p_v p))%nat.
Proof.
  intros H G. assert (is_target M (p_v p) = false) as E.
  { inversion H; subst; cbn; unfold is_target; match goal with G : nth_error M ?v = _ |- match nth_error M ?v with _ => _ end = _ => rewrite G end; reflexivity. }
  unfold len. rewrite E. destruct (seg_onward _ _ _ H G) as [-> | K]; [lia|]. destruct (is_target M (p_v p')); lia.
Qed.
Lemma walk_live pe micro fuel : forall w p, at_point c w p -> good p -> (len (p_v p) + sm_depth c + 2 <= fuel)%nat ->
  live (walk c M grd fuel micro pe w).
Proof.
  induction fuel as [| f IH]; intros w p Hp G Hf; [lia|]. cbn [walk].
  apply bind_live; [apply pseudo_live; lia|]. intros r H. destruct r as [[w1 | e d1]|]; try discriminate.
  destruct (pseudo_next c M rank home W grd _ _ _ _ _ _ Hp G H) as (p' & Hs & Hp').
  eapply IH; [exact Hp' | eapply (seg_good c M rank home W); eauto |]. pose proof (seg_len _ _ _ Hs G). lia.
Qed.
Lemma len_small v : ok_kind M v = true -> (len v <= length M)%nat.
Proof.
  intros H. unfold len. destruct (is_target M v); [lia|]. pose proof (order_small v (kind_vx M v H)). lia.
Qed.

(** * Default entry goes inwards *)
Definition goes_in (q : nat) (p : point) : Prop := (exists n, leads_in M n q (p_v p) = true) \/ is_target M (p_v p) = true /\ p_v p <> q.
Lemma inside_rank q v : inside M q v -> v <> q -> (rank q < rank v)%nat.
Proof.
  assert (forall v, inside M q v -> (rank q <= rank v)%nat) as K.
  { induction 1 as [| v' p Hp H IH]; [lia|]. destruct (wf_parent_some _ _ _ _ W _ _ Hp). lia. }
  intros H Hn. inversion H as [| v' p Hp H']; subst; [congruence|]. pose proof (K _ H'). destruct (wf_parent_some _ _ _ _ W _ _ Hp). lia.
Qed.
Lemma seg_in pe q p p' : seg c M grd pe p p' -> good p -> within_region c M home q p -> goes_in q p -> goes_in q p'.
Proof.
  intros H (Hr & Hk & Hb) (Eb & Hc & Hm) Hg.
  inversion H as [d v l b tbl t d1 v1 Hv F Hroom Et | d v l b tbl t d1 v1 Hv F Hroom Et
    | d v l b deep qq dft s Hv Eh | d v l b deep qq dft d1 v1 Hv Eh Et Hen Hroom | d v l b deep qq dft Hv Eh Et
    | d v l b en ex pp tbl e r v1 ia Hv Hv2 Hroom | d v l b a m v1 en ex pp tbl e r Hv Hm' Hroom
    | d v l b ix r m a v1 en ex pp tbl e r' Hv Em Hm' He Hroom]; subst; cbn [p_d p_v p_base] in *;
    (destruct Hm as [(n & Hm) | [Hm _]]; [| unfold is_target in Hm; rewrite Hv in Hm; discriminate]);
    (destruct n as [| n]; [discriminate|]); cbn [ok_default] in Hm; rewrite Hv in Hm; try discriminate;
    (destruct Hg as [(k & Hg) | [Hg _]]; [| cbn [p_v] in Hg; unfold is_target in Hg; rewrite Hv in Hg; discriminate]);
    (destruct k as [| k]; [discriminate|]); cbn [leads_in p_v] in Hg; rewrite Hv in Hg.
  - pose proof (first_in _ _ _ _ _ _ F) as Hi. apply filter_In in Hi as [Hi _]. rewrite forallb_forall in Hg. specialize (Hg _ Hi).
    rewrite Et in Hg. left. eauto.
  - pose proof (first_in _ _ _ _ _ _ F) as Hi. apply filter_In in Hi as [Hi _]. rewrite forallb_forall in Hg. specialize (Hg _ Hi).
    rewrite Et in Hg. left. eauto.
  - apply andb_true_iff in Hm as [Hm _]. apply andb_true_iff in Hm as [Hp Hq]. apply Nat.eqb_eq in Hq as ->.
    right. cbn [p_v]. destruct (ro_hist _ _ _ _ Hr _ _ _ _ _ Hv Eh) as [_ B]. destruct deep.
    + destruct B as [B1 B2]. split.
      * unfold is_leaf in B1. unfold is_target. destruct (nth_error M s) as [[]|]; congruence.
      * intros ->. unfold is_leaf, is_comp in *. destruct (nth_error M b) as [[]|]; congruence.
    + split.
      * pose proof B as B'. unfold parent_of in B'. unfold is_target. destruct (nth_error M s) as [[]|] eqn:Es; try discriminate; try reflexivity.
        exfalso. assert (inside M b s) as Hin by (econstructor; [exact B | constructor]). eapply (plain_no_subm c M rank home W); eauto.
      * intros ->. destruct (wf_parent_some _ _ _ _ W _ _ B). lia.
  - rewrite Et in Hg. left. eauto.
  - rewrite Et in Hg. discriminate.
Qed.
Lemma segs_in pe q p p' : segs c M grd pe p p' -> good p -> within_region c M home q p -> goes_in q p -> goes_in q p'.
Proof.
  induction 1 as [| p r s H1 H2 IH]; [auto|]. intros G R I. apply IH; [eapply (seg_good c M rank home W); eauto | eapply (seg_region c M rank home W); eauto | eapply seg_in; eauto].
Qed.
Lemma in_not q p : goes_in q p -> is_target M (p_v p) = true -> p_v p <> q.
Proof.
  intros [(n & H) | H] Ht; [| tauto]. destruct n; [discriminate|]. cbn in H. unfold is_target in Ht.
  destruct (nth_error M (p_v p)) as [[]|]; try discriminate; intros E; rewrite E, Nat.eqb_refl in H; discriminate.
Qed.
Lemma comp_leads q en ex p tbl w ia h : nth_error M q = Some (VComp en ex p tbl (Some w) ia h) -> leads_in M (length M) q w = true.
Proof.
  intros H. unfold defaults_enter in D. rewrite forallb_forall in D. specialize (D q). rewrite H in D. apply D.
  apply in_seq. split; [lia|]. cbn. apply nth_error_Some. congruence.
Qed.

Definition turn : nat := length M + 2 * sm_depth c + 2.
Lemma micro_descend_live pe cs fuel : forall q en ex p tbl dc ia h w isc,
  nth_error M q = Some (VComp en ex p tbl dc ia h) -> ram_ok (w_d w) -> bound (d_dyp (w_d w)) (home q) ->
  w_ets w = dc -> w_stn w = Some q -> length (w_al w) = sm_segs c -> length (w_se w) = sm_depth c ->
  (turn + (sm_depth c - rank q) <= fuel)%nat ->
  live (descend c M grd fuel true cs pe ia w isc).
Proof.
  induction fuel as [| f IH]; intros q en ex p tbl dc ia h w isc Hq Hr Hb Hets Hstn Hal Hse Hf; cbn [descend]; [unfold turn in Hf; lia|].
  pose proof (nil_holds c _ Hal) as Hh.
  lv. intros r Ha. apply (add_action_ok _ _ _ _ _ _ Hh) in Ha.
  destruct r as [an|]; [| apply error_live]. destruct an as [al nal]. destruct Ha as [Hroom Ha]. cbn [app] in Ha.
  pose proof (wf_at _ _ _ _ W _ _ Hq) as Wq. cbn in Wq. apply andb_true_iff in Wq as [_ Wq]. destruct dc as [v|]; [| discriminate].
  destruct (comp_default c M grd rank home W _ _ _ _ _ _ _ _ Hq) as (K1 & K2 & K3).
  set (w0 := w_seg w (w_d w) (w_ets w) (al, nal)). set (p0 := mkP (w_d w) v (act1 ia) q).
  assert (at_point c w0 p0) as Hp0 by (constructor; cbn; auto).
  assert (good p0) as G0 by (split; [exact Hr|]; split; [exact K1|]; cbn; rewrite K2; exact Hb).
  assert (within_region c M home q p0) as R0.
  { split; [reflexivity|]. split; [cbn; unfold is_comp; rewrite Hq; reflexivity|]. left. eauto. }
  pose proof (len_small v K1) as Hlen0.
  apply bind_live; [eapply walk_live; eauto; cbn; unfold turn in Hf; lia|]. intros r Hw. destruct r as [w1|]; [| discriminate].
  destruct (after_walk c M rank home W grd _ _ _ _ _ _ Hp0 G0 (fun _ => R0) Hw) as (p1 & Hs & Ht & Hp1 & G1 & R1).
  assert (p_v p1 <> q) as Hne by (eapply in_not; [eapply segs_in; eauto; left; exists (length M); eapply comp_leads; eauto | exact Ht]).
  pose proof (R1 eq_refl) as R1'. pose proof (region_target c M home grd _ _ R1' Ht) as Hin.
  assert (p_base p1 = q) as Ebase.
  { assert (forall p p', segs c M grd pe p p' -> good p -> within_region c M home q p -> p_base p' = q) as B.
    { induction 1 as [p' | p' r' s' H1 H2 IH']; [intros _ HR; apply HR|]. intros G R. apply IH'; [eapply (seg_good c M rank home W); eauto | eapply (seg_region c M rank home W); eauto]. }
    eapply B; eauto. }
  rewrite Ebase in Hin. pose proof (inside_rank _ _ Hin Hne) as Hrank.
  destruct Hp1 as [A1 A2 A3 A4 A5]. destruct p1 as [d1 t l b]. cbn [p_d p_v p_pend p_base] in *.
  destruct G1 as (G1 & G2 & G3). cbn [p_d p_v] in *. pose proof (target_rank c M rank home W _ Ht) as Htr.
  apply bind_live.
  { apply bind_live; [apply add_target_live; unfold turn in Hf; lia|]. intros [se nn] _. discriminate. }
  intros r H1. apply bind_ok in H1 as ([se nn] & Hadd & H1). injection H1 as <-. rewrite A2, A4 in Hadd.
  apply (add_target_ok M) in Hadd as (es & Hbel & -> & Hfst & Hlen); [| exact Ht].
  lv. intros d2 Hd2. apply (exec_acts_ok _ _ _ _ _ _ _ A3) in Hd2. rewrite A1 in Hd2.
  lv. intros [d3 isc3] Hd3.
  apply (exec_entries_ok c M) with (es := es) in Hd3 as [Hd3 _]; [| exact Hfst | reflexivity].
  lv. intros stn _. rewrite A2. apply bind_live; [apply vxo_live|]. intros x Hx. cbn in Hx. apply vx_ok in Hx. destruct x; try discriminate.
  eapply IH; cbn; [exact Hx | | | reflexivity | reflexivity | apply A3 | lia |].
  - subst. apply ram_say, ram_say, G1.
  - subst. exact G3.
  - cbn in Hrank. lia.
Qed.

Lemma fire_descend_live pe fuel d cs src v a al se isc : ram_ok d -> parent_of M cs <> None -> bound (d_dyp d) (home cs) ->
  ok_kind M v = true -> bound (d_dyp d) (home v) -> length al = sm_segs c -> length se = sm_depth c ->
  (turn + sm_depth c + 1 <= fuel)%nat ->
  live (descend c M grd fuel false (Some (Some cs)) pe a (mkW (say d [XTrn src (Some v)]) (Some v) al 0 (Some src) se 0) isc).
Proof.
  intros Hr Hcs Hbc Hk Hb Hal Hse Hf. destruct fuel as [| f]; [unfold turn in Hf; lia|]. cbn [descend w_al w_d w_ets].
  pose proof (nil_holds c _ Hal) as Hh.
  lv. intros r Ha. apply (add_action_ok _ _ _ _ _ _ Hh) in Ha.
  destruct r as [an|]; [| apply error_live]. destruct an as [al' nal]. destruct Ha as [Hroom Ha]. cbn [app] in Ha.
  match goal with |- live (bind (walk _ _ _ _ _ _ ?w) _) => set (w0 := w) end. set (p0 := mkP (say d [XTrn src (Some v)]) v (act1 a) src).
  assert (at_point c w0 p0) as Hp0 by (constructor; cbn; auto).
  assert (good p0) as G0 by (split; [apply ram_say, Hr|]; split; [exact Hk | exact Hb]).
  assert (region_ok c M home false p0) as R0 by (intros E; discriminate).
  pose proof (len_small v Hk) as Hlen0.
  apply bind_live; [eapply walk_live; eauto; cbn; unfold turn in Hf; lia|]. intros r Hw. destruct r as [w1|]; [| discriminate].
  destruct (after_walk c M rank home W grd _ _ _ _ _ _ Hp0 G0 R0 Hw) as (p1 & Hs & Ht & Hp1 & G1 & _).
  destruct Hp1 as [A1 A2 A3 A4 A5]. destruct p1 as [d1 t l b]. cbn [p_d p_v p_pend p_base] in *.
  destruct G1 as (G1 & G2 & G3). cbn [p_d p_v] in *. rewrite A1, A2.
  pose proof (tr_dyp _ _ (ram_tidy c M home _ G1)) as Hdy.
  destruct (chain_ex M rank T (d_dyp d1) Hdy cs Hcs) as [lc Hlc].
  destruct (chain_ex M rank T (d_dyp d1) Hdy t (target_parent _ _ Ht)) as [lt Hlt].
  assert (length (t :: lt) <= sm_depth c)%nat as Hd.
  { pose proof (chain_short c M rank home W _ Hdy _ _ Hlt) as K. cbn beta iota in K. pose proof (target_rank c M rank home W _ Ht). lia. }
  assert (length (cs :: lc) <= sm_depth c)%nat as Hdc.
  { pose proof (chain_short c M rank home W _ Hdy _ _ Hlc) as K. cbn beta iota in K.
    destruct (parent_of M cs) as [pp|] eqn:Ep; [| congruence]. destruct (wf_parent _ _ _ _ W _ _ Ep). lia. }
  apply bind_live; [eapply exits_live; [exact Hlc | exact Hlt |]; unfold turn in Hf; lia|]. intros r H1.
  pose proof (exec_exits_ok c M _ _ _ _ _ _ _ _ Hlc Hlt A5 H1) as K. destruct r as [[[d2 se2] nn]|]; [| discriminate].
  destruct K as (-> & Hlen & -> & Hfst & _ & _).
  lv. intros d3 Hd3. apply (exec_acts_ok _ _ _ _ _ _ _ A3) in Hd3.
  lv. intros [d4 isc4] Hd4.
  apply (exec_entries_ok c M) with (es := rev (enters (cs :: lc) (t :: lt))) in Hd4 as [Hd4 _]; [| exact Hfst | apply rev_length].
  lv. intros stn _. apply bind_live; [apply vxo_live|]. intros x Hx. cbn in Hx. apply vx_ok in Hx. destruct x; try discriminate.
  eapply micro_descend_live; cbn; [exact Hx | | | reflexivity | reflexivity | apply A3 | exact Hlen | lia].
  - subst. apply ram_say, ram_say. apply (leave_ok c M rank home W); [exact G1|]. intros s Hs'%exits_in.
    split; [exact (chain_parents M _ _ _ Hlc _ Hs')|].
    eapply (chain_bound c M rank home W); [exact G1 | exact Hlc | | exact Hs']. intros y [= <-].
    pose proof (segs_bound c M grd _ _ _ (home cs) Hs Hbc) as K. exact K.
  - subst d4 d3. unfold S_Sm.enter, effects. cbn [d_dyp say]. rewrite leave_dyp. exact G3.
Qed.
Lemma create_descend_live pe fuel d v a al se isc : ram_ok d -> wf_initial c M home v = true ->
  length al = sm_segs c -> length se = sm_depth c -> (turn + sm_depth c + 1 <= fuel)%nat ->
  live (descend c M grd fuel false None pe a (mkW (say d [XTrn v (Some v)]) (Some v) al 0 (Some v) se 0) isc).
Proof.
  intros Hr Hi Hal Hse Hf. unfold wf_initial in Hi. apply andb_true_iff in Hi as [Hk Hdef]. apply target_ok in Hk as [Hk Hhome].
  destruct fuel as [| f]; [unfold turn in Hf; lia|]. cbn [descend w_al w_d w_ets].
  pose proof (nil_holds c _ Hal) as Hh.
  lv. intros r Ha. apply (add_action_ok _ _ _ _ _ _ Hh) in Ha.
  destruct r as [an|]; [| apply error_live]. destruct an as [al' nal]. destruct Ha as [Hroom Ha]. cbn [app] in Ha.
  match goal with |- live (bind (walk _ _ _ _ _ _ ?w) _) => set (w0 := w) end. set (p0 := mkP (say d [XTrn v (Some v)]) v (act1 a) v).
  assert (at_point c w0 p0) as Hp0 by (constructor; cbn; auto).
  assert (good p0) as G0 by (split; [apply ram_say, Hr|]; split; [exact Hk | cbn; rewrite Hhome; exact I]).
  assert (region_ok c M home false p0) as R0 by (intros E; discriminate).
  pose proof (len_small v Hk) as Hlen0.
  apply bind_live; [eapply walk_live; eauto; cbn; unfold turn in Hf; lia|]. intros r Hw. destruct r as [w1|]; [| discriminate].
  destruct (after_walk c M rank home W grd _ _ _ _ _ _ Hp0 G0 R0 Hw) as (p1 & Hs & Ht & Hp1 & G1 & _).
  destruct Hp1 as [A1 A2 A3 A4 A5]. destruct p1 as [d1 t l b]. cbn [p_d p_v p_pend p_base] in *.
  destruct G1 as (G1 & G2 & G3). cbn [p_d p_v] in *.
  pose proof (walk_nn _ _ _ _ _ _ _ Hw) as Hnn. cbn in Hnn.
  apply bind_live.
  { apply bind_live; [apply add_target_live; unfold turn in Hf; lia|]. intros [se' nn] _. discriminate. }
  intros r H1. apply bind_ok in H1 as ([se' nn] & Hadd & H1). injection H1 as <-. rewrite A2 in Hadd. rewrite Hnn. cbn [Nat.add].
  apply (add_target_ok M) in Hadd as (es & Hbel & -> & Hfst & Hlen); [| exact Ht].
  lv. intros d2 Hd2. apply (exec_acts_ok _ _ _ _ _ _ _ A3) in Hd2. rewrite A1 in Hd2.
  lv. intros [d3 isc3] Hd3.
  apply (exec_entries_ok c M) with (es := es) in Hd3 as [Hd3 _]; [| exact Hfst | reflexivity].
  lv. intros stn _. rewrite A2. apply bind_live; [apply vxo_live|]. intros x Hx. cbn in Hx. apply vx_ok in Hx. destruct x; try discriminate.
  eapply micro_descend_live; cbn; [exact Hx | | | reflexivity | reflexivity | apply A3 | lia | lia].
  - subst. apply ram_say, ram_say, G1.
  - subst. exact G3.
Qed.

(** * Events *)
Lemma round_live fuel d cr pe al se : (match cr with None => machine_ok d | Some (v, _) => ram_ok d /\ wf_initial c M home v = true end) ->
  length al = sm_segs c -> length se = sm_depth c -> (turn + sm_depth c + 1 <= fuel)%nat -> live (round c M grd fuel d cr pe al se).
Proof.
  intros Hm Hal Hse Hf. unfold round. destruct cr as [[v a]|].
  - destruct Hm as [Hr Hi]. cbn [bind].
    apply bind_live; [apply create_descend_live; auto|]. intros r H. destruct r as [[[d' stn] isc]|]; [| discriminate].
    assert (ok_kind M v = true /\ home v = None) as [Hk Hh].
    { unfold wf_initial in Hi. apply andb_true_iff in Hi as [Hi _]. apply target_ok in Hi. exact Hi. }
    pose proof (descend_create c M rank T grd _ _ _ _ _ _ _ _ _ (kind_rsm _ _ Hk) (ram_tidy c M home _ Hr) Hal Hse H) as (s & -> & _ & Ht & Hs & d1 & ts & l & b & es & C1 & C2 & C3 & C4 & C5).
    apply bind_live; [apply update_deep_live; [exact Ht | unfold turn in Hf; lia] | discriminate].
  - destruct Hm as (Hr & cs & Ecs & Hs & Hb). rewrite Ecs.
    pose proof (tr_dyp _ _ (ram_tidy c M home _ Hr)) as Hdy.
    destruct (chain_ex M rank T (d_dyp d) Hdy cs (leaf_parent _ _ Hs)) as [lc Hlc].
    assert (length (cs :: lc) <= sm_depth c)%nat as Hdc.
    { pose proof (chain_short c M rank home W _ Hdy _ _ Hlc) as K. cbn beta iota in K.
      pose proof (leaf_parent _ _ Hs) as Hcs. destruct (parent_of M cs) as [pp|] eqn:Ep; [| congruence]. destruct (wf_parent _ _ _ _ W _ _ Ep). lia. }
    apply bind_live; [apply bind_live; [eapply find_up_live; [exact Hlc | unfold turn in Hf; lia] | intros [d1 [[src t]|]] _; discriminate]|].
    intros r H. apply bind_ok in H as ([d1 r1] & Hfu & H). eapply find_up_ok in Hfu; [| exact Hlc].
    destruct r1 as [[src t]|]; injection H as <-; [| discriminate]. pose proof Hfu as Hsel.
    destruct (selected_ram M grd _ _ _ _ _ _ Hsel) as [y ->].
    destruct (t_tgt t) as [v|] eqn:Et.
    + destruct (selected_wf _ _ _ _ _ W _ _ _ _ _ _ _ Hsel Et) as (Hin & Hk & Hh).
      assert (bound (d_dyp d) (home v)) as Hbv.
      { rewrite Hh. eapply (chain_bound c M rank home W); [exact Hr | exact Hlc | | exact Hin]. intros z [= <-]. exact Hb. }
      apply bind_live; [apply fire_descend_live; auto using ram_say; apply leaf_parent, Hs|]. intros r H. destruct r as [[[d' stn] isc]|]; [| discriminate].
      pose proof (descend_fire c M rank T grd _ _ _ _ _ _ _ _ _ _ _ (leaf_parent _ _ Hs) (kind_rsm _ _ Hk) (tidy_say _ _ _ (ram_tidy c M home _ Hr)) Hal Hse H) as (s & -> & Hfire & _).
      destruct (fire_wf _ _ _ _ _ W _ _ _ _ _ _ _ Hfire) as [(I1 & I2 & I3) _]; auto using ram_say.
      apply bind_live; [apply update_deep_live; [apply (ram_tidy c M home), I1 | unfold turn in Hf; lia] | discriminate].
    + lv. intros [[al' nal]|] Ha; [| apply error_live]. lv. discriminate.
Qed.

Lemma complete_live ars : arrays_ok c ars -> forall n fuel d k, machine_ok d -> (turns c M + n <= fuel)%nat ->
  complete c M grd fuel d true ars k = Fault FFuel -> completions c M grd n (Chained d).
Proof.
  intros Ha. induction n as [| n IH]; intros fuel d k Hm Hf H; [constructor|].
  destruct fuel as [| f]; [unfold turns in Hf; lia|]. cbn [complete] in H. destruct (Ha k) as [A1 A2].
  assert (live (round c M grd (S f) d None (evCompletion c) (fst (ars k)) (snd (ars k)))) as L.
  { apply round_live; auto. unfold turns, turn in *. lia. }
  destruct (round c M grd (S f) d None (evCompletion c) (fst (ars k)) (snd (ars k))) as [r | e] eqn:E; [| injection H as ->; exfalso; apply L; reflexivity].
  cbn [bind] in H. destruct r as [[d1 isc1] | e d1]; [| discriminate].
  pose proof (round_ok c M rank T grd _ _ _ _ _ _ (machine_resting c M home _ Hm) A1 A2 E) as K.
  destruct isc1; [| destruct f; discriminate].
  econstructor; [exact K|]. eapply IH; [apply (step_wf _ _ _ _ _ W _ _ _ K Hm) | | exact H]. lia.
Qed.

Lemma dispatch_live istate iact d pe ars n fuel : wf_initial c M home istate = true -> arrays_ok c ars ->
  ready c M home d -> (d_st d = None -> ev_sig pe = (sm_any c - 2)%N) -> (turns c M + n <= fuel)%nat ->
  dispatch c M grd fuel istate iact d pe ars = Fault FFuel ->
  exists r, (if (ev_sig pe =? sm_any c - 2)%N then create c M grd pe d istate iact r else step c M grd pe d r) /\ completions c M grd n r.
Proof.
  intros Hi Ha Hd Hn Hf H. destruct (initial_kind c M home _ Hi) as [Hk Hh]. destruct (Ha O) as [A1 A2].
  assert (tidy_ram M d) as Ht by (apply (ram_tidy c M home), Hd). unfold dispatch, sig_creation in H.
  match type of H with bind ?r _ = _ => assert (live r) as L end.
  { apply round_live; auto; [| unfold turns, turn in *; lia].
    destruct (N.eqb_spec (ev_sig pe) (sm_any c - 2)) as [E | E]; [split; [apply Hd | exact Hi]|].
    destruct (d_st d) as [s|] eqn:Es; [eapply ready_machine; eauto | exfalso; auto]. }
  match type of H with bind ?r _ = _ => destruct r as [r1 | e] eqn:E1 end; [| injection H as ->; exfalso; apply L; reflexivity].
  cbn [bind] in H. destruct r1 as [[d1 isc1] | e d1]; [| discriminate]. destruct isc1; [| destruct fuel; discriminate].
  destruct (N.eqb_spec (ev_sig pe) (sm_any c - 2)) as [E | E].
  - pose proof (round_create c M rank T grd _ _ _ _ _ _ _ _ (kind_rsm _ _ Hk) Ht A1 A2 E1) as K. exists (Chained d1). split; [exact K|].
    eapply complete_live; [exact Ha | | exact Hf | exact H]. apply (create_wf _ _ _ _ _ W _ _ _ _ _ K (proj1 Hd) Hk Hh).
  - destruct (d_st d) as [s|] eqn:Es; [| exfalso; auto]. pose proof (ready_machine c M home _ _ Hd Es) as Hm.
    pose proof (round_ok c M rank T grd _ _ _ _ _ _ (machine_resting c M home _ Hm) A1 A2 E1) as K. exists (Chained d1). split; [exact K|].
    eapply complete_live; [exact Ha | | exact Hf | exact H]. apply (step_wf _ _ _ _ _ W _ _ _ K Hm).
Qed.

(** * Completion events *)
Lemma step_chained pe d d' : step c M grd pe d (Chained d') -> exists s', d_st d' = Some s' /\ completes c M s' = true.
Proof.
  intros H. inversion H as [| | | cs l src t d1 v o r Ecs Hl Hsel Et Hfire Hset]; subst. destruct o as [d0 s0 | d0 e0]; cbn in Hset; [| discriminate].
  destruct Hset as (d2 & (anc & _ & E & _) & Hset). destruct (completes c M s0) eqn:Ec; [| discriminate]. injection Hset as ->. eauto.
Qed.
Lemma create_chained pe d v a d' : create c M grd pe d v a (Chained d') -> exists s', d_st d' = Some s' /\ completes c M s' = true.
Proof.
  intros H. inversion H as [d1 ts l b es o r H1 H2 H3 H4 H5 Hset | |]; subst. destruct o as [d0 s0 | d0 e0]; cbn in Hset; [| discriminate].
  destruct Hset as (d2 & (anc & _ & E & _) & Hset). destruct (completes c M s0) eqn:Ec; [| discriminate]. injection Hset as ->. eauto.
Qed.

Context (mu : nat -> nat) (C : completions_end c M mu = true).
Lemma every_in f v : nth_error M v <> None -> f v = true -> In v (every M f).
Proof. intros Hv Hf. apply filter_In. split; [| exact Hf]. apply in_seq. split; [lia|]. cbn. apply nth_error_Some, Hv. Qed.
Lemma chain_around dy (Hd : forall r m, dy r = Some m -> exists en ex p tbl e, nth_error M m = Some (VSubm en ex p tbl e r)) s l :
  chain dy s l -> forall v n, s = Some v -> (rank v <= n)%nat -> incl l (around M n v).
Proof.
  induction 1 as [| s p l Hp H IH]; intros v n [= ->] Hn. intros x [<- | Hx]; [destruct n; left; reflexivity|].
  destruct p as [q|]; cbn in H; [| inversion H; subst; destruct Hx].
  destruct (wf_parent_some _ _ _ _ W _ _ Hp) as [Hr _]. destruct n as [| n]; [lia|]. cbn [around]. right. rewrite Hp.
  cbn [outer] in IH. destruct (is_rsm M q) eqn:Er.
  - destruct (dy q) as [m|] eqn:Em; [| inversion H; subst; destruct Hx].
    destruct (Hd _ _ Em) as (en & ex & p & tbl & e & Hm). pose proof (ty_sub _ _ T _ _ _ _ _ _ _ Hm).
    apply in_flat_map. exists m. split; [apply every_in; [congruence | rewrite Hm; apply Nat.eqb_refl]|].
    apply (IH m n); [reflexivity | lia | exact Hx].
  - apply (IH q n); [reflexivity | lia | exact Hx].
Qed.
Lemma leads_mu v w : nth_error M v <> None -> In w (leads c M v) -> (mu w <= mu v)%nat.
Proof.
  intros Hv Hw. unfold completions_end in C. apply andb_true_iff in C as [C1 _]. rewrite forallb_forall in C1.
  specialize (C1 v ltac:(apply in_seq; split; [lia|]; cbn; apply nth_error_Some, Hv)). rewrite forallb_forall in C1.
  apply Nat.leb_le, C1, Hw.
Qed.
Lemma within_iff q v n : inside M q v -> (rank v <= n)%nat -> within M n q v = true.
Proof.
  intros H. revert n. induction H as [| v p Hp H IH]; intros n Hn; [destruct n; cbn; rewrite Nat.eqb_refl; reflexivity|].
  destruct (wf_parent_some _ _ _ _ W _ _ Hp) as [Hr _]. destruct n as [| n]; [lia|]. cbn. rewrite Hp, IH by lia. apply orb_true_r.
Qed.
Lemma seg_mu pe p p' : seg c M grd pe p p' -> good p -> (mu (p_v p') <= mu (p_v p))%nat.
Proof.
  intros H (Hr & Hk & Hb).
  inversion H as [d v l b tbl t d1 v1 Hv F Hroom Et | d v l b tbl t d1 v1 Hv F Hroom Et
    | d v l b deep qq dft s Hv Eh | d v l b deep qq dft d1 v1 Hv Eh Et Hen Hroom | d v l b deep qq dft Hv Eh Et
    | d v l b en ex pp tbl e r v1 ia Hv Hv2 Hroom | d v l b a m v1 en ex pp tbl e r Hv Hm' Hroom
    | d v l b ix r m a v1 en ex pp tbl e r' Hv Em Hm' He Hroom]; subst; cbn [p_d p_v p_base] in *;
    (apply leads_mu; [congruence|]; unfold leads; apply in_app_iff).
  - left. unfold onward. rewrite Hv. pose proof (first_in _ _ _ _ _ _ F) as Hi. apply filter_In in Hi as [Hi _]. eapply in_targets; eauto.
  - left. unfold onward. rewrite Hv. pose proof (first_in _ _ _ _ _ _ F) as Hi. apply filter_In in Hi as [Hi _]. eapply in_targets; eauto.
  - right. rewrite Hv. apply in_app_iff. right. destruct (ro_hist _ _ _ _ Hr _ _ _ _ _ Hv Eh) as [_ B]. destruct deep.
    + destruct B as [B1 B2]. apply every_in; [unfold is_leaf in B1; destruct (nth_error M s); congruence|]. rewrite B1. cbn.
      destruct (plain c M qq); [| reflexivity]. cbn. apply within_iff; [auto|].
      pose proof (leaf_parent _ _ B1) as Hs. destruct (parent_of M s) as [pp|] eqn:Ep; [| congruence]. destruct (wf_parent _ _ _ _ W _ _ Ep). lia.
    + apply every_in; [unfold parent_of in B; destruct (nth_error M s); congruence|]. rewrite B. apply Nat.eqb_refl.
  - left. unfold onward. rewrite Hv. apply in_app_iff. left. rewrite Et. left. reflexivity.
  - right. rewrite Hv. apply in_app_iff. left. rewrite Et. left. reflexivity.
  - left. unfold onward. rewrite Hv, Hv2. left. reflexivity.
  - left. unfold onward. rewrite Hv. left. reflexivity.
  - left. destruct (ro_dyp _ _ _ _ Hr _ _ Em) as [(en2 & ex2 & p2 & tbl2 & e2 & Hm2) _]. rewrite Hm' in Hm2. injection Hm2 as -> -> -> -> -> ->.
    unfold onward. rewrite Hv. apply in_flat_map. exists (VSubm en2 ex2 p2 tbl2 e2 r).
    split; [eapply nth_error_In; eauto|]. cbn. rewrite Nat.eqb_refl, He. left. reflexivity.
Qed.
Lemma segs_mu pe p p' : segs c M grd pe p p' -> good p -> (mu (p_v p') <= mu (p_v p))%nat.
Proof.
  induction 1 as [| p q r H1 H2 IH]; [lia|]. intros G. pose proof (seg_mu _ _ _ H1 G). specialize (IH (seg_good c M rank home W grd _ _ _ H1 G)). lia.
Qed.
Lemma default_mu pe d q d' s : default c M grd pe d q (Arrived d' s) -> ram_ok d -> is_target M q = true -> bound (d_dyp d) (home q) ->
  (mu s <= mu q)%nat.
Proof.
  intros H. remember (Arrived d' s) as o eqn:Eo. revert d' s Eo.
  induction H as [d s0 Hl | d q en ex p tbl v ia h d1 t l b es o Hq Hroom Hs Ht Hbel Hdef IH | d q en ex p tbl v ia h p1 r d1 Hq Hroom Hs Hf | d q en ex p tbl dc ia h Hq Hroom Ha];
    intros d' s Eo Hr Htq Hb; try discriminate; [injection Eo as _ ->; lia|]. subst o.
  destruct (comp_default c M grd rank home W _ _ _ _ _ _ _ _ Hq) as (K1 & K2 & K3).
  assert (good (mkP d v (act1 ia) q)) as G by (split; [exact Hr|]; split; [exact K1|]; cbn; rewrite K2; exact Hb).
  pose proof (segs_mu _ _ _ Hs G) as Hm. cbn in Hm. destruct (segs_good _ _ _ _ W _ _ _ _ Hs G) as (G1 & G2 & G3). cbn in *.
  assert (mu v <= mu q)%nat.
  { apply leads_mu; [congruence|]. unfold leads. apply in_app_iff. right. rewrite Hq. left. reflexivity. }
  specialize (IH d' s eq_refl (ram_say _ _ _ _ _ (ram_say _ _ _ _ _ G1)) Ht G3). lia.
Qed.
Lemma step_mu d d' s s' : machine_ok d -> d_st d = Some s -> completes c M s = true ->
  step c M grd (mkEv (sm_any c - 1) 0) d (Chained d') -> d_st d' = Some s' -> (mu s' < mu s)%nat.
Proof.
  intros (Hr & s1 & Es1 & Hs & Hb) Es Hc H Es'. assert (s1 = s) by congruence. subst s1.
  inversion H as [| | | cs l src t d1 v o r Ecs Hl Hsel Et Hfire Hset]; subst. assert (cs = s) by congruence. subst cs.
  destruct o as [d0 s0 | d0 e0]; cbn in Hset; [| discriminate].
  destruct Hset as (d2 & (anc & _ & E & _) & Hset). destruct (completes c M s0); [| discriminate]. injection Hset as <-.
  assert (s' = s0) by congruence. subst s0.
  destruct (selected_wf _ _ _ _ _ W _ _ _ _ _ _ _ Hsel Et) as (Hin & Hk & Hh).
  destruct (selected_ram M grd _ _ _ _ _ _ Hsel) as [y ->].
  assert (bound (d_dyp d) (home v)) as Hbv.
  { rewrite Hh. eapply (chain_bound c M rank home W); [exact Hr | exact Hl | | exact Hin]. intros z [= <-]. exact Hb. }
  assert (mu v < mu s)%nat as Hlt.
  { pose proof (leaf_parent _ _ Hs) as Hp. destruct (parent_of M s) as [pp|] eqn:Ep; [| congruence]. destruct (wf_parent _ _ _ _ W _ _ Ep) as [_ Hrk].
    pose proof (chain_around _ (tr_dyp _ _ (ram_tidy c M home _ Hr)) _ _ Hl s (sm_depth c) eq_refl ltac:(lia) _ Hin) as Har.
    unfold completions_end in C. apply andb_true_iff in C as [_ C2]. rewrite forallb_forall in C2.
    assert (In s (seq 0 (length M))) as Hsq.
    { apply in_seq. split; [lia|]. cbn. apply nth_error_Some. unfold parent_of in Ep. destruct (nth_error M s); congruence. }
    specialize (C2 _ Hsq). rewrite Hc in C2. cbn in C2. rewrite forallb_forall in C2. specialize (C2 _ Har). rewrite forallb_forall in C2.
    assert (In t (triggered M (sm_any c - 1) src)) as Ht.
    { destruct Hsel as (inn & out & dm & _ & _ & Hf). eapply (first_in grd); exact Hf. }
    specialize (C2 _ Ht). rewrite Et in C2. apply Nat.ltb_lt, C2. }
  assert (mu s' <= mu v)%nat; [| lia].
  inversion Hfire as [d1 ts l' b lc lt o Hs' Hroom Ht Hlc Hlt' Hdp Hdef | | |]; subst.
  assert (good (mkP (say (say d y) [XTrn src (Some v)]) v (act1 (t_act t)) src)) as G by (split; [apply ram_say, ram_say, Hr|]; split; [exact Hk | exact Hbv]).
  pose proof (segs_mu _ _ _ Hs' G) as Hm. cbn in Hm. destruct (segs_good _ _ _ _ W _ _ _ _ Hs' G) as (G1 & G2 & G3). cbn in *.
  assert (mu s' <= mu ts)%nat; [| lia]. eapply default_mu; [exact Hdef | | exact Ht |].
  - apply ram_say, ram_say. apply (leave_ok c M rank home W); [exact G1|]. intros x Hx%exits_in.
    split; [exact (chain_parents M _ _ _ Hlc _ Hx)|].
    eapply (chain_bound c M rank home W); [exact G1 | exact Hlc | | exact Hx]. intros z [= <-].
    pose proof (segs_bound c M grd _ _ _ (home s) Hs' Hb) as K. exact K.
  - unfold S_Sm.enter, effects. cbn [d_dyp say]. rewrite leave_dyp. exact G3.
Qed.
Lemma completions_mu n : forall d s, machine_ok d -> d_st d = Some s -> completes c M s = true ->
  completions c M grd n (Chained d) -> (n <= mu s)%nat.
Proof.
  induction n as [| n IH]; intros d s Hm Es Hc H; [lia|]. inversion H as [| n' d0 r Hst Hn]; subst.
  destruct r as [d1 | d1 | d1 e1]; [inversion Hn | | inversion Hn].
  destruct (step_chained _ _ _ Hst) as (s' & Es' & Hc'). pose proof (step_mu _ _ _ _ Hm Es Hc Hst Es').
  assert (n <= mu s')%nat; [| lia]. apply (IH d1); auto. apply (step_wf _ _ _ _ _ W _ _ _ Hst Hm).
Qed.
Lemma list_max_in l x : In x l -> (x <= list_max l)%nat.
Proof.
  induction l as [| y l IH]; [intros []|]. unfold list_max in *. cbn. intros [<- | H]; [lia | specialize (IH H); lia].
Qed.
Lemma mu_highest s : nth_error M s <> None -> (mu s <= highest M mu)%nat.
Proof.
  intros H. apply list_max_in, in_map, in_seq. split; [lia|]. cbn. apply nth_error_Some, H.
Qed.
Lemma dispatch_returns istate iact d pe ars fuel : wf_initial c M home istate = true -> arrays_ok c ars ->
  ready c M home d -> (d_st d = None -> ev_sig pe = (sm_any c - 2)%N) -> (turns c M + S (highest M mu) <= fuel)%nat ->
  live (dispatch c M grd fuel istate iact d pe ars).
Proof.
  intros Hi Ha Hd Hn Hf H. destruct (initial_kind c M home _ Hi) as [Hk Hh].
  destruct (dispatch_live _ _ _ _ _ _ _ Hi Ha Hd Hn Hf H) as (r & H1 & H2). inversion H2 as [| n d0 r' Hst Hc]; subst.
  assert (machine_ok d0 /\ exists s, d_st d0 = Some s /\ completes c M s = true) as (Hm & s & Es & Hs).
  { destruct (N.eqb_spec (ev_sig pe) (sm_any c - 2)) as [E | E].
    - split; [apply (create_wf _ _ _ _ _ W _ _ _ _ _ H1 (proj1 Hd) Hk Hh) | eapply create_chained; eauto].
    - destruct (d_st d) as [s|] eqn:Es; [| exfalso; auto]. pose proof (ready_machine c M home _ _ Hd Es) as Hm.
      split; [apply (step_wf _ _ _ _ _ W _ _ _ H1 Hm) | eapply step_chained; eauto]. }
  pose proof (completions_mu _ _ _ Hm Es Hs H2). assert (nth_error M s <> None) as Hv by (unfold completes in Hs; destruct (nth_error M s); congruence).
  pose proof (mu_highest _ Hv). lia.
Qed.
Lemma do_returns istate iact d op fuel : wf_initial c M home istate = true -> smop_ok c op -> ready c M home d ->
  (turns c M + S (highest M mu) <= fuel)%nat -> live (sm_do c M grd fuel istate iact d op).
Proof.
  intros Hi Ho Hd Hf. destruct op as [ars | pe ars | h]; cbn [sm_do].
  - apply bind_live; [apply dispatch_returns; auto; reflexivity | intros [d' e] _; discriminate].
  - destruct (d_st d) as [s|] eqn:Es; [| discriminate].
    apply bind_live; [apply dispatch_returns; auto; congruence | intros [d' e] _; discriminate].
  - discriminate.
Qed.
Lemma run_returns istate iact fuel : wf_initial c M home istate = true -> (turns c M + S (highest M mu) <= fuel)%nat ->
  forall ops d, Forall (smop_ok c) ops -> ready c M home d -> live (sm_run c M grd fuel istate iact d ops).
Proof.
  intros Hi Hf. induction ops as [| op r IH]; intros d Ho Hd; cbn [sm_run]; [discriminate|]. inversion Ho; subst.
  apply bind_live; [apply do_returns; auto|]. intros d1 Hd1. apply IH; [assumption|].
  eapply (do_safe c M rank home W grd); [exact Hi | | exact Hd | exact Hd1]. assumption.
Qed.
End Term.
