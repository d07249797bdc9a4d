(** Stage 3 of the dispatcher follows the path of the compound transition. *)
From Verif Require Import Base L_Base M_Sm S_Sm L_Sm.

Section Sm.
Context (c : smcfg) (M : machine) (grd : nat -> evt -> list xev -> bool) (rank : nat -> nat) (T : tidy M rank).
Notation seg := (seg c M grd).
Notation segs := (segs c M grd).
Notation fails := (fails c M grd).

Record holds (al : list nat) (nal : nat) (l : list nat) : Prop := {
  ho_len : length al = sm_segs c;
  ho_nal : nal = length l;
  ho_le : (length l <= length al)%nat;
  ho_al : firstn nal al = l }.

Lemma firstn_upd {A} (l : list A) i x : firstn i (upd l i x) = firstn i l.
Proof. revert i. induction l as [| y l IH]; intros [| i]; cbn; try reflexivity. rewrite IH. reflexivity. Qed.
Lemma firstn_S {A} (l : list A) i x : nth_error l i = Some x -> firstn (S i) l = firstn i l ++ [x].
Proof.
  revert i. induction l as [| y l IH]; intros [| i] H; try discriminate; cbn in *.
  - injection H as ->. reflexivity.
  - rewrite <- IH; auto.
Qed.

Lemma add_action_ok al nal l act r : holds al nal l -> add_action c al nal act = Ok r ->
  match r with
  | None => ~ room c l
  | Some (al', nal') => room c l /\ holds al' nal' (l ++ act1 act)
  end.
Proof using c.
  clear grd. intros [H1 H2 H3 H4] H. unfold add_action, room in *. destruct (Nat.leb_spec (sm_segs c) nal) as [E|E].
  - injection H as <-. lia.
  - destruct act as [a|].
    + apply bind_ok in H as (al' & Hw & H). apply wr_ok in Hw as [Hlt ->]. injection H as <-. split; [lia|].
      constructor; rewrite ?length_upd, ?app_length; cbn [length act1]; try lia.
      rewrite (firstn_S _ _ a), firstn_upd, H4; [reflexivity|]. apply nth_upd_eq. lia.
    + injection H as <-. split; [lia|]. cbn. rewrite app_nil_r. constructor; auto.
Qed.

Lemma exec_acts_gen pe n : forall al i d d', (i + n <= length al)%nat ->
  exec_acts al i n d pe = Ok d' -> d' = effects pe (firstn n (skipn i al)) d.
Proof using.
  clear grd.
  induction n as [| n IH]; intros al i d d' Hle H; cbn in H.
  - injection H as <-. unfold effects. cbn. symmetry. apply say_nil.
  - apply bind_ok in H as (a & Ha & H). apply rd_ok in Ha. apply IH in H; [| lia]. rewrite H.
    unfold effects. rewrite say_say. f_equal.
    assert (skipn i al = a :: skipn (S i) al) as ->; [| reflexivity].
    clear -Ha. revert i Ha. induction al as [| y al IHl]; intros [| i] Ha; cbn in *; try discriminate; [congruence | auto].
Qed.
Lemma exec_acts_ok pe al nal l d d' : holds al nal l -> exec_acts al 0 nal d pe = Ok d' -> d' = effects pe l d.
Proof using c. clear grd. intros [H1 H2 H3 H4] H. apply exec_acts_gen in H; [| cbn; lia]. cbn in H. congruence. Qed.

Lemma error_ok {A} line r d (x : ctl A) : error c line r d = Ok x -> sm_asrt c = false /\ x = Stop r d.
Proof.
  unfold error. intros H. apply bind_ok in H as (u & Hu & H). injection H as <-.
  split; [| reflexivity]. destruct (sm_asrt c); [discriminate | reflexivity].
Qed.

(** The dispatcher's variables stand for a point of the path. *)
Record at_point (w : wst) (p : point) : Prop := {
  ap_d : w_d w = p_d p;
  ap_v : w_ets w = Some (p_v p);
  ap_l : holds (w_al w) (w_nal w) (p_pend p);
  ap_b : w_stn w = Some (p_base p);
  ap_se : length (w_se w) = sm_depth c }.

Lemma length_add_loop fuel : forall st se n cmp se' n',
  add_target_loop M fuel st se n cmp = Ok (se', n') -> length se' = length se.
Proof.
  induction fuel as [| f IH]; intros st se n cmp se' n' H; cbn in H;
    destruct (match st with Some a => _ | None => _ end).
  1, 3: injection H as <- <-; reflexivity. 1: discriminate.
  apply bind_ok in H as (se1 & Hw & H). apply wr_ok in Hw as [_ ->].
  apply bind_ok in H as (x & Hx & H). apply bind_ok in H as (p & Hp & H).
  apply IH in H. rewrite H. apply length_upd.
Qed.
Lemma length_add_target fuel t se cmp se' n' : add_target M fuel t se cmp = Ok (se', n') -> length se' = length se.
Proof.
  unfold add_target. intros H. apply bind_ok in H as (x & Hx & H).
  destruct x; try (injection H as <- <-; reflexivity); eapply length_add_loop; eauto.
Qed.

Lemma micro_ok fuel micro w w' : micro_targets M fuel micro w = Ok w' ->
  w_d w' = w_d w /\ w_ets w' = w_ets w /\ w_al w' = w_al w /\ w_nal w' = w_nal w /\ w_stn w' = w_stn w /\
  length (w_se w') = length (w_se w).
Proof.
  unfold micro_targets. destruct micro; intros H; [| injection H as <-; auto 10].
  apply bind_ok in H as ([se nn] & Ha & H). injection H as <-. cbn. apply length_add_target in Ha. auto 10.
Qed.
Lemma micro_point fuel micro w w' p : micro_targets M fuel micro w = Ok w' -> at_point w p -> at_point w' p.
Proof.
  intros (H1 & H2 & H3 & H4 & H5 & H6)%micro_ok [A1 A2 A3 A4 A5].
  constructor; rewrite ?H3, ?H4; congruence.
Qed.

Lemma branch_ok fuel micro pe w d l b tbl r :
  w_d w = d -> holds (w_al w) (w_nal w) l -> w_stn w = Some b -> length (w_se w) = sm_depth c ->
  branch c M grd fuel micro pe w tbl = Ok r ->
  match r with
  | Stop e d1 => e = CND_NFOUND /\ denied grd pe d (guarded tbl) d1 \/
                 e = EX_TSEG /\ sm_asrt c = false /\ ~ room c l /\ exists t, first_of grd pe d (guarded tbl) t d1
  | Go w' => w_ets w' = None \/
             exists t d1 v1, first_of grd pe d (guarded tbl) t d1 /\ room c l /\ t_tgt t = Some v1 /\
                at_point w' (mkP d1 v1 (l ++ act1 (t_act t)) b)
  end.
Proof.
  intros Hd Hl Hb Hs H. unfold branch in H. rewrite Hd in H. pose proof (find_branch_ok grd pe tbl d) as F.
  destruct (find_branch _ _ _ _) as [d1 [t|]]; [| injection H as <-; auto].
  apply bind_ok in H as (r1 & Ha & H). apply (add_action_ok _ _ _ _ _ Hl) in Ha. destruct r1 as [[al' nal']|].
  - apply bind_ok in H as (w' & Hw & H). injection H as <-. destruct Ha as [Hr Ha].
    destruct (t_tgt t) as [v1|] eqn:Et.
    + right. exists t, d1, v1. split; [exact F|]. split; [exact Hr|]. split; [exact Et|].
      eapply micro_point; [exact Hw|]. constructor; cbn; auto.
    + left. destruct (micro_ok _ _ _ _ Hw) as (_ & E & _). rewrite E. reflexivity.
  - apply error_ok in H as [Hc ->]. right. eauto.
Qed.

Lemma pseudo_ok fuel micro pe w p r : at_point w p -> pseudo c M grd fuel micro pe w = Ok r ->
  match r with
  | None => is_target M (p_v p) || is_rsm M (p_v p) = true
  | Some (Go w') => w_ets w' = None \/ exists p', seg pe p p' /\ at_point w' p'
  | Some (Stop e d1) => fails pe p e d1
  end.
Proof.
  intros [A1 A2 A3 A4 A5] H. destruct p as [d v l b]. cbn [p_d p_v p_pend p_base] in *.
  unfold pseudo in H. rewrite A2 in H. apply bind_ok in H as (x & Hx & H). cbn in Hx. apply vx_ok in Hx.
  destruct x as [en ex par tbl | en ex par tbl dc ia hi | par | en ex par tbl expcn rsm | dc ia | tbl | tbl
               | deep par dft | a tgt par | ix rsm | par].
  1, 2, 3, 5: injection H as <-; unfold is_target, is_rsm; rewrite Hx; reflexivity.
  - (* submachine state *)
    apply bind_ok in H as (y & Hy%vx_ok & H). destruct y; try discriminate. cbn zeta in H.
    apply bind_ok in H as (r1 & Ha & H). apply (add_action_ok _ _ _ _ _ A3) in Ha. destruct r1 as [[al' nal']|].
    + injection H as <-. destruct Ha as [Hr Ha]. destruct defchild as [v1|]; [right | left; reflexivity].
      eexists. split; [eapply seg_subm; eauto|]. constructor; cbn; auto. congruence.
    + apply bind_ok in H as (e & He & H). injection H as <-. apply error_ok in He as [Hc ->].
      rewrite A1. eapply fail_full; [exact Hc|]. eapply over_subm; eauto.
  - (* conditional *)
    apply bind_ok in H as (r1 & Hb & H). injection H as <-.
    eapply branch_ok in Hb; eauto. destruct r1 as [w' | e d1].
    + destruct Hb as [Hn | (t & d1 & v1 & F & Hr & Et & Hp)]; [left; exact Hn | right].
      eexists. split; [| exact Hp]. eapply seg_cond; eauto.
    + destruct Hb as [[-> Hd] | (-> & Hc & Hr & t & F)]; [eapply fail_cond; eauto | eapply fail_full; [exact Hc |eapply over_cond; eauto]].
  - (* choice *)
    apply bind_ok in H as (d0 & Hx0 & H). apply (exec_acts_ok _ _ _ _ _ _ A3) in Hx0.
    apply bind_ok in H as (r1 & Hb & H). injection H as <-.
    eapply (branch_ok _ _ _ _ d0 [] b) in Hb; cbn; auto.
    2: { destruct A3. constructor; cbn; auto; lia. }
    rewrite A1 in Hx0. subst d0. destruct r1 as [w' | e d1].
    + destruct Hb as [Hn | (t & d1 & v1 & F & Hr & Et & Hp)]; [left; exact Hn | right].
      eexists. split; [| exact Hp]. eapply seg_choice; eauto.
    + destruct Hb as [[-> Hd] | (-> & Hc & Hr & t & F)]; [eapply fail_choice; eauto | eapply fail_full; [exact Hc |eapply over_choice; eauto]].
  - (* history *)
    apply bind_ok in H as (u & _ & H). destruct (ty_hist _ _ T _ _ _ _ Hx) as (q & -> & Hq). cbn zeta in H. cbn [w_d] in H.
    rewrite A1 in H.
    apply bind_ok in H as (r1 & H1 & H). destruct (d_hist d v) as [s|] eqn:Eh.
    + injection H1 as <-. apply bind_ok in H as (w' & Hw & H). injection H as <-. right.
      eexists. split; [eapply seg_hist; eauto|]. eapply micro_point; [exact Hw|]. constructor; cbn; auto.
    + destruct (t_tgt dft) as [t|] eqn:Et.
      * destruct (t_grd dft) as [g|] eqn:Eg.
        -- cbn in H1. destruct (grd g pe (d_log d)) eqn:Eb; cbn [fst snd] in H1.
           ++ apply bind_ok in H1 as (r2 & Ha & H1). apply (add_action_ok _ _ _ _ _ A3) in Ha.
              assert (enabled grd pe d dft (say d [XGrd g pe true])) as Hen by (unfold enabled; rewrite Eg; auto).
              destruct r2 as [[al' nal']|].
              ** injection H1 as <-. apply bind_ok in H as (w' & Hw & H). injection H as <-. right. destruct Ha as [Hr Ha].
                 eexists. split; [eapply seg_hist_dft; eauto|]. eapply micro_point; [exact Hw|]. constructor; cbn; auto.
              ** apply error_ok in H1 as [Hc ->]. injection H as <-. eapply fail_full; [exact Hc|]. eapply over_hist; eauto.
           ++ injection H1 as <-. injection H as <-. eapply fail_hist; eauto.
        -- cbn [fst snd] in H1.
           apply bind_ok in H1 as (r2 & Ha & H1). apply (add_action_ok _ _ _ _ _ A3) in Ha.
           assert (enabled grd pe d dft d) as Hen by (unfold enabled; rewrite Eg; auto).
           destruct r2 as [[al' nal']|].
           ** injection H1 as <-. apply bind_ok in H as (w' & Hw & H). injection H as <-. right. destruct Ha as [Hr Ha].
              eexists. split; [eapply seg_hist_dft; eauto|]. eapply micro_point; [exact Hw|]. constructor; cbn; auto.
           ** apply error_ok in H1 as [Hc ->]. injection H as <-. eapply fail_full; [exact Hc|]. eapply over_hist; eauto.
      * injection H1 as <-. apply bind_ok in H as (w' & Hw & H). injection H as <-. right.
        eexists. split; [eapply seg_hist_none; eauto|]. eapply micro_point; [exact Hw|]. constructor; cbn; auto.
  - (* entry point *)
    apply bind_ok in H as (y & Hy%vx_ok & H). destruct y; try discriminate.
    apply bind_ok in H as (z & Hz%vx_ok & H). destruct z; try discriminate. cbn zeta in H.
    apply bind_ok in H as (r1 & Ha & H). apply (add_action_ok _ _ _ _ _ A3) in Ha. destruct r1 as [[al' nal']|].
    + injection H as <-. destruct Ha as [Hr Ha]. destruct tgt as [v1|]; [right | left; reflexivity].
      eexists. split; [eapply seg_enp; eauto|]. constructor; cbn; auto. congruence.
    + apply bind_ok in H as (e & He & H). injection H as <-. apply error_ok in He as [Hc ->].
      rewrite A1. eapply fail_full; [exact Hc|]. eapply over_enp; eauto.
  - (* exit point *)
    apply bind_ok in H as (y & Hy%vx_ok & H). destruct y; try discriminate.
    apply bind_ok in H as (z & Hz & H). rewrite A1 in *. apply vxo_ok in Hz as (m & Em & Hm). destruct z; try discriminate.
    apply bind_ok in H as ([a tgt] & He & H). apply rd_ok in He.
    apply bind_ok in H as (r1 & Ha & H). apply (add_action_ok _ _ _ _ _ A3) in Ha. destruct r1 as [[al' nal']|].
    + injection H as <-. destruct Ha as [Hr Ha]. destruct tgt as [v1|]; [right | left; reflexivity].
      eexists. split; [eapply seg_exp; eauto|]. constructor; cbn; auto.
    + apply bind_ok in H as (e & He' & H). injection H as <-. apply error_ok in He' as [Hc ->].
      eapply fail_full; [exact Hc|]. eapply over_exp; eauto.
  - (* no history *)
    apply bind_ok in H as (e & He & H). injection H as <-. apply error_ok in He as [Hc ->].
    rewrite A1. eapply fail_unknown; eauto.
Qed.

Lemma walk_ok pe micro fuel : forall w p r, at_point w p -> walk c M grd fuel micro pe w = Ok r ->
  match r with
  | Go w' => exists p', segs pe p p' /\ is_target M (p_v p') || is_rsm M (p_v p') = true /\ at_point w' p'
  | Stop e d1 => exists p', segs pe p p' /\ fails pe p' e d1
  end.
Proof.
  induction fuel as [| f IH]; intros w p r Hp H; [discriminate|]. cbn [walk] in H.
  apply bind_ok in H as (r1 & H1 & H). pose proof (pseudo_ok _ _ _ _ _ _ Hp H1) as Q.
  destruct r1 as [[w1 | e d1]|].
  - destruct Q as [Hn | (p1 & Hseg & Hp1)].
    + destruct f as [| f]; [discriminate|]. cbn [walk] in H. unfold pseudo in H at 1. rewrite Hn in H. discriminate.
    + specialize (IH _ _ _ Hp1 H). destruct r as [w2 | e d2].
      * destruct IH as (p2 & H2 & R). exists p2. split; [econstructor; eauto | exact R].
      * destruct IH as (p2 & H2 & R). exists p2. split; [econstructor; eauto | exact R].
  - injection H as <-. exists p. split; [constructor | exact Q].
  - injection H as <-. exists p. split; [constructor|]. split; [exact Q | exact Hp].
Qed.

Lemma walk_nn pe fuel : forall w w', walk c M grd fuel false pe w = Ok (Go w') -> w_nn w' = w_nn w.
Proof.
  assert (forall f w tbl w', branch c M grd f false pe w tbl = Ok (Go w') -> w_nn w' = w_nn w) as B.
  { intros f w tbl w' H. unfold branch in H. destruct (find_branch _ _ _ _) as [d1 [t|]]; [| discriminate].
    apply bind_ok in H as (r & _ & H). destruct r; [| apply error_ok in H as [_ H]; discriminate].
    cbn in H. injection H as <-. reflexivity. }
  assert (forall f w w', pseudo c M grd f false pe w = Ok (Some (Go w')) -> w_nn w' = w_nn w) as P.
  { intros f w w' H. unfold pseudo in H. apply bind_ok in H as (x & Hx & H).
    assert (forall A line r d (k : ctl A -> res (option (ctl wst))), (forall e d, k (Stop e d) = Ok (Some (Stop e d))) ->
       (do e <- error c line r d; k e) = Ok (Some (Go w')) -> False) as E.
    { intros A line r d k Hk H1. apply bind_ok in H1 as (e & He & H1). apply error_ok in He as [_ ->]. rewrite Hk in H1. discriminate. }
    destruct x; try discriminate.
    - apply bind_ok in H as (y & _ & H). destruct y; try discriminate. apply bind_ok in H as (r & _ & H). destruct r; [injection H as <-; reflexivity|].
      exfalso. eapply (E wst); [| exact H]. reflexivity.
    - apply bind_ok in H as (r & Hb & H). injection H as ->. eauto.
    - apply bind_ok in H as (d & _ & H). apply bind_ok in H as (r & Hb & H). injection H as ->. apply B in Hb. exact Hb.
    - apply bind_ok in H as (u & _ & H). destruct (w_ets w); [| discriminate]. apply bind_ok in H as (r & H1 & H).
      destruct r as [w1|]; [| discriminate]. cbn in H. injection H as <-.
      destruct (d_hist _ _); [injection H1 as <-; reflexivity|]. destruct (t_tgt dft); [| injection H1 as <-; reflexivity].
      destruct (match t_grd dft with Some g => _ | None => _ end) as [d1 b]. destruct b; [| discriminate].
      apply bind_ok in H1 as (r & _ & H1). destruct r; [injection H1 as <-; reflexivity|].
      apply error_ok in H1 as [_ H1]. discriminate.
    - apply bind_ok in H as (y & _ & H). destruct y; try discriminate. apply bind_ok in H as (z & _ & H). destruct z; try discriminate.
      apply bind_ok in H as (r & _ & H). destruct r; [injection H as <-; reflexivity|].
      exfalso. eapply (E wst); [| exact H]. reflexivity.
    - apply bind_ok in H as (y & _ & H). destruct y; try discriminate. apply bind_ok in H as (z & _ & H). destruct z; try discriminate.
      apply bind_ok in H as ([a t] & _ & H). apply bind_ok in H as (r & _ & H). destruct r; [injection H as <-; reflexivity|].
      exfalso. eapply (E wst); [| exact H]. reflexivity.
    - exfalso. eapply (E wst); [| exact H]. reflexivity. }
  induction fuel as [| f IH]; intros w w' H; [discriminate|]. cbn [walk] in H. apply bind_ok in H as (r & H1 & H).
  destruct r as [[w1 |]|]; try discriminate.
  - apply P in H1. apply IH in H. congruence.
  - injection H as <-. reflexivity.
Qed.

(** ** What a path leaves alone *)
Lemma seg_keeps pe p q : seg pe p q ->
  d_st (p_d q) = d_st (p_d p) /\ d_hist (p_d q) = d_hist (p_d p) /\ exists x, d_log (p_d q) = d_log (p_d p) ++ x.
Proof.
  assert (forall d x, d_log (say d x) = d_log d ++ x) as L by reflexivity.
  inversion 1; subst; cbn [p_d];
    try match goal with F : first_of _ _ _ _ _ _ |- _ => destruct (first_ram _ _ _ _ _ _ F) as [x ->] end;
    try match goal with F : enabled _ _ _ _ _ |- _ => destruct (enabled_ram _ _ _ _ _ F) as [x ->] end;
    unfold effects; cbn; repeat split; eauto; try (exists []; rewrite app_nil_r; reflexivity).
  rewrite <- app_assoc. eauto.
Qed.
Lemma segs_keeps pe p q : segs pe p q ->
  d_st (p_d q) = d_st (p_d p) /\ d_hist (p_d q) = d_hist (p_d p) /\ exists x, d_log (p_d q) = d_log (p_d p) ++ x.
Proof.
  induction 1 as [p | p q r H1 H2 IH]; [repeat split; exists []; rewrite app_nil_r; reflexivity|].
  destruct (seg_keeps _ _ _ H1) as (A & B & x & C), IH as (A' & B' & y & C').
  repeat split; try congruence. exists (x ++ y). rewrite C', C, app_assoc. reflexivity.
Qed.
Lemma fails_keeps pe p e d1 : fails pe p e d1 ->
  d_st d1 = d_st (p_d p) /\ d_hist d1 = d_hist (p_d p) /\ exists x, d_log d1 = d_log (p_d p) ++ x.
Proof.
  assert (forall d, exists x, d_log d = d_log d ++ x) as N by (intros; exists []; rewrite app_nil_r; reflexivity).
  inversion 1; subst; cbn [p_d];
    try match goal with F : denied _ _ _ _ _ |- _ => destruct (denied_ram _ _ _ _ _ F) as [x ->] end;
    unfold effects; cbn; repeat split; eauto; try (rewrite <- app_assoc; eauto);
  match goal with F : overfull _ _ _ _ _ _ _ _ |- _ => inversion F; subst; cbn;
    try match goal with F : first_of _ _ _ _ _ _ |- _ => destruct (first_ram _ _ _ _ _ _ F) as [x ->] end;
    try match goal with F : enabled _ _ _ _ _ |- _ => destruct (enabled_ram _ _ _ _ _ F) as [x ->] end;
    unfold effects; cbn; eauto; try (rewrite <- app_assoc; eauto)
  end.
Qed.

Lemma first_in pe d l t d' : first_of grd pe d l t d' -> In t l.
Proof. intros (pre & post & dm & -> & _). apply in_app_iff. right. left. reflexivity. Qed.

Lemma tgt_in tbl t v : In t tbl -> t_tgt t = Some v ->
  In v (flat_map (fun t => match t_tgt t with Some t => [t] | None => [] end) tbl).
Proof. intros Hi E. apply in_flat_map. exists t. split; [exact Hi|]. rewrite E. left. reflexivity. Qed.

Lemma seg_ram pe p q : seg pe p q -> tidy_ram M (p_d p) ->
  is_rsm M (p_v q) = false /\ tidy_ram M (p_d q) /\ (is_comp M (p_base q) = true \/ p_base q = p_base p).
Proof.
  intros H. assert (d_dyp (p_d q) = d_dyp (p_d p) /\ d_hist (p_d q) = d_hist (p_d p) \/
     d_hist (p_d q) = d_hist (p_d p) /\ exists r m en ex pp tbl e, d_dyp (p_d q) = fupd (d_dyp (p_d p)) r (Some m) /\ nth_error M m = Some (VSubm en ex pp tbl e r)) as Hd.
  { inversion H; subst; cbn [p_d];
    try match goal with F : first_of _ _ _ _ _ _ |- _ => destruct (first_ram _ _ _ _ _ _ F) as [x ->] end;
    try match goal with F : enabled _ _ _ _ _ |- _ => destruct (enabled_ram _ _ _ _ _ F) as [x ->] end; cbn; auto.
    all: right; split; [reflexivity|]; do 7 eexists; eauto. }
  intros [H1 H2]. split; [| split].
  - inversion H; subst; cbn [p_v p_d] in *.
    + eapply (ty_tgt _ _ T v); [eassumption|]. cbn. eapply tgt_in; [| eassumption].
      match goal with F : first_of _ _ _ _ _ _ |- _ => apply first_in in F; apply filter_In in F; apply F end.
    + eapply (ty_tgt _ _ T v); [eassumption|]. cbn. eapply tgt_in; [| eassumption].
      match goal with F : first_of _ _ _ _ _ _ |- _ => apply first_in in F; apply filter_In in F; apply F end.
    + eauto.
    + eapply (ty_tgt _ _ T v); [eassumption|]. cbn. match goal with E : t_tgt _ = _ |- _ => rewrite E end. left. reflexivity.
    + match goal with E : nth_error M v = _ |- _ => destruct (ty_hist _ _ T _ _ _ _ E) as (q' & [= <-] & Hq) end.
      unfold is_comp in Hq. unfold is_rsm. destruct (nth_error M q0) as [[]|]; congruence.
    + eapply (ty_tgt _ _ T r); [eassumption|]. left. reflexivity.
    + eapply (ty_tgt _ _ T v); [eassumption|]. left. reflexivity.
    + eapply (ty_tgt _ _ T m); [eassumption|]. cbn. apply in_app_iff. left. apply in_flat_map.
      eexists. split; [eapply nth_error_In; eassumption|]. left. reflexivity.
  - constructor.
    + intros h s. destruct Hd as [[_ ->] | [-> _]]; apply H1.
    + intros r m. destruct Hd as [[-> _] | (_ & r' & m' & en & ex & pp & tbl & e & -> & Hm)]; [apply H2|].
      unfold fupd. destruct (Nat.eqb_spec r r') as [-> |]; [| apply H2]. injection 1 as <-. eauto 10.
  - inversion H; subst; cbn [p_base]; auto; left;
    match goal with E : nth_error M _ = Some (VHist _ _ _) |- _ => destruct (ty_hist _ _ T _ _ _ _ E) as (q' & [= <-] & Hq) end; exact Hq.
Qed.
Lemma segs_ram pe p q : segs pe p q -> tidy_ram M (p_d p) -> is_rsm M (p_v p) = false ->
  is_rsm M (p_v q) = false /\ tidy_ram M (p_d q) /\ (is_comp M (p_base q) = true \/ p_base q = p_base p).
Proof.
  induction 1 as [p | p q r H1 H2 IH]; intros Hr Hv; [auto|].
  destruct (seg_ram _ _ _ H1 Hr) as (A & B & C). destruct (IH B A) as (A' & B' & C').
  split; [exact A'|]. split; [exact B'|]. destruct C' as [C' | ->]; auto.
Qed.
Lemma fails_ram pe p e d1 : fails pe p e d1 -> tidy_ram M (p_d p) -> tidy_ram M d1.
Proof.
  intros H [H1 H2].
  assert (forall x, tidy_ram M (say (p_d p) x)) as S by (intros x; constructor; cbn; auto).
  assert (forall m en ex pp tbl e r, nth_error M m = Some (VSubm en ex pp tbl e r) -> tidy_ram M (set_dyp (p_d p) r (Some m))) as Y.
  { intros m en ex pp tbl e' r Hm. constructor; cbn; auto. intros r' m'. unfold fupd. destruct (Nat.eqb_spec r' r) as [-> |]; [| apply H2].
    injection 1 as <-. eauto 10. }
  inversion H; subst; cbn [p_d] in *;
    try match goal with F : denied _ _ _ _ _ |- _ => destruct (denied_ram _ _ _ _ _ F) as [x ->] end;
    unfold effects; rewrite ?say_say; auto; [rewrite <- (say_nil d1); auto|].
  match goal with F : overfull _ _ _ _ _ _ _ _ |- _ => inversion F; subst; cbn;
    try match goal with F : first_of _ _ _ _ _ _ |- _ => destruct (first_ram _ _ _ _ _ _ F) as [x ->] end;
    try match goal with F : enabled _ _ _ _ _ |- _ => destruct (enabled_ram _ _ _ _ _ F) as [x ->] end;
    unfold effects; rewrite ?say_say; eauto
  end.
  rewrite <- (say_nil d1); auto.
Qed.
End Sm.
