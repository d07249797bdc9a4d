(** Proofs: when no action dispatches, static variables make no difference. *)
From Verif Require Import Base L_Base M_Sm S_SmWf S_SmRun M_SmStat S_SmStat.

Lemma complete_ext c M grd : forall fuel d isc ars ars' k, (forall i, k <= i -> ars i = ars' i) ->
  complete c M grd fuel d isc ars k = complete c M grd fuel d isc ars' k.
Proof.
  induction fuel as [|f IH]; intros d isc ars ars' k H; cbn [complete]; destruct isc; try reflexivity.
  rewrite (H k (le_n k)). destruct (round c M grd (S f) d None (evCompletion c) (fst (ars' k)) (snd (ars' k))) as [[[d1 b1]|r1 d1]|]; try reflexivity.
  cbn [bind]. apply IH. intros i Hi. apply H. lia.
Qed.

Section Eq.
Context (c : smcfg) (M : machine) (grd : nat -> evt -> list xev -> bool).
Context (call : nat -> loc -> res loc) (Hcall : forall a l, call a l = Ok l).
Context (Hsegs : sm_segs c <= 255) (Hdepth : sm_depth c <= 255).

Definition unal (al : list (option nat)) : list nat := map (fun o => match o with Some a => a | None => 0 end) al.
Definition sized (l : loc) : Prop := length (l_al l) = sm_segs c /\ length (l_se l) = sm_depth c.
Definition full (l : loc) : Prop :=
  l_nal l <= sm_segs c /\ forall i, i < l_nal l -> exists a, nth_error (l_al l) i = Some (Some a).
Definition good (l : loc) : Prop := sized l /\ full l /\ l_pal l = l_nal l.
Definition W (l : loc) (d : dyn) (ets : option nat) : wst :=
  mkW d ets (unal (l_al l)) (l_nal l) (l_stn l) (l_se l) (l_nn l).

Lemma upd_map {A B} (f : A -> B) l : forall i x, upd (map f l) i (f x) = map f (upd l i x).
Proof. induction l as [|y l IH]; intros [|i] x; cbn; try reflexivity. now rewrite IH. Qed.
Lemma callo_id a l : callo call a l = Ok l.
Proof. destruct a; [apply Hcall|reflexivity]. Qed.

Lemma add_action_eq l act : good l ->
  match add_actionS c l act with
  | Fault f => add_action c (unal (l_al l)) (l_nal l) act = Fault f
  | Ok (l', true) => add_action c (unal (l_al l)) (l_nal l) act = Ok (Some (unal (l_al l'), l_nal l')) /\ good l' /\
      exists al pal nal, l' = lset_al l al pal nal
  | Ok (l', false) => add_action c (unal (l_al l)) (l_nal l) act = Ok None /\ l' = l
  end.
Proof.
  intros ((Ha & Hs) & (Hn & Hf) & Hp). unfold add_actionS, add_action. rewrite Hp.
  destruct (Nat.leb_spec (sm_segs c) (l_nal l)) as [Hle|Hlt]; [split; reflexivity|].
  destruct act as [a|].
  - rewrite wr_lt by lia. cbn [bind]. unfold unal at 1. rewrite wr_lt by (rewrite map_length; lia). cbn [bind].
    unfold inc8. rewrite Nat.mod_small by lia. cbn [lset_al l_al l_nal l_se l_pal].
    split; [|split].
    + unfold unal. now rewrite <- upd_map.
    + split; [split; cbn [lset_al l_al l_se]; [rewrite length_upd; lia|assumption]|]. split; [|reflexivity].
      split; cbn [lset_al l_al l_nal]; [lia|]. intros i Hi. destruct (Nat.eq_dec i (l_nal l)) as [->|Hne].
      * rewrite nth_upd_eq by lia. eauto.
      * rewrite nth_upd_ne by auto. apply Hf. lia.
    + eauto.
  - split; [reflexivity|]. split; [split; [now split|]; split; [now split|assumption]|].
    exists (l_al l), (l_pal l), (l_nal l). now destruct l.
Qed.

Lemma exec_acts_eq pe : forall n l d, n < 257 -> l_nal l = n ->
  (forall i, l_pal l <= i < l_pal l + n -> exists a, nth_error (l_al l) i = Some (Some a)) ->
  exists d', exec_acts (unal (l_al l)) (l_pal l) n d pe = Ok d' /\
    exec_acts_loop call n l d pe = Ok (lset_al l (l_al l) 0 0, d').
Proof.
  intros n. induction n as [|n IH]; intros l d Hn Hl Hf.
  - exists d. split; [reflexivity|]. cbn [exec_acts_loop]. rewrite Hl. reflexivity.
  - destruct (Hf (l_pal l) ltac:(lia)) as [a Ha]. cbn [exec_acts exec_acts_loop]. rewrite Hl. cbn [Nat.eqb].
    rewrite (proj2 (rd_ok _ _ _) Ha). cbn [bind]. rewrite Hcall. cbn [bind].
    assert (Hu : nth_error (unal (l_al l)) (l_pal l) = Some a).
    { unfold unal. erewrite map_nth_error by exact Ha. reflexivity. }
    rewrite (proj2 (rd_ok _ _ _) Hu). cbn [bind dec8].
    destruct (IH (lset_al l (l_al l) (S (l_pal l)) n) (say d [XEff a pe])) as (d' & E1 & E2); cbn [lset_al l_nal l_al l_pal].
    + lia.
    + reflexivity.
    + intros i Hi. apply Hf. lia.
    + exists d'. split; [exact E1|]. rewrite Hl. cbn [dec8]. rewrite E2. reflexivity.
Qed.
Lemma exec_acts_fuel pe : forall f l d l' d', exec_acts_loop call f l d pe = Ok (l', d') ->
  forall g, f <= g -> exec_acts_loop call g l d pe = Ok (l', d').
Proof.
  induction f as [|f IH]; intros l d l' d' E g Hg; cbn [exec_acts_loop] in E.
  - destruct g; cbn [exec_acts_loop]; destruct (Nat.eqb (l_nal l) 0); try exact E; discriminate.
  - destruct g as [|g]; [lia|]. cbn [exec_acts_loop]. destruct (Nat.eqb (l_nal l) 0); [exact E|].
    destruct (rd (l_al l) (l_pal l)) as [[a|]|]; cbn [bind] in *; try discriminate. rewrite Hcall in *. cbn [bind] in *.
    eapply IH; [exact E|lia].
Qed.
Lemma exec_actsS_eq l d pe : full l ->
  exists d', exec_acts (unal (l_al l)) 0 (l_nal l) d pe = Ok d' /\ exec_actsS call l d pe = Ok (lset_al l (l_al l) 0 0, d').
Proof.
  intros (Hn & Hf). unfold exec_actsS.
  destruct (exec_acts_eq pe (l_nal l) (lset_al l (l_al l) 0 (l_nal l)) d) as (d' & E1 & E2); cbn [lset_al l_nal l_al l_pal].
  - lia.
  - reflexivity.
  - intros i Hi. apply Hf. lia.
  - exists d'. split; [exact E1|]. eapply exec_acts_fuel; [exact E2|]. lia.
Qed.

(** *** Entry lists *)
Lemma add_target_loop_len f : forall st se n cmp se' n', add_target_loop M f st se n cmp = Ok (se', n') ->
  n <= length se -> length se' = length se /\ n' <= length se.
Proof.
  induction f as [|f IH]; intros st se n cmp se' n' E Hn; cbn [add_target_loop] in E;
    destruct (match st, cmp with Some a, Some b => Nat.eqb a b | None, None => true | _, _ => false end);
    try (injection E as <- <-; auto); try discriminate.
  destruct (wr se n st) as [se1|] eqn:Ew; [|discriminate]. cbn [bind] in E.
  apply wr_ok in Ew. destruct Ew as [Hlt ->].
  destruct (vxo M st) as [x|]; [|discriminate]. cbn [bind] in E. destruct (st_parent x) as [p|]; [|discriminate]. cbn [bind] in E.
  apply IH in E; rewrite length_upd in *; [exact E|lia].
Qed.
Lemma add_target_len f t se cmp se' n' : add_target M f t se cmp = Ok (se', n') -> length se' = length se /\ n' <= length se.
Proof.
  unfold add_target. destruct (vxo M t) as [x|]; [|discriminate]. cbn [bind].
  destruct x; intros E; try (injection E as <- <-; split; [reflexivity|lia]); eapply add_target_loop_len in E; eauto; lia.
Qed.
Lemma entry_list_len f : forall d stx stn ix se stn' ix' se', entry_list c M f d stx stn ix se = Ok (Some (stn', ix', se')) ->
  ix <= length se -> length se' = length se /\ ix' <= length se.
Proof.
  induction f as [|f IH]; intros d stx stn ix se stn' ix' se' E Hn; cbn [entry_list] in E.
  - destruct stn as [s|]; [|injection E as <- <- <-; auto]. destruct (Nat.eqb stx s); [injection E as <- <- <-; auto|].
    destruct (ix <? sm_depth c); discriminate.
  - destruct stn as [s|]; [|injection E as <- <- <-; auto]. destruct (Nat.eqb stx s); [injection E as <- <- <-; auto|].
    destruct (ix <? sm_depth c); [|discriminate]. destruct (wr se ix (Some s)) as [se1|] eqn:Ew; [|discriminate].
    apply wr_ok in Ew. destruct Ew as [Hlt ->]. cbn [bind] in E. destruct (update_parent M d s) as [p|]; [|discriminate].
    cbn [bind] in E. apply IH in E; rewrite length_upd in *; [exact E|lia].
Qed.

(** *** Stage 3 *)
Definition rel3 (r : res (loc * ctl (dyn * option nat))) (r' : res (ctl wst)) : Prop :=
  match r, r' with
  | Fault f, Fault f' => f = f'
  | Ok (l, Stop r d), Ok (Stop r' d') => r = r' /\ d = d' /\ sized l
  | Ok (l, Go (d, ets)), Ok (Go w) => w = W l d ets /\ good l
  | _, _ => False
  end.
Lemma error_eq line r l d : sized l -> rel3 (errorS c line r l d) (error c line r d).
Proof. intros H. unfold errorS, error. destruct (rassert (sm_asrt c) line false); cbn; auto. Qed.
Lemma seg_eq line l d act ets d0 ets0 : good l ->
  rel3 (segS c line l d act ets)
    (do r <- add_action c (w_al (W l d0 ets0)) (w_nal (W l d0 ets0)) act;
     match r with None => error c line EX_TSEG d | Some an => Ok (Go (w_seg (W l d0 ets0) d ets an)) end).
Proof.
  intros HG. cbn [W w_al w_nal]. pose proof (add_action_eq l act HG) as H. unfold segS.
  destruct (add_actionS c l act) as [[l' [|]]|].
  - destruct H as (-> & HG' & al & pal & nal & ->). cbn [bind]. split; [|exact HG']. reflexivity.
  - destruct H as (-> & ->). cbn [bind]. apply error_eq. apply HG.
  - rewrite H. reflexivity.
Qed.
Lemma micro_eq fuel micro l d ets : good l ->
  match micro_targetsS M fuel micro l ets with
  | Fault f => micro_targets M fuel micro (W l d ets) = Fault f
  | Ok l' => micro_targets M fuel micro (W l d ets) = Ok (W l' d ets) /\ good l'
  end.
Proof.
  intros HG. unfold micro_targetsS, micro_targets. destruct micro; [|auto]. cbn [W w_ets w_se w_stn w_d w_al w_nal].
  destruct (add_target M fuel ets (l_se l) (l_stn l)) as [[se nn]|] eqn:E; [|reflexivity]. cbn [bind].
  destruct (add_target_len _ _ _ _ _ _ E) as [H1 H2]. destruct HG as ((Ha & Hs) & HF & Hp).
  rewrite Nat.mod_small by lia. split; [reflexivity|]. split; [split; cbn [lset_nn l_al l_se]; [assumption|lia]|]. split; assumption.
Qed.
Lemma branch_eq fuel micro pe l d ets tbl : good l ->
  rel3 (branchS c M grd fuel micro pe l d tbl) (branch c M grd fuel micro pe (W l d ets) tbl).
Proof.
  intros HG. unfold branchS, branch. cbn [W w_d]. destruct (find_branch grd d pe tbl) as [d1 [t|]]; [|cbn; split; [|split]; auto; apply HG].
  pose proof (add_action_eq l (t_act t) HG) as H. unfold segS. cbn [W w_al w_nal].
  destruct (add_actionS c l (t_act t)) as [[l' [|]]|].
  - destruct H as (-> & HG' & al & pal & nal & El). cbn [bind].
    pose proof (micro_eq fuel micro l' d1 (t_tgt t) HG') as HM.
    replace (w_seg _ d1 (t_tgt t) _) with (W l' d1 (t_tgt t)) by (rewrite El; reflexivity).
    destruct (micro_targetsS M fuel micro l' (t_tgt t)) as [l2|].
    + destruct HM as (-> & HG2). cbn [bind]. split; [reflexivity|exact HG2].
    + rewrite HM. reflexivity.
  - destruct H as (-> & ->). cbn [bind]. unfold errorS, error. destruct (rassert (sm_asrt c) 566 false); cbn; auto.
    split; [|split]; auto. apply HG.
  - rewrite H. reflexivity.
Qed.

Definition relo (r : res (option (loc * ctl (dyn * option nat)))) (r' : res (option (ctl wst))) : Prop :=
  match r, r' with
  | Fault f, Fault f' => f = f'
  | Ok None, Ok None => True
  | Ok (Some r), Ok (Some r') => rel3 (Ok r) (Ok r')
  | _, _ => False
  end.
Lemma relo_some r r' : rel3 r r' -> relo (do x <- r; Ok (Some x)) (do x <- r'; Ok (Some x)).
Proof. destruct r as [[l [x|]]|], r' as [[w|]|]; cbn; auto; try tauto; destruct x; tauto. Qed.
Lemma seg_relo line l d act ets d0 ets0 : good l ->
  relo (do r <- segS c line l d act ets; Ok (Some r))
    (do r <- add_action c (w_al (W l d0 ets0)) (w_nal (W l d0 ets0)) act;
     match r with
     | None => do e <- error c line EX_TSEG d; Ok (Some e)
     | Some an => Ok (Some (Go (w_seg (W l d0 ets0) d ets an)))
     end).
Proof.
  intros HG. pose proof (relo_some _ _ (seg_eq line l d act ets d0 ets0 HG)) as H.
  destruct (add_action c (w_al (W l d0 ets0)) (w_nal (W l d0 ets0)) act) as [[an|]|]; exact H.
Qed.
Lemma pseudo_eq fuel micro pe l d ets : good l ->
  relo (pseudoS c M grd call fuel micro pe l d ets) (pseudo c M grd fuel micro pe (W l d ets)).
Proof.
  intros HG. unfold pseudoS, pseudo. cbn [W w_ets w_d]. destruct (vxo M ets) as [x|]; [|reflexivity]. cbn [bind].
  destruct x as [en ex par tbl|en ex par tbl dc ia h|par|en ex par tbl expcn rsm|dc ia|tbl|tbl|deep par dft|act tgt par|ix rsm|par];
    try exact I.
  - destruct (vx M rsm) as [y|]; [|reflexivity]. cbn [bind]. destruct y; try reflexivity. apply seg_relo. exact HG.
  - apply relo_some, branch_eq. exact HG.
  - destruct HG as (HS & HF & HP). destruct (exec_actsS_eq l d pe HF) as (d' & E1 & E2).
    cbn [W w_al w_nal w_stn w_se w_nn]. rewrite E1, E2. cbn [bind]. apply relo_some.
    change {| w_d := d'; w_ets := ets; w_al := unal (l_al l); w_nal := 0; w_stn := l_stn l; w_se := l_se l; w_nn := l_nn l |}
      with (W (lset_al l (l_al l) 0 0) d' ets). apply branch_eq.
    split; [exact HS|]. split; [|reflexivity]. split; cbn [lset_al l_nal l_al]; [lia|]. intros i Hi. lia.
  - match goal with |- relo (bind ?a _) (bind ?b _) => change b with a; destruct a as [[]|]; [|reflexivity] end. cbn [bind].
    destruct ets as [v|]; [|reflexivity]. set (l1 := lset_stn l par).
    assert (HG1 : good l1) by exact HG. fold (W l d (Some v)).
    change (mkW (w_d (W l d (Some v))) (w_ets (W l d (Some v))) (w_al (W l d (Some v))) (w_nal (W l d (Some v))) par (w_se (W l d (Some v))) (w_nn (W l d (Some v))))
      with (W l1 d (Some v)). cbn [W w_d] in *.
    match goal with |- relo (bind ?a ?k) (bind ?b ?k') => assert (HR : rel3 a b) end.
    { destruct (d_hist d v) as [s|].
      - split; [reflexivity|exact HG1].
      - destruct (t_tgt dft) as [t|]; [|split; [reflexivity|exact HG1]].
        destruct (match t_grd dft with Some g => exec_guard grd d g pe | None => (d, true) end) as [d1 [|]].
        + apply (seg_eq 605 l1 d1 (t_act dft) (Some t) d (Some v) HG1).
        + split; [reflexivity|]. split; [reflexivity|]. apply HG1. }
    match goal with |- relo (bind ?a ?k) (bind ?b ?k') => destruct a as [[l2 [[d2 e2]|r2 d2]]|], b as [[w2|r3 d3]|] end;
      cbn [rel3] in HR; try contradiction; cbn [bind].
    + destruct HR as (-> & HG2). pose proof (micro_eq fuel micro l2 d2 e2 HG2) as HM.
      destruct (micro_targetsS M fuel micro l2 e2) as [l3|].
      * destruct HM as (-> & HG3). cbn [bind]. split; [reflexivity|exact HG3].
      * rewrite HM. reflexivity.
    + exact HR.
    + exact HR.
  - destruct (vx M par) as [y|]; [|reflexivity]. cbn [bind]. destruct y; try reflexivity.
    destruct (vx M rsm) as [z|]; [|reflexivity]. cbn [bind]. destruct z; try reflexivity. apply seg_relo. exact HG.
  - destruct (vx M rsm) as [y|]; [|reflexivity]. cbn [bind]. destruct y; try reflexivity.
    destruct (vxo M (d_dyp d rsm)) as [z|]; [|reflexivity]. cbn [bind]. destruct z; try reflexivity.
    destruct (rd expcn ix) as [[act tgt]|]; [|reflexivity]. cbn [bind]. apply seg_relo. exact HG.
  - apply relo_some, error_eq. apply HG.
Qed.
Lemma walk_eq micro pe : forall fuel l d ets, good l ->
  rel3 (walkS c M grd call fuel micro pe l d ets) (walk c M grd fuel micro pe (W l d ets)).
Proof.
  induction fuel as [|f IH]; intros l d ets HG; [reflexivity|]. cbn [walkS walk].
  pose proof (pseudo_eq (S f) micro pe l d ets HG) as H.
  destruct (pseudoS c M grd call (S f) micro pe l d ets) as [[[l2 [[d2 e2]|r2 d2]]|]|],
    (pseudo c M grd (S f) micro pe (W l d ets)) as [[[w3|r3 d3]|]|]; cbn [relo rel3] in H; try contradiction; cbn [bind].
  - destruct H as (-> & HG2). apply IH. exact HG2.
  - exact H.
  - split; [reflexivity|exact HG].
  - exact H.
Qed.

(** *** Stages 4 to 6 *)
Definition keeps (l l' : loc) : Prop :=
  l_al l' = l_al l /\ l_pal l' = l_pal l /\ l_nal l' = l_nal l /\ l_act l' = l_act l /\ l_nen l' = l_nen l /\ length (l_se l') = length (l_se l).
Lemma exits_eq tgt : forall fuel l d, length (l_se l) = sm_depth c -> l_islca l = false -> l_ixn l <= sm_depth c ->
  match exits_loop c M call fuel l d tgt, exec_exits c M fuel d (l_stx l) (l_ixx l) tgt (l_se l) (l_ixn l) with
  | Fault f, Fault f' => f = f'
  | Ok (l', Stop r d), Ok (Stop r' d') => r = r' /\ d = d' /\ keeps l l'
  | Ok (l', Go d), Ok (Go (d', se, n)) => d = d' /\ se = l_se l' /\ n = l_ixn l' /\ keeps l l' /\ n <= sm_depth c
  | _, _ => False
  end.
Proof.
  induction fuel as [|f IH]; intros l d HS HI HN; cbn [exits_loop exec_exits]; destruct (l_stx l) as [s|] eqn:Ex.
  - reflexivity.
  - repeat split; auto.
  - destruct (entry_list c M (S f) d s tgt 0 (l_se l)) as [[[[stn ixn] se]|]|] eqn:El; [| |reflexivity].
    2:{ cbn [bind]. unfold errorS, error. destruct (rassert (sm_asrt c) 689 false); cbn; [|reflexivity]. repeat split; auto. }
    cbn [bind]. destruct (entry_list_len _ _ _ _ _ _ _ _ _ El ltac:(lia)) as [L1 L2]. rewrite HI. cbn [orb].
    set (b := match stn with Some _ => true | None => false end). cbn [lset_exit l_islca l_ixx].
    destruct (negb b || Nat.eqb (l_ixx l) 0).
    + destruct (vx M s) as [x|]; [|reflexivity]. cbn [bind]. destruct (st_exit x) as [a|]; [|reflexivity]. cbn [bind].
      rewrite callo_id. cbn [bind lset_exit l_stx l_islca l_se l_snl l_stn l_ixn l_ixx].
      destruct (update_shallow M (say d [XExit s a]) s) as [d1|]; [|reflexivity]. cbn [bind]. destruct b.
      * destruct (wr se ixn stn) as [se2|] eqn:Ew; [|reflexivity]. cbn [bind]. apply wr_ok in Ew. destruct Ew as [Hlt ->].
        unfold inc8. rewrite Nat.mod_small by lia. cbn [l_se l_ixn]. split; [reflexivity|]. split; [reflexivity|]. split; [reflexivity|].
        split; [|lia]. unfold keeps. cbn [lset_exit l_se l_al l_pal l_nal l_act l_nen]. rewrite length_upd. repeat split; auto.
      * destruct (update_parent M d1 s) as [p|]; [|reflexivity]. cbn [bind].
        set (l1 := lset_exit _ _ _ _ _ _ _ _).
        specialize (IH l1 d1 ltac:(unfold l1; cbn [lset_exit l_se]; lia) ltac:(reflexivity) ltac:(unfold l1; cbn [lset_exit l_ixn]; lia)).
        change (l_stx l1) with p in IH. change (l_ixx l1) with (S (l_ixx l)) in IH. change (l_se l1) with se in IH.
        change (l_ixn l1) with ixn in IH.
        assert (Hk : forall l', keeps l1 l' -> keeps l l').
        { intros l' (K1 & K2 & K3 & K4 & K5 & K6). unfold l1 in *. cbn [lset_exit l_al l_pal l_nal l_act l_nen l_se] in *.
          repeat split; auto. lia. }
        destruct (exits_loop c M call f l1 d1 tgt) as [[l2 [d2|r2 d2]]|], (exec_exits c M f d1 p (S (l_ixx l)) tgt se ixn) as [[[[d3 se3] n3]|r3 d3]|];
          try contradiction; [|intuition|exact IH]. destruct IH as (-> & -> & -> & K & N). repeat split; auto; apply Hk in K; apply K.
    + cbn [l_se l_ixn]. split; [reflexivity|]. split; [reflexivity|]. split; [reflexivity|]. split; [|lia].
      unfold keeps. cbn [lset_exit l_se l_al l_pal l_nal l_act l_nen]. repeat split; auto.
  - repeat split; auto.
Qed.
Lemma entries_eq : forall n f l d isc, n <= f -> l_ixn l = n -> l_snl l = n ->
  match entries_loop c M call f l d isc, exec_entries c M n (l_se l) d isc with
  | Fault f, Fault f' => f = f'
  | Ok (l', d, b), Ok (d', b') => d = d' /\ b = b' /\ rd (l_se l) 0 = Ok (l_stn l') /\ exists l0, keeps l l0 /\ l_se l0 = l_se l /\ l_nn l0 = l_nn l /\ l' = lset_stn l0 (l_stn l')
  | Fault f, Ok _ => rd (l_se l) 0 = Fault f
  | _, _ => False
  end.
Proof.
  induction n as [|n IH]; intros f l d isc Hf Hi Hs.
  - destruct f; cbn [entries_loop exec_entries]; rewrite Hi, Hs; cbn [Nat.eqb];
      (destruct (rd (l_se l) 0) as [stn|]; [|reflexivity]; cbn [bind]; repeat split; exists l; repeat split).
  - destruct f as [|f]; [lia|]. cbn [entries_loop exec_entries]. rewrite Hi, Hs. cbn [Nat.eqb].
    destruct (rd (l_se l) n) as [s|] eqn:Er; [|reflexivity]. cbn [bind]. destruct (vxo M s) as [x|] eqn:Ex; [|reflexivity]. cbn [bind].
    destruct (st_enter x) as [a|]; [|reflexivity]. cbn [bind]. destruct s as [s|]; [|reflexivity].
    rewrite callo_id. cbn [bind lset_snl l_se l_snl l_ixn]. rewrite Er. cbn [bind]. rewrite Ex. cbn [bind dec8].
    set (l1 := lset_snl _ _ _).
    specialize (IH f l1 (say d [XEntry s a]) (is_completion c x) ltac:(lia) eq_refl eq_refl). change (l_se l1) with (l_se l) in IH.
    destruct (entries_loop c M call f l1 (say d [XEntry s a]) (is_completion c x)) as [[[l2 d2] b2]|],
      (exec_entries c M n (l_se l) (say d [XEntry s a]) (is_completion c x)) as [[d3 b3]|]; auto.
Qed.

Definition rel4 (r : res (loc * ctl (dyn * bool))) (r' : res (ctl (dyn * option nat * bool))) : Prop :=
  match r, r' with
  | Fault f, Fault f' => f = f'
  | Ok (l, Stop r d), Ok (Stop r' d') => r = r' /\ d = d' /\ sized l
  | Ok (l, Go (d, b)), Ok (Go (d', stn, b')) => d = d' /\ b = b' /\ stn = l_stn l /\ sized l
  | _, _ => False
  end.
(** Without micro steps the walk neither reads nor writes nn. *)
Definition setnn (w : wst) (n : nat) : wst := mkW (w_d w) (w_ets w) (w_al w) (w_nal w) (w_stn w) (w_se w) n.
Definition cnn (n : nat) (r : ctl wst) : ctl wst := match r with Go w => Go (setnn w n) | Stop r d => Stop r d end.
Definition rmap {A B} (f : A -> B) (r : res A) : res B := match r with Ok a => Ok (f a) | Fault e => Fault e end.
Lemma setnn_id w : setnn w (w_nn w) = w.
Proof. now destruct w. Qed.
Lemma branch_nn fuel pe w n tbl : branch c M grd fuel false pe (setnn w n) tbl = rmap (cnn n) (branch c M grd fuel false pe w tbl).
Proof.
  unfold branch. cbn [setnn w_d w_al w_nal]. destruct (find_branch grd (w_d w) pe tbl) as [d [t|]]; [|reflexivity].
  destruct (add_action c (w_al w) (w_nal w) (t_act t)) as [[an|]|]; [reflexivity| |reflexivity]. cbn [bind].
  unfold error. destruct (rassert (sm_asrt c) 566 false); reflexivity.
Qed.
Lemma pseudo_nn fuel pe w n : pseudo c M grd fuel false pe (setnn w n) = rmap (option_map (cnn n)) (pseudo c M grd fuel false pe w).
Proof.
  unfold pseudo. cbn [setnn w_d w_al w_nal w_ets w_stn w_se w_nn]. destruct (vxo M (w_ets w)) as [x|]; [|reflexivity]. cbn [bind].
  assert (Hseg : forall line act d ets,
    (do r <- add_action c (w_al w) (w_nal w) act;
     match r with None => do e <- error c line EX_TSEG d; Ok (Some e) | Some an => Ok (Some (Go (w_seg (setnn w n) d ets an))) end)
    = rmap (option_map (cnn n)) (do r <- add_action c (w_al w) (w_nal w) act;
     match r with None => do e <- error c line EX_TSEG d; Ok (Some e) | Some an => Ok (Some (Go (w_seg w d ets an))) end)).
  { intros. destruct (add_action c (w_al w) (w_nal w) act) as [[an|]|]; [reflexivity| |reflexivity]. cbn [bind].
    unfold error. destruct (rassert (sm_asrt c) line false); reflexivity. }
  destruct x as [en ex par tbl|en ex par tbl dc ia h|par|en ex par tbl expcn rsm|dc ia|tbl|tbl|deep par dft|act tgt par|ix rsm|par];
    try reflexivity.
  - destruct (vx M rsm) as [y|]; [|reflexivity]. cbn [bind]. destruct y; try reflexivity. apply Hseg.
  - rewrite branch_nn. destruct (branch c M grd fuel false pe w tbl); reflexivity.
  - destruct (exec_acts (w_al w) 0 (w_nal w) (w_d w) pe) as [d|]; [|reflexivity]. cbn [bind].
    match goal with |- bind (branch _ _ _ _ _ _ ?a _) _ = rmap _ (bind (branch _ _ _ _ _ _ ?b _) _) => change a with (setnn b n); rewrite branch_nn;
      destruct (branch c M grd fuel false pe b tbl); reflexivity end.
  - match goal with |- bind ?a _ = rmap _ (bind ?b _) => change b with a; destruct a as [[]|]; [|reflexivity] end. cbn [bind].
    destruct (w_ets w) as [v|]; [|reflexivity]. cbn [w_d w_al w_nal w_stn w_se w_nn w_ets].
    destruct (d_hist (w_d w) v) as [s|]; [reflexivity|]. destruct (t_tgt dft) as [t|]; [|reflexivity].
    destruct (match t_grd dft with Some g => exec_guard grd (w_d w) g pe | None => (w_d w, true) end) as [d1 [|]]; [|reflexivity].
    destruct (add_action c (w_al w) (w_nal w) (t_act dft)) as [[an|]|]; [reflexivity| |reflexivity]. cbn [bind].
    unfold error. destruct (rassert (sm_asrt c) 605 false); reflexivity.
  - destruct (vx M par) as [y|]; [|reflexivity]. cbn [bind]. destruct y; try reflexivity.
    destruct (vx M rsm) as [z|]; [|reflexivity]. cbn [bind]. destruct z; try reflexivity. apply Hseg.
  - destruct (vx M rsm) as [y|]; [|reflexivity]. cbn [bind]. destruct y; try reflexivity.
    destruct (vxo M (d_dyp (w_d w) rsm)) as [z|]; [|reflexivity]. cbn [bind]. destruct z; try reflexivity.
    destruct (rd expcn ix) as [[act tgt]|]; [|reflexivity]. cbn [bind]. apply Hseg.
  - unfold error. destruct (rassert (sm_asrt c) 668 false); reflexivity.
Qed.
Lemma walk_nn pe : forall fuel w n, walk c M grd fuel false pe (setnn w n) = rmap (cnn n) (walk c M grd fuel false pe w).
Proof.
  induction fuel as [|f IH]; intros w n; [reflexivity|]. cbn [walk]. rewrite pseudo_nn.
  destruct (pseudo c M grd (S f) false pe w) as [[[w1|r d]|]|]; cbn [rmap bind option_map cnn]; auto.
Qed.
Lemma walk_nn_same pe fuel w w' : walk c M grd fuel false pe w = Ok (Go w') -> w_nn w' = w_nn w.
Proof.
  intros E. pose proof (walk_nn pe fuel w (w_nn w)) as H. rewrite setnn_id, E in H. cbn [rmap cnn] in H. injection H as H.
  rewrite H. reflexivity.
Qed.

(** The step after the walk: which states to enter. *)
Lemma stage_eq fuel micro cs l d ets n : good l -> (micro = false -> cs = None -> n = 0 /\ l_nn l = 0) ->
  match (if micro then
           do (se, nn) <- add_target M fuel ets (l_se l) (l_stn l); Ok (lset_nn l (nn mod 256) se, Go d)
         else match cs with
              | Some cs => exec_exitsS c M call fuel l d cs ets
              | None => do (se, n) <- add_target M fuel ets (l_se l) None; Ok (lset_nn l ((l_nn l + n) mod 256) se, Go d)
              end),
        (if micro then
           do (se, nn) <- add_target M fuel ets (l_se l) (l_stn l); Ok (Go (d, se, nn))
         else match cs with
              | Some cs => exec_exits c M fuel d cs 0 ets (l_se l) 0
              | None => do (se, k) <- add_target M fuel ets (l_se l) None; Ok (Go (d, se, (n + k)%nat))
              end) with
  | Fault f, Fault f' => f = f'
  | Ok (l', Stop r d), Ok (Stop r' d') => r = r' /\ d = d' /\ sized l'
  | Ok (l', Go d), Ok (Go (d', se, n)) => d = d' /\ se = l_se l' /\ n = l_nn l' /\ keeps l l' /\ n <= sm_depth c
  | _, _ => False
  end.
Proof.
  intros ((HA & HS) & HF & HP) Hn. destruct micro; [|destruct cs as [cs|]].
  - destruct (add_target M fuel ets (l_se l) (l_stn l)) as [[se nn]|] eqn:E; [|reflexivity]. cbn [bind].
    apply add_target_len in E. destruct E as [L1 L2]. cbn [lset_nn l_se l_nn]. rewrite Nat.mod_small by lia.
    repeat split; auto. cbn [lset_nn l_nn l_nal]; lia.
  - unfold exec_exitsS. set (l0 := lset_exit _ _ _ _ _ _ _ _).
    pose proof (exits_eq ets fuel l0 d HS eq_refl ltac:(cbn [l0 lset_exit l_ixn]; lia)) as H.
    change (l_stx l0) with cs in H. change (l_ixx l0) with 0 in H. change (l_se l0) with (l_se l) in H. change (l_ixn l0) with 0 in H.
    destruct (exits_loop c M call fuel l0 d ets) as [[l1 [d1|r1 d1]]|], (exec_exits c M fuel d cs 0 ets (l_se l) 0) as [[[[d2 se2] n2]|r2 d2]|];
      cbn [bind]; try contradiction; auto.
    destruct H as (-> & -> & K1 & K2 & K3 & K4 & K5 & K6). split; [reflexivity|]. split; [reflexivity|]. split; cbn [lset_nn l_al l_se].
      * rewrite K1. exact HA.
      * rewrite K6. exact HS.
  - destruct (Hn eq_refl eq_refl) as [-> Hl]. destruct (add_target M fuel ets (l_se l) None) as [[se nn]|] eqn:E; [|reflexivity]. cbn [bind].
    apply add_target_len in E. destruct E as [L1 L2]. cbn [lset_nn l_se l_nn]. rewrite Hl, Nat.mod_small by lia.
    repeat split; auto. cbn [Nat.add lset_nn l_nn l_nal]; lia.
Qed.

Lemma descend_eq cs pe : forall fuel micro l d ets isc n, sized l ->
  (micro = false -> cs = None -> n = 0 /\ l_nn l = 0) -> (micro = true -> n = l_nn l) ->
  rel4 (descendS c M grd call fuel micro cs pe l d ets isc)
       (descend c M grd fuel micro cs pe (l_act l) (mkW d ets (unal (l_al l)) 0 (l_stn l) (l_se l) n) isc).
Proof.
  induction fuel as [|f IH]; intros micro l d ets isc n HS HN HM; [reflexivity|]. cbn [descendS descend].
  set (l0 := lset_al l (l_al l) 0 0).
  assert (HG0 : good l0). { split; [exact HS|]. split; [|reflexivity]. split; cbn [l0 lset_al l_nal]; [lia|]. intros i Hi. lia. }
  change (mkW d ets (unal (l_al l)) 0 (l_stn l) (l_se l) n) with (setnn (W l0 d ets) n).
  pose proof (add_action_eq l0 (l_act l) HG0) as H. change (w_al (setnn (W l0 d ets) n)) with (unal (l_al l0)).
  change (l_nal l0) with 0 in H.
  destruct (add_actionS c l0 (l_act l)) as [[l1 [|]]|].
  2:{ destruct H as (-> & ->). cbn [bind]. unfold errorS, error. destruct (rassert (sm_asrt c) 523 false); cbn; auto. }
  2:{ rewrite H. reflexivity. }
  destruct H as (-> & HG1 & al & pal & nal & E1). cbn [bind].
  assert (HN1 : l_nn l1 = l_nn l) by (rewrite E1; reflexivity).
  replace (w_seg (setnn (W l0 d ets) n) _ _ (unal (l_al l1), l_nal l1)) with (setnn (W l1 d ets) n)
    by (rewrite E1; reflexivity).
  pose proof (walk_eq micro pe (S f) l1 d ets HG1) as H.
  assert (HW : walk c M grd (S f) micro pe (setnn (W l1 d ets) n) =
               if micro then walk c M grd (S f) micro pe (W l1 d ets) else rmap (cnn n) (walk c M grd (S f) micro pe (W l1 d ets))).
  { destruct micro; [|apply walk_nn]. rewrite (HM eq_refl), <- HN1. reflexivity. }
  rewrite HW. clear HW.
  destruct (walkS c M grd call (S f) micro pe l1 d ets) as [[l2 [[d2 e2]|r2 d2]]|],
    (walk c M grd (S f) micro pe (W l1 d ets)) as [[w3|r3 d3]|] eqn:EW; cbn [rel3] in H; try contradiction;
    [|destruct micro; exact H|destruct micro; exact H].
  destruct H as (-> & HG2).
  assert (HN2 : micro = false -> cs = None -> n = 0 /\ l_nn l2 = 0).
  { intros Hm Hc. destruct (HN Hm Hc) as [Hn Hl]. split; [exact Hn|]. rewrite Hm in EW. apply walk_nn_same in EW.
    cbn [W w_nn] in EW. congruence. }
  assert (HX : exists n2, (if micro then Ok (Go (W l2 d2 e2)) else rmap (cnn n) (Ok (Go (W l2 d2 e2)))) = Ok (Go (setnn (W l2 d2 e2) n2)) /\
                          (micro = false -> n2 = n)).
  { destruct micro; [exists (l_nn l2)|exists n]; (split; [reflexivity|]); [discriminate|reflexivity]. }
  destruct HX as (n2 & -> & Hn2). cbn [bind W setnn w_ets w_se w_stn w_d w_nn w_al w_nal].
  pose proof (stage_eq (S f) micro cs l2 d2 e2 n2 HG2
    ltac:(intros Hm Hc; destruct (HN2 Hm Hc); rewrite (Hn2 Hm); auto)) as H.
  match type of H with match ?a with _ => _ end => destruct a as [[l3 [d3|r3 d3]]|] end;
  match type of H with match ?a with _ => _ end => destruct a as [[[[d4 se4] n4]|r4 d4]|] end; try contradiction; cbn [bind]; try exact H.
  destruct H as (-> & -> & -> & K & N). destruct HG2 as ((HA2 & HS2) & HF2 & HP2).
  destruct K as (K1 & K2 & K3 & K4 & K5 & K6).
  assert (HF3 : full l3). { unfold full. rewrite K1, K3. exact HF2. }
  destruct (exec_actsS_eq l3 d4 pe HF3) as (d5 & X1 & X2). rewrite K1, K3 in X1. rewrite X1, X2. cbn [bind].
  set (l5 := lset_al l3 (l_al l3) 0 0). unfold exec_entriesS.
  pose proof (entries_eq (l_nn l5) 256 (lset_snl l5 (l_nn l5) (l_nn l5)) d5 isc
    ltac:(change (l_nn l5) with (l_nn l3); lia) eq_refl eq_refl) as H.
  change (l_se (lset_snl l5 (l_nn l5) (l_nn l5))) with (l_se l3) in H. change (l_nn l5) with (l_nn l3) in *.
  destruct (entries_loop c M call 256 (lset_snl l5 (l_nn l3) (l_nn l3)) d5 isc) as [[[l6 d6] b6]|],
    (exec_entries c M (l_nn l3) (l_se l3) d5 isc) as [[d7 b7]|]; try contradiction; cbn [bind]; [| |exact H].
  2:{ rewrite H. reflexivity. }
  destruct H as (-> & -> & R & l7 & (Q1 & Q2 & Q3 & Q4 & Q5 & Q6) & E3 & E4 & E5). rewrite R. cbn [bind].
  assert (HS6 : sized l6).
  { rewrite E5. split; cbn [lset_stn l_al l_se].
    - rewrite Q1. change (length (l_al l3) = sm_segs c). rewrite K1. exact HA2.
    - rewrite E3. change (length (l_se l3) = sm_depth c). rewrite K6. exact HS2. }
  destruct (vxo M e2) as [x|]; [|reflexivity]. cbn [bind].
  destruct x as [| en ex par tbl dc ia h | | | | | | | | |]; try (split; [reflexivity|split; [reflexivity|split; [reflexivity|exact HS6]]]).
  set (l8 := lset_stn _ _).
  assert (Hal : l_al l6 = l_al l2). { rewrite E5. cbn [lset_stn l_al]. rewrite Q1. exact K1. }
  assert (Hse : l_se l6 = l_se l3). { rewrite E5. cbn [lset_stn l_se]. rewrite E3. reflexivity. }
  assert (Hnn : l_nn l6 = l_nn l3). { rewrite E5. cbn [lset_stn l_nn]. rewrite E4. reflexivity. }
  assert (HS8 : sized l8) by exact HS6.
  pose proof (IH true l8 d7 dc b7 (l_nn l3) HS8 ltac:(discriminate) ltac:(intros _; symmetry; exact Hnn)) as H.
  change (l_act l8) with ia in H. change (l_al l8) with (l_al l6) in H. change (l_se l8) with (l_se l6) in H.
  change (l_stn l8) with e2 in H. rewrite Hal, Hse in H. exact H.
Qed.

Definition rel5 (r : res (loc * ctl (dyn * bool))) (r' : res (ctl (dyn * bool))) : Prop :=
  match r, r' with
  | Fault f, Fault f' => f = f'
  | Ok (l, r), Ok r' => r = r' /\ sized l
  | _, _ => False
  end.
Lemma round_eq fuel l d creation pe : sized l ->
  rel5 (roundS c M grd call fuel l d creation pe) (round c M grd fuel d creation pe (unal (l_al l)) (l_se l)).
Proof.
  intros HS. unfold roundS, round.
  assert (Hgo : forall l1 d1 src cs ets act, sized l1 -> l_al l1 = l_al l -> l_se l1 = l_se l -> l_act l1 = act -> l_stn l1 = Some src ->
    (cs = None -> l_nn l1 = 0) ->
    rel5 (let l := lset_nen l1 0 in
    let d := say d1 [XTrn src ets] in
    match ets with
    | None =>
      do (l, ok) <- add_actionS c (lset_al l (l_al l) 0 0) (l_act l);
      if ok then do (l, d) <- exec_actsS call l d pe; Ok (l, Go (d, false)) else errorS c 523 EX_TSEG l d
    | Some _ =>
      do (l, r) <- descendS c M grd call fuel false cs pe l d ets false;
      match r with
      | Stop r d => Ok (l, Stop r d)
      | Go (d, isc) =>
        do d <- update_deep M fuel d (l_stn l);
        match l_stn l with
        | None => Fault (FUB UB_null)
        | Some s => Ok (l, Go (say (set_st d (l_stn l)) [XState s], isc))
        end
      end
    end)
    (let d := say d1 [XTrn src ets] in
    match ets with
    | None =>
      do r <- add_action c (unal (l_al l)) 0 act;
      match r with
      | None => error c 523 EX_TSEG d
      | Some (al, nal) => do d <- exec_acts al 0 nal d pe; Ok (Go (d, false))
      end
    | Some _ =>
      do r <- descend c M grd fuel false cs pe act (mkW d ets (unal (l_al l)) 0 (Some src) (l_se l) 0) false;
      match r with
      | Stop r d => Ok (Stop r d)
      | Go (d, stn, isc) =>
        do d <- update_deep M fuel d stn;
        match stn with
        | None => Fault (FUB UB_null)
        | Some s => Ok (Go (say (set_st d stn) [XState s], isc))
        end
      end
    end)).
  { intros l1 d1 src cs ets act HS1 Eal Ese Ea Es Hn. cbn zeta. destruct ets as [e|].
    - pose proof (descend_eq cs pe fuel false (lset_nen l1 0) (say d1 [XTrn src (Some e)]) (Some e) false 0 HS1
        ltac:(intros _ Hc; split; [reflexivity|exact (Hn Hc)]) ltac:(discriminate)) as H.
      cbn [lset_nen l_act l_al l_stn l_se] in H. rewrite Ea, Eal, Es, Ese in H.
      destruct (descendS c M grd call fuel false cs pe (lset_nen l1 0) (say d1 [XTrn src (Some e)]) (Some e) false) as [[l2 [[d2 b2]|r2 d2]]|];
      match type of H with rel4 _ ?a => destruct a as [[[[d3 s3] b3]|r3 d3]|] end; cbn [rel4] in H; try contradiction; cbn [bind].
      + destruct H as (-> & -> & -> & H). destruct (update_deep M fuel d3 (l_stn l2)) as [d4|]; [|reflexivity]. cbn [bind].
        destruct (l_stn l2); [|reflexivity]. split; [reflexivity|exact H].
      + destruct H as (-> & -> & H). split; [reflexivity|exact H].
      + exact H.
    - set (l0 := lset_al _ _ 0 0).
      assert (HG0 : good l0). { split; [exact HS1|]. split; [|reflexivity]. split; cbn [l0 lset_al l_nal]; [lia|]. intros i Hi. lia. }
      pose proof (add_action_eq l0 act HG0) as H. change (l_act (lset_nen l1 0)) with (l_act l1). rewrite Ea.
      change (l_al l0) with (l_al l1) in H. rewrite Eal in H. change (l_nal l0) with 0 in H.
      destruct (add_actionS c l0 act) as [[l2 [|]]|].
      + destruct H as (-> & (HS2 & HF2 & HP2) & _). cbn [bind].
        destruct (exec_actsS_eq l2 (say d1 [XTrn src None]) pe HF2) as (d5 & X1 & X2). rewrite X1, X2. cbn [bind].
        split; [reflexivity|exact HS2].
      + destruct H as (-> & ->). cbn [bind]. unfold errorS, error. destruct (rassert (sm_asrt c) 523 false); cbn; auto.
      + rewrite H. reflexivity. }
  destruct creation as [[istate iact]|].
  - cbn [bind]. set (l1 := lset_exit _ _ _ _ _ _ _ _). exact (Hgo l1 d istate None (Some istate) iact HS eq_refl eq_refl eq_refl eq_refl (fun _ => eq_refl)).
  - destruct (d_st d) as [cs|]; [|reflexivity]. destruct (find_up M grd fuel d (Some cs) pe) as [[d1 [[src t]|]]|]; cbn [bind]; [| |reflexivity].
    + set (l1 := lset_act _ _). apply (Hgo l1 d1 src (Some (Some cs)) (t_tgt t) (t_act t) HS eq_refl eq_refl eq_refl eq_refl ltac:(discriminate)).
    + split; [reflexivity|exact HS].
Qed.

Definition arr (l : loc) : list nat * list (option nat) := (unal (l_al l), l_se l).
Lemma arr_ok l : sized l -> length (fst (arr l)) = sm_segs c /\ length (snd (arr l)) = sm_depth c.
Proof. intros [H1 H2]. cbn [arr fst snd]. unfold unal. rewrite map_length. auto. Qed.
Definition upto (l : loc) (r : res (loc * dyn * rcode)) (r' : res (dyn * rcode)) : Prop :=
  match r, r' with
  | Fault f, Fault f' => f = f'
  | Ok (l, d, r), Ok (d', r') => d = d' /\ r = r' /\ sized l
  | _, _ => False
  end.
Lemma complete_eq : forall fuel l d isc k, sized l -> exists ars,
  (forall i, length (fst (ars i)) = sm_segs c /\ length (snd (ars i)) = sm_depth c) /\
  upto l (completeS c M grd call fuel l d isc) (complete c M grd fuel d isc ars k).
Proof.
  induction fuel as [|f IH]; intros l d isc k HS.
  - exists (fun _ => arr l). split; [intros _; apply arr_ok, HS|]. destruct isc; [reflexivity|]. repeat split; apply HS.
  - destruct isc; [|exists (fun _ => arr l); split; [intros _; apply arr_ok, HS|]; repeat split; apply HS].
    pose proof (round_eq (S f) l d None (evCompletion c) HS) as H.
    destruct (roundS c M grd call (S f) l d None (evCompletion c)) as [[l1 r1]|] eqn:E1.
    + destruct (round c M grd (S f) d None (evCompletion c) (unal (l_al l)) (l_se l)) as [r2|] eqn:E2; [|contradiction].
      destruct H as (<- & HS1).
      assert (HX : exists ars, (forall i, length (fst (ars i)) = sm_segs c /\ length (snd (ars i)) = sm_depth c) /\
                upto l (match r1 with Go (d, isc) => completeS c M grd call f l1 d isc | Stop r d => Ok (l1, d, r) end)
                     (match r1 with Go (d, isc) => complete c M grd f d isc ars (S k) | Stop r d => Ok (d, r) end)).
      { destruct r1 as [[d1 b1]|r1 d1]; [apply (IH l1 d1 b1 (S k) HS1)|]. exists (fun _ => arr l).
        split; [intros _; apply arr_ok, HS|]. repeat split; apply HS1. }
      destruct HX as (ars & HA & HX). exists (fun i => if Nat.eqb i k then arr l else ars i). split.
      { intros i. destruct (Nat.eqb i k); [apply arr_ok, HS|apply HA]. }
      cbn [completeS complete]. rewrite E1, Nat.eqb_refl. cbn [arr fst snd]. rewrite E2. cbn [bind].
      destruct r1 as [[d1 b1]|r1 d1]; [|exact HX].
      rewrite (complete_ext c M grd f d1 b1 (fun i => if Nat.eqb i k then arr l else ars i) ars (S k)); [exact HX|].
      intros i Hi. destruct (Nat.eqb_spec i k); [lia|reflexivity].
    + exists (fun _ => arr l). split; [intros _; apply arr_ok, HS|]. cbn [completeS complete arr fst snd]. rewrite E1.
      destruct (round c M grd (S f) d None (evCompletion c) (unal (l_al l)) (l_se l)) as [r2|] eqn:E2; [contradiction|].
      exact H.
Qed.
Lemma dispatch_eq fuel istate iact l d pe : sized l -> exists ars,
  (forall i, length (fst (ars i)) = sm_segs c /\ length (snd (ars i)) = sm_depth c) /\
  upto l (dispatchS c M grd call fuel istate iact l d pe) (dispatch c M grd fuel istate iact d pe ars).
Proof.
  intros HS. unfold dispatchS, dispatch. set (cr := if (ev_sig pe =? sig_creation c)%N then _ else _).
  pose proof (round_eq fuel l d cr pe HS) as H.
  destruct (roundS c M grd call fuel l d cr pe) as [[l1 r1]|] eqn:E1.
  - destruct (round c M grd fuel d cr pe (unal (l_al l)) (l_se l)) as [r2|] eqn:E2; [|contradiction].
    destruct H as (<- & HS1).
    assert (HX : exists ars, (forall i, length (fst (ars i)) = sm_segs c /\ length (snd (ars i)) = sm_depth c) /\
              upto l (match r1 with Go (d, isc) => completeS c M grd call fuel l1 d isc | Stop r d => Ok (l1, d, r) end)
                   (match r1 with Go (d, isc) => complete c M grd fuel d isc ars 1 | Stop r d => Ok (d, r) end)).
    { destruct r1 as [[d1 b1]|r1 d1]; [apply (complete_eq fuel l1 d1 b1 1 HS1)|]. exists (fun _ => arr l).
      split; [intros _; apply arr_ok, HS|]. repeat split; apply HS1. }
    destruct HX as (ars & HA & HX). exists (fun i => if Nat.eqb i 0 then arr l else ars i). split.
    { intros i. destruct (Nat.eqb i 0); [apply arr_ok, HS|apply HA]. }
    cbn [Nat.eqb arr fst snd]. rewrite E2. cbn [bind]. destruct r1 as [[d1 b1]|r1 d1]; [|exact HX].
    rewrite (complete_ext c M grd fuel d1 b1 (fun i => if Nat.eqb i 0 then arr l else ars i) ars 1); [exact HX|].
    intros i Hi. destruct (Nat.eqb_spec i 0); [lia|reflexivity].
  - exists (fun _ => arr l). split; [intros _; apply arr_ok, HS|]. cbn [arr fst snd].
    destruct (round c M grd fuel d cr pe (unal (l_al l)) (l_se l)) as [r2|] eqn:E2; [contradiction|]. exact H.
Qed.
End Eq.

(** ** Runs of several machines *)
Section Run.
Context (c : smcfg) (fuel : nat) (os : nat -> mobj) (Hb : bytes_ok c).
Definition alone (i : nat) (d : dyn) (ops : list smop) : res dyn :=
  sm_run c (o_m (os i)) (o_grd (os i)) fuel (o_ist (os i)) (o_iact (os i)) d ops.
Lemma step_alone l ds i o : statics_ok c l -> exists op, same_call o op /\ smop_ok c op /\
  match stepS c (fun _ => keep) fuel os (l, ds) (i, o),
        sm_do c (o_m (os i)) (o_grd (os i)) fuel (o_ist (os i)) (o_iact (os i)) (ds i) op with
  | Fault f, Fault f' => f = f'
  | Ok (l', ds'), Ok d => statics_ok c l' /\ ds' i = d /\ forall j, j <> i -> ds' j = ds j
  | _, _ => False
  end.
Proof.
  intros HS. destruct Hb as [H1 H2]. unfold stepS.
  assert (HD : forall pe, exists ars, arrays_ok c ars /\
    match (do (l, d, _) <- dispatchS c (o_m (os i)) (o_grd (os i)) keep fuel (o_ist (os i)) (o_iact (os i)) l (ds i) pe; Ok (l, put ds i d)),
          (do (d', _) <- dispatch c (o_m (os i)) (o_grd (os i)) fuel (o_ist (os i)) (o_iact (os i)) (ds i) pe ars; Ok d') with
    | Fault f, Fault f' => f = f'
    | Ok (l', ds'), Ok d => statics_ok c l' /\ ds' i = d /\ forall j, j <> i -> ds' j = ds j
    | _, _ => False
    end).
  { intros pe. destruct (dispatch_eq c (o_m (os i)) (o_grd (os i)) keep (fun _ _ => eq_refl) H1 H2 fuel (o_ist (os i)) (o_iact (os i)) l (ds i) pe HS)
      as (ars & HA & HX). exists ars. split; [exact HA|].
    destruct (dispatchS c (o_m (os i)) (o_grd (os i)) keep fuel (o_ist (os i)) (o_iact (os i)) l (ds i) pe) as [[[l1 d1] r1]|],
      (dispatch c (o_m (os i)) (o_grd (os i)) fuel (o_ist (os i)) (o_iact (os i)) (ds i) pe ars) as [[d2 r2]|]; cbn [upto] in HX; try contradiction; cbn [bind]; auto.
    destruct HX as (-> & -> & HX). split; [exact HX|]. unfold put. rewrite Nat.eqb_refl. split; [reflexivity|].
    intros j Hj. destruct (Nat.eqb_spec j i); [contradiction|reflexivity]. }
  destruct o as [|pe].
  - destruct (HD (evCreation c)) as (ars & HA & HX). exists (OInit ars). split; [exact I|]. split; [exact HA|]. exact HX.
  - destruct (HD pe) as (ars & HA & HX). exists (ODisp pe ars). split; [reflexivity|]. split; [exact HA|].
    cbn [sm_do]. destruct (d_st (ds i)); [exact HX|]. auto.
Qed.
Lemma run_alone : forall ops l ds, statics_ok c l ->
  match runS c (fun _ => keep) fuel os (l, ds) ops with
  | Ok (l', ds') => statics_ok c l' /\ forall i, exists sops, Forall2 same_call (calls_of i ops) sops /\ Forall (smop_ok c) sops /\
      alone i (ds i) sops = Ok (ds' i)
  | Fault f => exists i pre post sops, ops = pre ++ post /\ Forall2 same_call (calls_of i pre) sops /\ Forall (smop_ok c) sops /\
      alone i (ds i) sops = Fault f
  end.
Proof.
  induction ops as [|[i o] ops IH]; intros l ds HS.
  - split; [exact HS|]. intros i. exists []. repeat split; constructor.
  - cbn [runS]. destruct (step_alone l ds i o HS) as (op & S1 & S2 & S3).
    destruct (stepS c (fun _ => keep) fuel os (l, ds) (i, o)) as [[l1 ds1]|] eqn:E1.
    + match type of S3 with match ?x with _ => _ end => destruct x as [d1|] eqn:E2; [|contradiction] end.
      destruct S3 as (HS1 & Hi & Hj). cbn [bind]. specialize (IH l1 ds1 HS1).
      assert (HP : forall ops k sops r, Forall2 same_call (calls_of k ops) sops -> Forall (smop_ok c) sops -> alone k (ds1 k) sops = r ->
        exists sops', Forall2 same_call (calls_of k ((i, o) :: ops)) sops' /\ Forall (smop_ok c) sops' /\ alone k (ds k) sops' = r).
      { intros ops' k sops r F1 F2 F3. unfold calls_of. cbn [filter fst]. destruct (Nat.eqb_spec i k) as [->|Hne].
        - exists (op :: sops). cbn [map snd]. split; [constructor; assumption|]. split; [constructor; assumption|].
          unfold alone in *. cbn [sm_run]. rewrite E2. cbn [bind]. rewrite <- Hi. exact F3.
        - exists sops. split; [exact F1|]. split; [exact F2|]. rewrite <- (Hj k) by congruence. exact F3. }
      destruct (runS c (fun _ => keep) fuel os (l1, ds1) ops) as [[l2 ds2]|].
      * destruct IH as [IH1 IH2]. split; [exact IH1|]. intros k. destruct (IH2 k) as (sops & F1 & F2 & F3). eapply HP; eauto.
      * destruct IH as (k & pre & post & sops & -> & F1 & F2 & F3). destruct (HP pre k sops _ F1 F2 F3) as (sops' & G1 & G2 & G3).
        exists k, ((i, o) :: pre), post, sops'. repeat split; auto.
    + cbn [bind]. match type of S3 with match ?x with _ => _ end => destruct x as [d1|] eqn:E2; [contradiction|] end. subst f0.
      exists i, [(i, o)], ops, [op]. unfold calls_of. cbn [filter fst]. rewrite Nat.eqb_refl. cbn [map snd].
      repeat split; auto. unfold alone. cbn [sm_run]. rewrite E2. reflexivity.
Qed.
End Run.
