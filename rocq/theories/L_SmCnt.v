(** Proofs: the numbers of entered and exited states that the dispatcher reports. *)
From Verif Require Import Base L_Base M_Sm S_SmWf S_SmRun M_SmStat S_SmStat.

Definition grow (d d' : dyn) (e x : nat) : Prop :=
  exists s, d_log d' = d_log d ++ s /\ length (entered s) = e /\ length (exited s) = x.
Lemma grow_refl d : grow d d 0 0.
Proof. exists []. now rewrite app_nil_r. Qed.
Lemma grow_log d d' : d_log d' = d_log d -> grow d d' 0 0.
Proof. intros E. exists []. now rewrite app_nil_r. Qed.
Lemma grow_say d x : grow d (say d x) (length (entered x)) (length (exited x)).
Proof. exists x. repeat split. Qed.
Lemma grow_trans d1 d2 d3 e1 x1 e2 x2 : grow d1 d2 e1 x1 -> grow d2 d3 e2 x2 -> grow d1 d3 (e1 + e2) (x1 + x2).
Proof.
  intros (s1 & E1 & F1 & G1) (s2 & E2 & F2 & G2). exists (s1 ++ s2). rewrite E2, E1, app_assoc.
  unfold entered, exited in *. rewrite !flat_map_app, !app_length. repeat split; lia.
Qed.
Lemma grow_00 d1 d2 d3 e x : grow d1 d2 0 0 -> grow d2 d3 e x -> grow d1 d3 e x.
Proof. apply grow_trans. Qed.
Lemma grow_00r d1 d2 d3 e x : grow d1 d2 e x -> grow d2 d3 0 0 -> grow d1 d3 e x.
Proof. intros H1 H2. pose proof (grow_trans _ _ _ _ _ _ _ H1 H2) as H. now rewrite !Nat.add_0_r in H. Qed.

Section Cnt.
Context (c : smcfg) (M : machine) (grd : nat -> evt -> list xev -> bool).

Lemma branch_grow pe : forall tbl d, grow d (fst (find_branch grd d pe tbl)) 0 0.
Proof.
  induction tbl as [|t r IH]; intros d; [apply grow_refl|]. cbn [find_branch]. destruct (t_grd t) as [g|]; [|apply IH].
  unfold exec_guard. destruct (grd g pe (d_log d)); [apply grow_say|]. eapply grow_00; [|apply IH]. apply grow_say.
Qed.
Lemma trn_grow pe sig : forall tbl d, grow d (fst (find_trn grd d pe tbl sig)) 0 0.
Proof.
  induction tbl as [|t r IH]; intros d; [apply grow_refl|]. cbn [find_trn]. destruct (t_evt t =? sig)%N; [|apply IH].
  destruct (t_grd t) as [g|]; [|apply grow_refl].
  unfold exec_guard. destruct (grd g pe (d_log d)); [apply grow_say|]. eapply grow_00; [|apply IH]. apply grow_say.
Qed.
Lemma up_grow pe : forall fuel d stn d' r, find_up M grd fuel d stn pe = Ok (d', r) -> grow d d' 0 0.
Proof.
  induction fuel as [|f IH]; intros d stn d' r E; cbn [find_up] in E; destruct stn as [s|]; try discriminate;
    try (injection E as <- <-; apply grow_refl).
  destruct (vx M s) as [x|]; [|discriminate]. cbn [bind] in E. destruct (st_tbl x) as [tbl|]; [|discriminate]. cbn [bind] in E.
  pose proof (trn_grow pe (ev_sig pe) tbl d) as G. destruct (find_trn grd d pe tbl (ev_sig pe)) as [d1 [t|]]; cbn [fst] in G.
  - injection E as <- <-. exact G.
  - destruct (update_parent M d1 s) as [p|]; [|discriminate]. cbn [bind] in E. eapply grow_00; [exact G|]. eapply IH; eauto.
Qed.

(** Variables that only the exits and entries change. *)
Definition same (l l' : loc) : Prop := l_nen l' = l_nen l /\ l_ixx l' = l_ixx l.
Lemma same_refl l : same l l.
Proof. split; reflexivity. Qed.
Lemma same_trans l1 l2 l3 : same l1 l2 -> same l2 l3 -> same l1 l3.
Proof. unfold same. intuition congruence. Qed.
Lemma add_same l act l' b : add_actionS c l act = Ok (l', b) -> same l l'.
Proof.
  unfold add_actionS. destruct (sm_segs c <=? l_nal l). { intros E. injection E as <- <-. apply same_refl. }
  destruct act as [a|]; [|intros E; injection E as <- <-; apply same_refl].
  destruct (wr (l_al l) (l_pal l) (Some a)); [|discriminate]. intros E. injection E as <- <-. split; reflexivity.
Qed.
Lemma acts_loop_grow pe : forall fuel l d l' d', exec_acts_loop keep fuel l d pe = Ok (l', d') ->
  grow d d' 0 0 /\ same l l' /\ l_nn l' = l_nn l.
Proof.
  induction fuel as [|f IH]; intros l d l' d' E; cbn [exec_acts_loop] in E; destruct (Nat.eqb (l_nal l) 0); try discriminate;
    try (injection E as <- <-; split; [apply grow_refl|split; [split; reflexivity|reflexivity]]).
  destruct (rd (l_al l) (l_pal l)) as [[a|]|]; try discriminate. cbn [bind keep] in E. apply IH in E. destruct E as (G & S & N).
  split; [|split; [exact S|exact N]]. eapply grow_00; [|exact G]. apply grow_say.
Qed.
Lemma acts_grow pe l d l' d' : exec_actsS keep l d pe = Ok (l', d') -> grow d d' 0 0 /\ same l l' /\ l_nn l' = l_nn l.
Proof. unfold exec_actsS. intros E. apply acts_loop_grow in E. exact E. Qed.
Lemma seg_grow line l d act ets l' d' e' : segS c line l d act ets = Ok (l', Go (d', e')) -> d' = d /\ same l l'.
Proof.
  unfold segS. destruct (add_actionS c l act) as [[l1 b]|] eqn:E; [|discriminate]. cbn [bind]. apply add_same in E.
  destruct b; [|unfold errorS; destruct (rassert (sm_asrt c) line false); discriminate].
  intros X. injection X as <- <- <-. auto.
Qed.
Lemma micro_same fuel micro l ets l' : micro_targetsS M fuel micro l ets = Ok l' -> same l l'.
Proof.
  unfold micro_targetsS. destruct micro; [|intros E; injection E as <-; apply same_refl].
  destruct (add_target M fuel ets (l_se l) (l_stn l)) as [[se nn]|]; [|discriminate]. intros E. injection E as <-. split; reflexivity.
Qed.
Lemma branchS_grow fuel micro pe l d tbl l' d' e' : branchS c M grd fuel micro pe l d tbl = Ok (l', Go (d', e')) -> grow d d' 0 0 /\ same l l'.
Proof.
  unfold branchS. pose proof (branch_grow pe tbl d) as G. destruct (find_branch grd d pe tbl) as [d1 [t|]]; [|discriminate].
  cbn [fst] in G. destruct (segS c 566 l d1 (t_act t) (t_tgt t)) as [[l1 [[d2 e2]|]]|] eqn:E; try discriminate. cbn [bind].
  apply seg_grow in E. destruct E as [-> S]. destruct (micro_targetsS M fuel micro l1 e2) as [l2|] eqn:E2; [|discriminate]. cbn [bind].
  intros X. injection X as <- <- <-. split; [exact G|]. eapply same_trans; [exact S|]. eapply micro_same; eauto.
Qed.
Lemma pseudo_grow fuel micro pe l d ets l' d' e' : pseudoS c M grd keep fuel micro pe l d ets = Ok (Some (l', Go (d', e'))) ->
  grow d d' 0 0 /\ same l l'.
Proof.
  assert (HS : forall line l d act ets, (do r <- segS c line l d act ets; Ok (Some r)) = Ok (Some (l', Go (d', e'))) -> d' = d /\ same l l').
  { intros line l1 d1 act ets1. destruct (segS c line l1 d1 act ets1) as [r|] eqn:E; [|discriminate]. cbn [bind]. intros X. injection X as ->.
    eapply seg_grow; eauto. }
  unfold pseudoS. destruct (vxo M ets) as [x|]; [|discriminate]. cbn [bind].
  destruct x as [en ex par tbl|en ex par tbl dc ia h|par|en ex par tbl expcn rsm|dc ia|tbl|tbl|deep par dft|act tgt par|ix rsm|par];
    try discriminate.
  - destruct (vx M rsm) as [y|]; [|discriminate]. cbn [bind]. destruct y; try discriminate. intros X. apply HS in X. destruct X as [-> X].
    split; [apply grow_log; reflexivity|exact X].
  - destruct (branchS c M grd fuel micro pe l d tbl) as [r|] eqn:E; [|discriminate]. cbn [bind]. intros X. injection X as ->. eapply branchS_grow; eauto.
  - destruct (exec_actsS keep l d pe) as [[l1 d1]|] eqn:E1; [|discriminate]. cbn [bind]. apply acts_grow in E1. destruct E1 as (G & S & _).
    destruct (branchS c M grd fuel micro pe l1 d1 tbl) as [r|] eqn:E; [|discriminate]. cbn [bind]. intros X. injection X as ->.
    apply branchS_grow in E. destruct E as [G2 S2]. split; [eapply grow_00; eauto|eapply same_trans; eauto].
  - match goal with |- bind ?a _ = _ -> _ => destruct a as [[]|]; [|discriminate] end. cbn [bind].
    destruct ets as [v|]; [|discriminate]. set (l1 := lset_stn l par).
    match goal with |- bind ?a _ = _ -> _ => assert (HR : forall l2 d2 e2, a = Ok (l2, Go (d2, e2)) -> grow d d2 0 0 /\ same l l2); [|destruct a as [[l2 [[d2 e2]|]]|]; try discriminate] end.
    { intros l2 d2 e2. destruct (d_hist d v) as [s|].
      - intros X. injection X as <- <- <-. split; [apply grow_refl|split; reflexivity].
      - destruct (t_tgt dft) as [t|]; [|intros X; injection X as <- <- <-; split; [apply grow_refl|split; reflexivity]].
        assert (GG : grow d (fst (match t_grd dft with Some g => exec_guard grd d g pe | None => (d, true) end)) 0 0).
        { destruct (t_grd dft); [apply grow_say|apply grow_refl]. }
        destruct (match t_grd dft with Some g => exec_guard grd d g pe | None => (d, true) end) as [d1 [|]]; [|discriminate].
        intros X. apply seg_grow in X. destruct X as [-> X]. split; [exact GG|]. exact X. }
    cbn [bind]. destruct (HR l2 d2 e2 eq_refl) as [G S]. destruct (micro_targetsS M fuel micro l2 e2) as [l3|] eqn:E3; [|discriminate]. cbn [bind].
    intros X. injection X as <- <- <-. split; [exact G|]. eapply same_trans; [exact S|]. eapply micro_same; eauto.
  - destruct (vx M par) as [y|]; [|discriminate]. cbn [bind]. destruct y; try discriminate.
    destruct (vx M rsm) as [z|]; [|discriminate]. cbn [bind]. destruct z; try discriminate. intros X. apply HS in X. destruct X as [-> X].
    split; [apply grow_log; reflexivity|exact X].
  - destruct (vx M rsm) as [y|]; [|discriminate]. cbn [bind]. destruct y; try discriminate.
    destruct (vxo M (d_dyp d rsm)) as [z|]; [|discriminate]. cbn [bind]. destruct z; try discriminate.
    destruct (rd expcn ix) as [[act tgt]|]; [|discriminate]. cbn [bind]. intros X. apply HS in X. destruct X as [-> X].
    split; [apply grow_refl|exact X].
  - unfold errorS. destruct (rassert (sm_asrt c) 668 false); discriminate.
Qed.
Lemma walk_grow micro pe : forall fuel l d ets l' d' e', walkS c M grd keep fuel micro pe l d ets = Ok (l', Go (d', e')) ->
  grow d d' 0 0 /\ same l l'.
Proof.
  induction fuel as [|f IH]; intros l d ets l' d' e' E; [discriminate|]. cbn [walkS] in E.
  destruct (pseudoS c M grd keep (S f) micro pe l d ets) as [[[l1 [[d1 e1]|]]|]|] eqn:E1; try discriminate; cbn [bind] in E.
  - apply pseudo_grow in E1. destruct E1 as [G1 S1]. apply IH in E. destruct E as [G S]. split; [eapply grow_00; eauto|eapply same_trans; eauto].
  - injection E as <- <- <-. split; [apply grow_refl|apply same_refl].
Qed.
Lemma shallow_log d s d' : update_shallow M d s = Ok d' -> d_log d' = d_log d.
Proof.
  unfold update_shallow. destruct (vx M s) as [x|]; [|discriminate]. cbn [bind]. destruct (st_parent x) as [[q|]|]; try discriminate; cbn [bind].
  2:{ intros E. injection E as <-. reflexivity. }
  destruct (vx M q) as [y|]; [|discriminate]. cbn [bind]. destruct y; try (intros E; injection E as <-; reflexivity).
  destruct hist as [h|]; [|intros E; injection E as <-; reflexivity]. destruct (vx M h) as [z|]; [|discriminate]. cbn [bind].
  destruct z; try discriminate; try (intros E; injection E as <-; reflexivity).
  destruct deep; intros E; injection E as <-; reflexivity.
Qed.
Lemma exits_grow tgt : forall fuel l d l' d', exits_loop c M keep fuel l d tgt = Ok (l', Go d') ->
  exists x, grow d d' 0 x /\ l_nen l' = l_nen l /\ l_ixx l' = l_ixx l + x.
Proof.
  induction fuel as [|f IH]; intros l d l' d' E; cbn [exits_loop] in E; destruct (l_stx l) as [s|]; try discriminate;
    try (injection E as <- <-; exists 0; split; [apply grow_refl|split; [reflexivity|lia]]).
  destruct (entry_list c M (S f) d s tgt 0 (l_se l)) as [[[[stn ixn] se]|]|]; try discriminate; cbn [bind] in E.
  2:{ unfold errorS in E. destruct (rassert (sm_asrt c) 689 false); discriminate. }
  set (b := l_islca l || _) in E. cbn [lset_exit l_islca l_ixx] in E.
  destruct (negb b || Nat.eqb (l_ixx l) 0).
  2:{ injection E as <- <-. exists 0. cbn [lset_exit l_nen l_ixx]. split; [apply grow_refl|split; [reflexivity|lia]]. }
  destruct (vx M s) as [x|]; [|discriminate]. cbn [bind] in E. destruct (st_exit x) as [a|]; [|discriminate]. cbn [bind] in E.
  replace (callo keep a (lset_exit l stn (Some s) ixn b ixn (l_ixx l) se)) with (Ok (lset_exit l stn (Some s) ixn b ixn (l_ixx l) se)) in E
    by (destruct a; reflexivity).
  cbn [bind lset_exit l_stx l_islca l_se l_snl l_stn l_ixn l_ixx] in E.
  destruct (update_shallow M (say d [XExit s a]) s) as [d1|] eqn:Eu; [|discriminate]. cbn [bind] in E. apply shallow_log in Eu.
  assert (G1 : grow d d1 0 1). { eapply grow_00r; [apply (grow_say d [XExit s a])|]. apply grow_log, Eu. }
  destruct b.
  - destruct (wr se ixn stn); [|discriminate]. cbn [bind] in E. injection E as <- <-. exists 1. cbn [lset_exit l_nen l_ixx]. split; [exact G1|]. split; [reflexivity|lia].
  - destruct (update_parent M d1 s) as [p|]; [|discriminate]. cbn [bind] in E. apply IH in E. destruct E as (y & G & N & X).
    cbn [lset_exit l_nen l_ixx] in N, X. exists (S y). split; [|split; [exact N|lia]]. exact (grow_trans _ _ _ _ _ _ _ G1 G).
Qed.
Lemma entries_grow : forall fuel l d isc l' d' b, entries_loop c M keep fuel l d isc = Ok (l', d', b) ->
  grow d d' (l_ixn l) 0 /\ same l l' /\ l_nn l' = l_nn l.
Proof.
  induction fuel as [|f IH]; intros l d isc l' d' b E; cbn [entries_loop] in E; destruct (Nat.eqb_spec (l_ixn l) 0) as [H0|H0]; try discriminate.
  1,2: destruct (rd (l_se l) (l_snl l)); [|discriminate]; cbn [bind] in E; injection E as <- <- <-; rewrite H0; split; [apply grow_refl|split; [split; reflexivity|reflexivity]].
  destruct (l_snl l) as [|snl]; [discriminate|]. destruct (rd (l_se l) snl) as [s|] eqn:Er; [|discriminate]. cbn [bind] in E.
  destruct (vxo M s) as [x|]; [|discriminate]. cbn [bind] in E. destruct (st_enter x) as [a|]; [|discriminate]. cbn [bind] in E.
  destruct s as [s|]; [|discriminate].
  replace (callo keep a (lset_snl l snl (l_ixn l))) with (Ok (lset_snl l snl (l_ixn l))) in E by (destruct a; reflexivity).
  cbn [bind lset_snl l_se l_snl l_ixn] in E. rewrite Er in E. cbn [bind] in E.
  destruct (vxo M (Some s)) as [x'|]; [|discriminate]. cbn [bind] in E. apply IH in E. cbn [lset_snl l_ixn] in E. destruct E as (G & S & N).
  split; [|split; [exact S|exact N]]. destruct (l_ixn l) as [|n]; [contradiction|]. cbn [dec8] in G.
  exact (grow_trans _ _ _ _ _ _ _ (grow_say d [XEntry s a]) G).
Qed.
Lemma descend_grow cs pe : forall fuel micro l d ets isc l' d' b, descendS c M grd keep fuel micro cs pe l d ets isc = Ok (l', Go (d', b)) ->
  (micro = false -> cs = None -> l_ixx l = 0) ->
  exists e x, grow d d' e x /\ l_nen l' = (l_nen l + e) mod 256 /\ l_ixx l' = (if micro then l_ixx l else 0) + x.
Proof.
  induction fuel as [|f IH]; intros micro l d ets isc l' d' b E Hc; [discriminate|]. cbn [descendS] in E.
  destruct (add_actionS c (lset_al l (l_al l) 0 0) (l_act l)) as [[l1 [|]]|] eqn:E1; try discriminate; cbn [bind] in E.
  2:{ unfold errorS in E. destruct (rassert (sm_asrt c) 523 false); discriminate. }
  apply add_same in E1. assert (S1 : same l l1) by exact E1.
  destruct (walkS c M grd keep (S f) micro pe l1 d ets) as [[l2 [[d2 e2]|]]|] eqn:E2; try discriminate. cbn [bind] in E.
  apply walk_grow in E2. destruct E2 as [G2 S2]. pose proof (same_trans _ _ _ S1 S2) as S3. destruct S3 as [N3 X3].
  match type of E with bind ?a _ = _ => assert (HR : forall l3 d3, a = Ok (l3, Go d3) ->
    exists x, grow d2 d3 0 x /\ l_nen l3 = l_nen l /\ l_ixx l3 = (if micro then l_ixx l else 0) + x); [|destruct a as [[l3 [d3|]]|]; try discriminate] end.
  { intros l3 d3. destruct micro; [|destruct cs as [cs|]].
    - destruct (add_target M (S f) e2 (l_se l2) (l_stn l2)) as [[se nn]|]; [|discriminate]. cbn [bind]. intros X. injection X as <- <-.
      exists 0. cbn [lset_nn l_nen l_ixx]. split; [apply grow_refl|split; [exact N3|lia]].
    - unfold exec_exitsS. set (l0 := lset_exit _ _ _ _ _ _ _ _). destruct (exits_loop c M keep (S f) l0 d2 e2) as [[l4 r4]|] eqn:E4; [|discriminate].
      cbn [bind]. intros X. injection X as <- ->. apply exits_grow in E4. destruct E4 as (x & G & N & X). exists x.
      split; [exact G|]. split; [exact (eq_trans N N3)|exact X].
    - destruct (add_target M (S f) e2 (l_se l2) None) as [[se nn]|]; [|discriminate]. cbn [bind]. intros X. injection X as <- <-.
      exists 0. cbn [lset_nn l_nen l_ixx]. split; [apply grow_refl|split; [exact N3|]]. rewrite X3. rewrite (Hc eq_refl eq_refl). lia. }
  cbn [bind] in E. destruct (HR l3 d3 eq_refl) as (x & G3 & N & X). clear HR.
  destruct (exec_actsS keep l3 d3 pe) as [[l4 d4]|] eqn:E4; [|discriminate]. cbn [bind] in E. apply acts_grow in E4. destruct E4 as (G4 & [N4 X4] & NN4).
  unfold exec_entriesS in E. destruct (entries_loop c M keep 256 (lset_snl l4 (l_nn l4) (l_nn l4)) d4 isc) as [[[l5 d5] b5]|] eqn:E5; [|discriminate].
  cbn [bind] in E. apply entries_grow in E5. cbn [lset_snl l_ixn l_nn] in E5. destruct E5 as (G5 & [N5 X5] & NN5).
  cbn [lset_snl l_nen l_ixx] in N5, X5.
  assert (GG : grow d d5 (l_nn l4) x).
  { eapply grow_00; [exact G2|]. eapply grow_trans with (e1 := 0) (x2 := 0) in G3; [|exact (grow_00 _ _ _ _ _ G4 G5)].
    cbn [Nat.add] in G3. now rewrite Nat.add_0_r in G3. }
  set (l6 := lset_nen l5 ((l_nen l5 + l_nn l5) mod 256)) in E.
  assert (N6 : l_nen l6 = (l_nen l + l_nn l4) mod 256). { unfold l6. cbn [lset_nen l_nen]. rewrite N5, N4, N, NN5. reflexivity. }
  assert (X6 : l_ixx l6 = (if micro then l_ixx l else 0) + x). { unfold l6. cbn [lset_nen l_ixx]. rewrite X5, X4. exact X. }
  destruct (vxo M e2) as [y|]; [|discriminate]. cbn [bind] in E.
  destruct y as [| en ex par tbl dc ia h | | | | | | | | |];
    try (injection E as <- <- <-; exists (l_nn l4), x; split; [exact GG|split; [exact N6|exact X6]]).
  apply IH in E; [|discriminate]. destruct E as (e7 & x7 & G7 & N7 & X7). exists (l_nn l4 + e7), (x + x7).
  split; [eapply grow_trans; eauto|]. cbn [lset_stn lset_act l_nen l_ixx] in N7, X7. fold l6 in N7, X7. rewrite N6 in N7. rewrite X6 in X7.
  split; [|lia]. rewrite N7, Nat.add_mod_idemp_l by lia. f_equal. lia.
Qed.
Lemma deep_log fuel : forall d from s d', update_deep_loop M fuel d from s = Ok d' -> d_log d' = d_log d.
Proof.
  induction fuel as [|f IH]; intros d from s d' E; cbn [update_deep_loop] in E; destruct s as [q|]; try discriminate; try (injection E as <-; reflexivity).
  destruct (vx M q) as [y|]; [|discriminate]. cbn [bind] in E. destruct y; try discriminate.
  - destruct hist as [h|]; [|eapply IH; eauto]. destruct (vx M h) as [z|]; [|discriminate]. cbn [bind] in E.
    destruct z; try discriminate; try (eapply IH; eauto; fail). destruct deep; apply IH in E; exact E.
  - destruct (vxo M (d_dyp d q)) as [z|]; [|discriminate]. cbn [bind] in E. destruct (st_parent z) as [p|]; [|discriminate]. cbn [bind] in E. eapply IH; eauto.
Qed.
Lemma round_grow fuel l d creation pe l' d' b : roundS c M grd keep fuel l d creation pe = Ok (l', Go (d', b)) ->
  exists s1 src t s2, d_log d' = d_log d ++ s1 ++ XTrn src t :: s2 /\ entered s1 = [] /\ exited s1 = [] /\
    match t with
    | Some _ => l_nen l' = length (entered s2) mod 256 /\ l_ixx l' = length (exited s2)
    | None => entered s2 = [] /\ exited s2 = []
    end.
Proof.
  unfold roundS. intros E.
  match type of E with bind ?a _ = _ => assert (HR : forall l1 d1 src cs ets, a = Ok (l1, Go (d1, src, cs, ets)) ->
    grow d d1 0 0 /\ (cs = None -> l_ixx l1 = 0)); [|destruct a as [[l1 [[[[d1 src] cs] ets]|]]|]; try discriminate] end.
  { intros l1 d1 src cs ets. destruct creation as [[ist ia]|].
    - intros X. injection X as <- <- <- <- <-. split; [apply grow_refl|reflexivity].
    - destruct (d_st d) as [cs0|]; [|discriminate]. destruct (find_up M grd fuel d (Some cs0) pe) as [[d2 [[s t]|]]|] eqn:Eu; try discriminate.
      cbn [bind]. intros X. injection X as <- <- <- <- <-. split; [eapply up_grow; eauto|discriminate]. }
  destruct (HR l1 d1 src cs ets eq_refl) as [(s1 & L1 & N1 & X1) HC]. clear HR. cbn [bind] in E.
  apply length_zero_iff_nil in N1. apply length_zero_iff_nil in X1. exists s1, src, ets.
  destruct ets as [v|].
  - destruct (descendS c M grd keep fuel false cs pe (lset_nen l1 0) (say d1 [XTrn src (Some v)]) (Some v) false) as [[l2 [[d2 b2]|]]|] eqn:E2; try discriminate.
    cbn [bind] in E. apply descend_grow in E2; [|intros _; exact HC]. destruct E2 as (e & x & (s & L2 & EE & EX) & N2 & X2).
    destruct (update_deep M fuel d2 (l_stn l2)) as [d3|] eqn:E3; [|discriminate]. cbn [bind] in E.
    destruct (l_stn l2) as [q|]; [|discriminate]. injection E as <- <- <-.
    assert (L3 : d_log d3 = d_log d2).
    { unfold update_deep in E3. destruct (vxo M (Some q)) as [y|]; [|discriminate]. cbn [bind] in E3. destruct (st_parent y) as [p|]; [|discriminate].
      cbn [bind] in E3. eapply deep_log; eauto. }
    exists (s ++ [XState q]). cbn [say set_st d_log]. rewrite L3, L2. cbn [say d_log]. rewrite L1.
    split; [rewrite <- !app_assoc; reflexivity|]. split; [exact N1|]. split; [exact X1|].
    unfold entered, exited in *. rewrite !flat_map_app. cbn [flat_map]. rewrite !app_nil_r. cbn [lset_nen l_nen] in N2. split; [rewrite N2, EE; reflexivity|].
    rewrite X2, EX. reflexivity.
  - destruct (add_actionS c (lset_al (lset_nen l1 0) (l_al (lset_nen l1 0)) 0 0) (l_act (lset_nen l1 0))) as [[l2 [|]]|] eqn:E2; try discriminate; cbn [bind] in E.
    2:{ unfold errorS in E. destruct (rassert (sm_asrt c) 523 false); discriminate. }
    destruct (exec_actsS keep l2 (say d1 [XTrn src None]) pe) as [[l3 d3]|] eqn:E3; [|discriminate]. cbn [bind] in E. injection E as <- <- <-.
    apply acts_grow in E3. destruct E3 as ((s & L3 & EE & EX) & _ & _). exists s. rewrite L3. cbn [say d_log]. rewrite L1.
    split; [rewrite <- !app_assoc; reflexivity|]. split; [exact N1|]. split; [exact X1|].
    split; apply length_zero_iff_nil; assumption.
Qed.
End Cnt.
