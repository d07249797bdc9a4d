(** Two dispatches that find different values in the work arrays, side by side. *)
From Verif Require Import Base L_Base M_Sm S_Sm S_SmWf S_SmRun L_Sm L_SmWalk L_SmStep L_SmDet L_SmWf L_SmKeep L_SmSafe.

Definition rrel {A} (R : A -> A -> Prop) (r1 r2 : res A) : Prop :=
  match r1, r2 with Ok a, Ok b => R a b | Fault f, Fault g => f = g | _, _ => False end.
Lemma bind_rel {A B} (R : A -> A -> Prop) (S : B -> B -> Prop) r1 r2 k1 k2 :
  rrel R r1 r2 -> (forall a b, R a b -> rrel S (k1 a) (k2 b)) -> rrel S (bind r1 k1) (bind r2 k2).
Proof. destruct r1, r2; cbn; intros H K; try contradiction; auto. Qed.
Lemma rrel_refl {A} (R : A -> A -> Prop) r : (forall a, R a a) -> rrel R r r.
Proof. intros H. destruct r; cbn; auto. Qed.
Lemma bind_same {A B} (S : B -> B -> Prop) (r : res A) k1 k2 :
  (forall a, rrel S (k1 a) (k2 a)) -> rrel S (bind r k1) (bind r k2).
Proof. intros K. destruct r; cbn; auto. Qed.
Lemma rrel_weak {A} (R S : A -> A -> Prop) r1 r2 : rrel R r1 r2 -> (forall a b, R a b -> S a b) -> rrel S r1 r2.
Proof. destruct r1, r2; cbn; auto. Qed.
Lemma rrel_eq {A} (r1 r2 : res A) : rrel eq r1 r2 -> r1 = r2.
Proof. destruct r1, r2; cbn; intros H; try contradiction; congruence. Qed.
Definition crel {A} (R : A -> A -> Prop) (x y : ctl A) : Prop :=
  match x, y with Go a, Go b => R a b | Stop r d, Stop r' d' => r = r' /\ d = d' | _, _ => False end.
Definition orel {A} (R : A -> A -> Prop) (x y : option A) : Prop :=
  match x, y with Some a, Some b => R a b | None, None => True | _, _ => False end.

(** The same length, and the same first [n] cells. *)
Definition agree {A} (n : nat) (l1 l2 : list A) : Prop :=
  length l1 = length l2 /\ forall i, i < n -> nth_error l1 i = nth_error l2 i.
Lemma agree_le {A} n m (l1 l2 : list A) : agree n l1 l2 -> m <= n -> agree m l1 l2.
Proof. intros [H1 H2] L. split; [exact H1|]. intros i Hi. apply H2. lia. Qed.
Lemma wr_agree {A} n i (x : A) l1 l2 : agree n l1 l2 ->
  rrel (fun a b => agree n a b /\ nth_error a i = nth_error b i) (wr l1 i x) (wr l2 i x).
Proof.
  intros [H1 H2]. destruct (Nat.lt_ge_cases i (length l1)) as [L | L].
  - rewrite (wr_lt l1 i x L), (wr_lt l2 i x) by (rewrite <- H1; exact L). cbn.
    split; [split; [rewrite !length_upd; exact H1|] | rewrite !nth_upd_eq by lia; reflexivity].
    intros j Hj. destruct (Nat.eq_dec j i) as [-> | N]; [rewrite !nth_upd_eq by lia; reflexivity|].
    rewrite !nth_upd_ne by auto. auto.
  - destruct (wr l1 i x) eqn:E1. { apply wr_ok in E1. lia. }
    destruct (wr l2 i x) eqn:E2. { apply wr_ok in E2. lia. }
    unfold wr in E1, E2. cbn. destruct (i <? length l1) in E1; [discriminate|]. destruct (i <? length l2) in E2; congruence.
Qed.
Lemma rd_agree {A} n i (l1 l2 : list A) : agree n l1 l2 -> i < n -> rd l1 i = rd l2 i.
Proof. intros [_ H] L. unfold rd. rewrite (H i L). reflexivity. Qed.

Section Arr.
Context (c : smcfg) (M : machine) (grd : nat -> evt -> list xev -> bool).

Lemma add_action_rel al1 al2 nal act : agree nal al1 al2 ->
  rrel (orel (fun a b => snd a = snd b /\ agree (snd a) (fst a) (fst b))) (add_action c al1 nal act) (add_action c al2 nal act).
Proof.
  intros H. unfold add_action. destruct (sm_segs c <=? nal); [exact I|]. destruct act as [a|]; [| cbn; auto].
  eapply bind_rel; [apply (wr_agree nal nal a _ _ H)|]. intros x y [[E1 E2] E3]. cbn. split; [reflexivity|]. split; [exact E1|].
  intros i Hi. destruct (Nat.eq_dec i nal) as [-> | N]; [exact E3 | apply E2; lia].
Qed.
Lemma exec_acts_rel al1 al2 : forall n i d pe, agree (i + n) al1 al2 -> exec_acts al1 i n d pe = exec_acts al2 i n d pe.
Proof.
  induction n as [|n IH]; intros i d pe H; [reflexivity|]. cbn [exec_acts]. rewrite (rd_agree (i + S n) i al1 al2 H) by lia.
  destruct (rd al2 i); [|reflexivity]. cbn [bind]. apply IH. replace (S i + n) with (i + S n) by lia. exact H.
Qed.

Definition same_list (z : nat) (a b : list (option nat) * nat) : Prop := snd a = snd b /\ agree (Nat.max z (snd a)) (fst a) (fst b).
Lemma add_loop_rel z cmp : forall fuel st se1 se2 n, agree (Nat.max z n) se1 se2 ->
  rrel (same_list z) (add_target_loop M fuel st se1 n cmp) (add_target_loop M fuel st se2 n cmp).
Proof.
  induction fuel as [|f IH]; intros st se1 se2 n H; cbn [add_target_loop].
  - match goal with |- context [if ?b then _ else _] => destruct b end; cbn; [split; auto | reflexivity].
  - match goal with |- context [if ?b then _ else _] => destruct b end; [cbn; split; auto|].
    eapply bind_rel; [apply (wr_agree _ n st _ _ H)|]. intros a b [[E1 E2] E3].
    apply bind_same. intros x. apply bind_same. intros p. apply IH. split; [exact E1|].
    intros i Hi. destruct (Nat.eq_dec i n) as [-> | N]; [exact E3 | apply E2; lia].
Qed.
Lemma add_target_rel z fuel t se1 se2 cmp : agree z se1 se2 ->
  rrel (same_list z) (add_target M fuel t se1 cmp) (add_target M fuel t se2 cmp).
Proof.
  intros H. unfold add_target. apply bind_same. intros x.
  destruct x; try (apply add_loop_rel; eapply agree_le; [exact H | lia]); cbn; (split; [reflexivity|]; cbn; eapply agree_le; [exact H | lia]).
Qed.
(** A list is written from its first cell on. *)
Lemma add_target_some fuel v x se cmp se' n : nth_error M v = Some x ->
  match x with VComp _ _ _ _ _ _ _ | VBasic _ _ _ _ | VFinal _ => True | _ => False end ->
  cmp = None -> add_target M fuel (Some v) se cmp = Ok (se', n) -> n <> 0.
Proof.
  intros Hx Hk -> H. unfold add_target in H. cbn [vxo] in H. unfold vx in H. rewrite Hx in H. cbn [bind] in H.
  assert (forall f st se n se' n', add_target_loop M f st se n None = Ok (se', n') -> n <= n') as Hge.
  { induction f as [|f IH]; intros st s0 n0 s1 n1 E; cbn [add_target_loop] in E; destruct st; try congruence.
    - injection E as <- <-. lia.
    - apply bind_ok in E as (s2 & _ & E). apply bind_ok in E as (y & _ & E). apply bind_ok in E as (p & _ & E). apply IH in E. lia.
    - injection E as <- <-. lia. }
  assert (add_target_loop M fuel (Some v) se 0 None = Ok (se', n)) as H' by (destruct x; try contradiction; exact H).
  destruct fuel; cbn [add_target_loop] in H'; [discriminate|].
  apply bind_ok in H' as (s2 & _ & E). apply bind_ok in E as (y & _ & E). apply bind_ok in E as (p & _ & E). apply Hge in E. lia.
Qed.

Lemma entry_list_rel z d stx : forall fuel stn ix se1 se2, agree (Nat.max z ix) se1 se2 ->
  rrel (orel (fun a b => fst a = fst b /\ agree (Nat.max z (snd (fst a))) (snd a) (snd b) /\ ix <= snd (fst a) /\
                         (match stn with Some t => fst (fst a) = Some t \/ ix < snd (fst a) | None => True end)))
       (entry_list c M fuel d stx stn ix se1) (entry_list c M fuel d stx stn ix se2).
Proof.
  induction fuel as [|f IH]; intros stn ix se1 se2 H; cbn [entry_list]; destruct stn as [n|].
  - destruct (Nat.eqb_spec stx n) as [-> | N]; [cbn; auto|]. destruct (ix <? sm_depth c); cbn; auto.
  - cbn; auto.
  - destruct (Nat.eqb_spec stx n) as [-> | N]; [cbn; auto|]. destruct (ix <? sm_depth c); [|cbn; auto].
    eapply bind_rel; [apply (wr_agree _ ix (Some n) _ _ H)|]. intros a b [[E1 E2] E3]. apply bind_same. intros p.
    assert (agree (Nat.max z (S ix)) a b) as H'.
    { split; [exact E1|]. intros i Hi. destruct (Nat.eq_dec i ix) as [-> | N']; [exact E3 | apply E2; lia]. }
    eapply rrel_weak; [apply (IH p (S ix) a b H')|]. intros [[[s1 i1] l1]|] [[[s2 i2] l2]|]; cbn; try tauto.
    intros (K1 & K2 & K3 & _). repeat split; auto; try apply K2; try lia.
  - cbn; auto.
Qed.

Definition same_exit (a b : dyn * list (option nat) * nat) : Prop :=
  fst (fst a) = fst (fst b) /\ snd a = snd b /\ agree (Nat.max 1 (snd a)) (snd (fst a)) (snd (fst b)).
Lemma exec_exits_rel t : forall fuel d stx ixx se1 se2 ixn z, agree (Nat.max z ixn) se1 se2 -> (stx <> None /\ ixx = 0) \/ z = 1 ->
  rrel (crel same_exit) (exec_exits c M fuel d stx ixx (Some t) se1 ixn) (exec_exits c M fuel d stx ixx (Some t) se2 ixn).
Proof.
  induction fuel as [|f IH]; intros d stx ixx se1 se2 ixn z H Hz; cbn [exec_exits]; destruct stx as [s|]; try (cbn; reflexivity).
  - destruct Hz as [[Hz _] | ->]; [congruence|]. cbn. repeat split; auto; apply H.
  - eapply bind_rel; [apply (entry_list_rel z d s (S f) (Some t) 0 se1 se2); eapply agree_le; [exact H | lia]|].
    intros [[[s1 i1] l1]|] [[[s2 i2] l2]|]; cbn; try contradiction.
    2: { intros _. unfold error. destruct (rassert (sm_asrt c) 689 false) as [x|f0]; cbn; auto. }
    intros (E & K2 & K3 & K4). injection E as <- <-.
    destruct (negb (match s1 with Some _ => true | None => false end) || (ixx =? 0)%nat) eqn:B.
    + apply bind_same. intros x. apply bind_same. intros a. apply bind_same. intros d'. destruct s1 as [q|].
      * eapply bind_rel; [apply (wr_agree _ i1 (Some q) _ _ K2)|]. intros a1 b1 [[E1 E2] E3]. cbn. split; [reflexivity|]. split; [reflexivity|].
        split; [exact E1|]. cbn. intros i Hi. destruct (Nat.eq_dec i i1) as [-> | N]; [exact E3|]. apply E2. lia.
      * apply bind_same. intros p. apply (IH d' p (S ixx) l1 l2 i1 1); [| auto].
        destruct K4 as [K4 | K4]; [discriminate | eapply agree_le; [exact K2 | lia]].
    + cbn. split; [reflexivity|]. split; [reflexivity|]. cbn. destruct Hz as [[_ ->] | ->]; [| exact K2].
      rewrite orb_true_r in B. discriminate.
  - destruct Hz as [[Hz _] | ->]; [congruence|]. cbn. repeat split; auto; apply H.
Qed.

Lemma entries_rel se1 se2 : forall n d isc, agree n se1 se2 -> exec_entries c M n se1 d isc = exec_entries c M n se2 d isc.
Proof.
  induction n as [|n IH]; intros d isc H; [reflexivity|]. cbn [exec_entries]. rewrite (rd_agree (S n) n _ _ H) by lia.
  destruct (rd se2 n) as [s|]; [|reflexivity]. cbn [bind]. destruct (vxo M s) as [x|]; [|reflexivity]. cbn [bind].
  destruct (st_enter x) as [a|]; [|reflexivity]. cbn [bind]. destruct s as [s|]; [|reflexivity].
  apply IH. eapply agree_le; [exact H | lia].
Qed.

(** The variables of the walk. *)
Definition wrel (z : nat) (w1 w2 : wst) : Prop :=
  w_d w1 = w_d w2 /\ w_ets w1 = w_ets w2 /\ w_nal w1 = w_nal w2 /\ w_stn w1 = w_stn w2 /\ w_nn w1 = w_nn w2 /\
  agree (w_nal w1) (w_al w1) (w_al w2) /\ agree z (w_se w1) (w_se w2).
Lemma seg_rel z w1 w2 d ets x1 x2 : wrel z w1 w2 -> snd x1 = snd x2 -> agree (snd x1) (fst x1) (fst x2) ->
  wrel z (w_seg w1 d ets x1) (w_seg w2 d ets x2).
Proof. intros (H1 & H2 & H3 & H4 & H5 & H6 & H7) E1 E2. repeat split; cbn; auto; try apply E2; apply H7. Qed.
Lemma micro_rel z fuel micro w1 w2 : wrel z w1 w2 -> rrel (wrel z) (micro_targets M fuel micro w1) (micro_targets M fuel micro w2).
Proof.
  intros H. pose proof H as (H1 & H2 & H3 & H4 & H5 & H6 & H7). unfold micro_targets. destruct micro; [|exact H].
  rewrite H2, H4. eapply bind_rel; [apply (add_target_rel z fuel (w_ets w2) _ _ (w_stn w2) H7)|].
  intros [a n] [b m] [E1 E2]. cbn in E1, E2. subst m. cbn. repeat split; cbn; auto; try apply H6; try apply E2.
  intros i Hi. apply E2. lia.
Qed.
Lemma error_rel {A} (R : A -> A -> Prop) line r d : rrel (crel R) (error c line r d) (error c line r d).
Proof. unfold error. destruct (rassert (sm_asrt c) line false); cbn; auto. Qed.
Lemma branch_rel z fuel micro pe w1 w2 tbl : wrel z w1 w2 ->
  rrel (crel (wrel z)) (branch c M grd fuel micro pe w1 tbl) (branch c M grd fuel micro pe w2 tbl).
Proof.
  intros H. pose proof H as (H1 & H2 & H3 & H4 & H5 & H6 & H7). unfold branch. rewrite H1.
  destruct (find_branch grd (w_d w2) pe tbl) as [d1 [t|]]; [|cbn; auto].
  rewrite H3 in *. eapply bind_rel; [apply (add_action_rel _ _ (w_nal w2) (t_act t) H6)|].
  intros [[a n]|] [[b m]|]; cbn; try contradiction; [| intros _; apply error_rel].
  intros [E1 E2]. eapply bind_rel; [apply (micro_rel z); apply seg_rel; auto|]. intros x y Hxy. exact Hxy.
Qed.
Lemma pseudo_rel z fuel micro pe w1 w2 : wrel z w1 w2 ->
  rrel (orel (crel (wrel z))) (pseudo c M grd fuel micro pe w1) (pseudo c M grd fuel micro pe w2).
Proof.
  intros H. pose proof H as (H1 & H2 & H3 & H4 & H5 & H6 & H7). unfold pseudo. rewrite H2. apply bind_same. intros x.
  assert (forall (a b : ctl wst), crel (wrel z) a b -> rrel (orel (crel (wrel z))) (Ok (Some a)) (Ok (Some b))) as Some_rel by (cbn; auto).
  assert (forall line r d, rrel (orel (crel (wrel z))) (do e <- error c line r d; Ok (Some e)) (do e <- error c line r d; Ok (Some e))) as Err_rel.
  { intros line r d. eapply bind_rel; [apply (error_rel (wrel z))|]. intros a b Hab. apply Some_rel, Hab. }
  destruct x; try exact I.
  - (* submachine state *)
    apply bind_same. intros y. destruct y; try reflexivity. rewrite H1, H3 in *.
    eapply bind_rel; [apply (add_action_rel _ _ (w_nal w2) iact H6)|].
    intros [[a n]|] [[b m]|]; cbn [orel]; try contradiction; [| intros _; apply Err_rel].
    intros [E1 E2]. apply Some_rel. cbn [crel]. apply seg_rel; auto.
  - (* conditional *)
    eapply bind_rel; [apply (branch_rel z); exact H|]. intros a b Hab. apply Some_rel, Hab.
  - (* choice *)
    rewrite H1, H3 in *. rewrite (exec_acts_rel (w_al w1) (w_al w2) (w_nal w2) 0 (w_d w2) pe H6). apply bind_same. intros d.
    eapply bind_rel; [apply (branch_rel z)|]. { repeat split; cbn; auto; try apply H6; try apply H7. intros i Hi. lia. }
    intros a b Hab. apply Some_rel, Hab.
  - (* history *)
    apply bind_same. intros u. destruct (w_ets w2) as [v|]; [|reflexivity]. cbn zeta. cbn [w_d w_ets w_al w_nal w_stn w_se w_nn].
    rewrite H1, H3 in *.
    set (v1 := mkW (w_d w2) (Some v) (w_al w1) (w_nal w2) parent (w_se w1) (w_nn w1)).
    set (v2 := mkW (w_d w2) (Some v) (w_al w2) (w_nal w2) parent (w_se w2) (w_nn w2)).
    assert (wrel z v1 v2) as V by (repeat split; cbn; auto; try apply H6; apply H7).
    eapply bind_rel with (R := crel (wrel z)).
    + destruct (d_hist (w_d w2) v) as [s|]; [cbn [rrel crel]; apply seg_rel; auto|].
      destruct (t_tgt dft) as [t|]; [| cbn [rrel crel]; apply seg_rel; auto].
      destruct (match t_grd dft with Some g => exec_guard grd (w_d w2) g pe | None => (w_d w2, true) end) as [d b].
      destruct b; [| cbn; auto].
      eapply bind_rel; [apply (add_action_rel _ _ (w_nal w2) (t_act dft) H6)|].
      intros [[a n]|] [[b m]|]; cbn [orel]; try contradiction; [| intros _; apply error_rel].
      intros [E1 E2]. cbn [rrel crel]. apply seg_rel; auto.
    + intros [a|r d] [b|r' d']; cbn [crel]; try contradiction; [| intros [<- <-]; cbn; auto].
      intros Hab. eapply bind_rel; [apply (micro_rel z); exact Hab|]. intros x y Hxy. apply Some_rel, Hxy.
  - (* entry point *)
    apply bind_same. intros y. destruct y; try reflexivity. apply bind_same. intros y. destruct y; try reflexivity. rewrite H1, H3 in *.
    eapply bind_rel; [apply (add_action_rel _ _ (w_nal w2) act H6)|].
    intros [[a n]|] [[b m]|]; cbn [orel]; try contradiction; [| intros _; apply Err_rel].
    intros [E1 E2]. apply Some_rel. cbn [crel]. apply seg_rel; auto.
  - (* exit point *)
    apply bind_same. intros y. destruct y; try reflexivity. rewrite H1 in *. apply bind_same. intros y. destruct y; try reflexivity.
    apply bind_same. intros [act tgt]. rewrite H3 in *.
    eapply bind_rel; [apply (add_action_rel _ _ (w_nal w2) act H6)|].
    intros [[a n]|] [[b m]|]; cbn [orel]; try contradiction; [| intros _; apply Err_rel].
    intros [E1 E2]. apply Some_rel. cbn [crel]. apply seg_rel; auto.
  - (* no history *)
    rewrite H1. apply Err_rel.
Qed.
Lemma walk_rel z micro pe : forall fuel w1 w2, wrel z w1 w2 ->
  rrel (crel (wrel z)) (walk c M grd fuel micro pe w1) (walk c M grd fuel micro pe w2).
Proof.
  induction fuel as [|f IH]; intros w1 w2 H; cbn [walk]; [reflexivity|].
  eapply bind_rel; [apply (pseudo_rel z); exact H|]. intros [[a|r d]|] [[b|r' d']|]; cbn [orel crel]; try contradiction; auto.
Qed.
(** Where a walk ends. *)
Definition rest_kind (x : vertex) : Prop :=
  match x with VBasic _ _ _ _ | VComp _ _ _ _ _ _ _ | VFinal _ | VRsm _ _ => True | _ => False end.
Lemma walk_end micro pe : forall fuel w w', walk c M grd fuel micro pe w = Ok (Go w') ->
  exists v x, w_ets w' = Some v /\ nth_error M v = Some x /\ rest_kind x.
Proof.
  induction fuel as [|f IH]; intros w w' H; cbn [walk] in H; [discriminate|].
  apply bind_ok in H as (r & Hp & H). destruct r as [[w1|e d]|]; [eapply IH; exact H | discriminate |]. injection H as <-.
  unfold pseudo in Hp. apply bind_ok in Hp as (x & Hx & Hp). destruct (w_ets w) as [v|] eqn:Ev; [|discriminate].
  cbn [vxo] in Hx. unfold vx in Hx. destruct (nth_error M v) as [y|] eqn:E; [|discriminate]. injection Hx as <-.
  exists v, y. split; [solve [exact Ev | reflexivity]|]. split; [solve [exact E | reflexivity]|]. destruct y; try exact I; exfalso;
  repeat match type of Hp with
  | bind ?r _ = _ => let q := fresh "q" in let Hq := fresh "Hq" in let E := fresh "Hp" in apply bind_ok in Hp as (q & Hq & E); rename E into Hp
  | match ?x with _ => _ end = _ => destruct x
  | Ok (Some _) = Ok None => discriminate Hp
  | Fault _ = _ => discriminate Hp
  end.
Qed.

(** [cs] as the dispatcher has it: the state to leave, or nothing at the creation
    of the machine; then the initial transition must not end at a submachine
    itself. *)
Lemma descend_rel pe cs : cs <> Some None -> forall fuel (micro : bool) act w1 w2 isc,
  wrel (if micro then 1 else 0) w1 w2 ->
  (cs = None -> micro = false -> w_nn w1 = 0 /\ forall f an w', add_action c (w_al w1) 0 act = Ok (Some an) ->
     walk c M grd f false pe (w_seg w1 (w_d w1) (w_ets w1) an) = Ok (Go w') -> forall v, w_ets w' = Some v -> is_rsm M v = false) ->
  rrel (crel eq) (descend c M grd fuel micro cs pe act w1 isc) (descend c M grd fuel micro cs pe act w2 isc).
Proof.
  intros Hcs. induction fuel as [|f IH]; intros micro act w1 w2 isc H Hrsm; cbn [descend]; [reflexivity|].
  pose proof H as (H1 & H2 & H3 & H4 & H5 & H6 & H7).
  assert (agree 0 (w_al w1) (w_al w2)) as H0 by (eapply agree_le; [exact H6 | lia]).
  pose proof (add_action_rel _ _ 0 act H0) as Ha.
  destruct (add_action c (w_al w1) 0 act) as [[an1|]|] eqn:Ea1, (add_action c (w_al w2) 0 act) as [[an2|]|]; cbn [rrel orel] in Ha; try contradiction;
    cbn [bind]; [| rewrite H1; apply error_rel | exact Ha].
  destruct Ha as [Ha1 Ha2].
  assert (wrel (if micro then 1 else 0) (w_seg w1 (w_d w1) (w_ets w1) an1) (w_seg w2 (w_d w2) (w_ets w2) an2)) as Hs.
  { rewrite H1, H2. apply seg_rel; auto. }
  pose proof (walk_rel _ micro pe (S f) _ _ Hs) as Hw.
  destruct (walk c M grd (S f) micro pe (w_seg w1 (w_d w1) (w_ets w1) an1)) as [[x|r d]|] eqn:Ew1,
           (walk c M grd (S f) micro pe (w_seg w2 (w_d w2) (w_ets w2) an2)) as [[y|r' d']|] eqn:Ew2; cbn [rrel crel] in Hw; try contradiction;
    cbn [bind]; [| cbn; exact Hw | exact Hw].
  pose proof Hw as (W1 & W2 & W3 & W4 & W5 & W6 & W7).
  destruct (walk_end _ _ _ _ _ Ew1) as (v & xv & Ev & Exv & Hk).
  rewrite W1, W3, <- W2, Ev, W4.
  eapply bind_rel with (R := crel same_exit).
  - destruct micro.
    + eapply bind_rel; [apply (add_target_rel 1 (S f) (Some v) _ _ (w_stn y) W7)|]. intros [s1 n1] [s2 n2] [E1 E2]. cbn in E1, E2. subst n2.
      cbn. split; [reflexivity|]. split; [reflexivity | exact E2].
    + destruct cs as [[s|]|]; [| congruence |].
      * apply (exec_exits_rel v (S f) (w_d y) (Some s) 0 (w_se x) (w_se y) 0 0); [exact W7 | left; split; congruence].
      * destruct (Hrsm eq_refl eq_refl) as [N0 R0].
        pose proof (R0 (S f) an1 x eq_refl Ew1 v Ev) as Rv.
        assert (w_nn x = 0) as Nx by (rewrite (L_SmWalk.walk_nn _ _ _ _ _ _ _ Ew1); exact N0).
        pose proof (add_target_rel 0 (S f) (Some v) (w_se x) (w_se y) None W7) as Hadd.
        destruct (add_target M (S f) (Some v) (w_se x) None) as [[s1 n1]|] eqn:E1,
                 (add_target M (S f) (Some v) (w_se y) None) as [[s2 n2]|]; cbn [rrel] in Hadd; try contradiction; [| exact Hadd].
        destruct Hadd as [En E2]. cbn in En, E2. subst n2. cbn [bind rrel crel]. split; [reflexivity|]. split; [cbn; lia|]. cbn [fst snd].
        rewrite Nx. cbn [Nat.add]. destruct n1; [| exact E2]. exfalso.
        apply (add_target_some (S f) v xv (w_se x) None s1 0 Exv); auto.
        unfold is_rsm in Rv. rewrite Exv in Rv. destruct xv; try exact I; try contradiction; discriminate.
  - intros [[[d1 s1] n1]|r1 d1] [[[d2 s2] n2]|r2 d2]; cbn [crel]; try contradiction; [| intros [<- <-]; cbn; auto].
    intros (E1 & E2 & E3). cbn [fst snd] in E1, E2, E3. subst d2 n2.
    rewrite (exec_acts_rel (w_al x) (w_al y) (w_nal y) 0 d1 pe) by (rewrite <- W3; exact W6). apply bind_same. intros d3.
    rewrite (entries_rel s1 s2 n1 d3 isc) by (eapply agree_le; [exact E3 | lia]). apply bind_same. intros [d4 isc4].
    rewrite (rd_agree _ 0 s1 s2 E3) by lia. apply bind_same. intros stn.
    cbn [vxo]. unfold vx. rewrite Exv. cbn [bind]. destruct xv; try (cbn; reflexivity).
    apply IH; [| discriminate]. repeat split; cbn; auto; try apply W6; try apply E3; try (intros i Hi; apply E3; lia); try (intros i Hi; lia).
Qed.

Lemma round_rel fuel d cr pe al1 al2 se1 se2 : length al1 = length al2 -> length se1 = length se2 ->
  (forall v a, cr = Some (v, a) -> forall f an w', add_action c al1 0 a = Ok (Some an) ->
     walk c M grd f false pe (mkW (say d [XTrn v (Some v)]) (Some v) (fst an) (snd an) (Some v) se1 0) = Ok (Go w') ->
     forall t, w_ets w' = Some t -> is_rsm M t = false) ->
  round c M grd fuel d cr pe al1 se1 = round c M grd fuel d cr pe al2 se2.
Proof.
  intros L1 L2 Hcr. apply rrel_eq. unfold round.
  assert (agree 0 al1 al2) as A1 by (split; [exact L1 | intros; lia]).
  assert (agree 0 se1 se2) as A2 by (split; [exact L2 | intros; lia]).
  match goal with |- rrel _ (bind ?r _) _ => destruct r as [[[[[[d1 src] cs] ets] act]|r0 d0]|f0] eqn:E; cbn [bind]; try reflexivity end.
  destruct ets as [t|].
  - assert (rrel (crel eq)
      (descend c M grd fuel false cs pe act (mkW (say d1 [XTrn src (Some t)]) (Some t) al1 0 (Some src) se1 0) false)
      (descend c M grd fuel false cs pe act (mkW (say d1 [XTrn src (Some t)]) (Some t) al2 0 (Some src) se2 0) false)) as K.
    { apply descend_rel.
      - destruct cr as [[v a]|]; [injection E as <- <- <- <- <-; discriminate|].
        destruct (d_st d) as [s|]; [|discriminate]. apply bind_ok in E as ([d2 [[sr tr]|]] & _ & E); [|discriminate].
        injection E as _ _ <- _ _. discriminate.
      - repeat split; cbn; auto; try apply A1; apply A2.
      - intros -> _. split; [reflexivity|]. intros f an w' Ha Hw v Hv. cbn [w_al] in Ha. unfold w_seg in Hw. cbn [w_d w_ets w_stn w_se w_nn] in Hw.
        destruct cr as [[v0 a]|].
        + injection E as <- <- <- <-. exact (Hcr v0 a eq_refl f an w' Ha Hw v Hv).
        + destruct (d_st d) as [s|]; [|discriminate]. apply bind_ok in E as ([d2 [[sr tr]|]] & _ & E); [|discriminate]. discriminate. }
    eapply bind_rel; [exact K|]. intros [x|r x] [y|r' y]; cbn [crel]; try contradiction; [| intros [<- <-]; cbn; reflexivity].
    intros <-. apply rrel_refl. reflexivity.
  - eapply bind_rel; [apply (add_action_rel _ _ 0 act A1)|]. intros [[a n]|] [[b m]|]; cbn [orel]; try contradiction.
    + cbn [fst snd]. intros [<- E2]. rewrite (exec_acts_rel a b n 0 (say d1 [XTrn src None]) pe E2). apply rrel_refl. reflexivity.
    + intros _. apply rrel_refl. reflexivity.
Qed.

Lemma complete_rel ars1 ars2 : arrays_ok c ars1 -> arrays_ok c ars2 -> forall fuel d isc k,
  complete c M grd fuel d isc ars1 k = complete c M grd fuel d isc ars2 k.
Proof.
  intros A1 A2. induction fuel as [|f IH]; intros d isc k; cbn [complete]; destruct isc; try reflexivity.
  rewrite (round_rel (S f) d None (evCompletion c) (fst (ars1 k)) (fst (ars2 k)) (snd (ars1 k)) (snd (ars2 k))).
  - destruct (round c M grd (S f) d None (evCompletion c) (fst (ars2 k)) (snd (ars2 k))) as [[[d1 i1]|r d1]|]; cbn [bind]; auto.
  - destruct (A1 k), (A2 k). congruence.
  - destruct (A1 k), (A2 k). congruence.
  - discriminate.
Qed.
Theorem dispatch_arr fuel istate iact d pe ars1 ars2 : arrays_ok c ars1 -> arrays_ok c ars2 -> ev_sig pe <> sig_creation c ->
  dispatch c M grd fuel istate iact d pe ars1 = dispatch c M grd fuel istate iact d pe ars2.
Proof.
  intros A1 A2 Hs. unfold dispatch. apply N.eqb_neq in Hs. rewrite Hs.
  rewrite (round_rel fuel d None pe (fst (ars1 0)) (fst (ars2 0)) (snd (ars1 0)) (snd (ars2 0))).
  - destruct (round c M grd fuel d None pe (fst (ars2 0)) (snd (ars2 0))) as [[[d1 i1]|r d1]|]; cbn [bind]; auto using complete_rel.
  - destruct (A1 0), (A2 0). congruence.
  - destruct (A1 0), (A2 0). congruence.
  - discriminate.
Qed.
Theorem init_arr rank home fuel istate iact d pe ars1 ars2 :
  wf_machine c M rank home = true -> wf_initial c M home istate = true -> ram_ok c M home d ->
  arrays_ok c ars1 -> arrays_ok c ars2 ->
  dispatch c M grd fuel istate iact d pe ars1 = dispatch c M grd fuel istate iact d pe ars2.
Proof.
  intros W Hi Hr A1 A2. unfold dispatch. destruct (A1 0) as [L1 L2]. destruct (A2 0) as [L3 L4].
  rewrite (round_rel fuel d (if (ev_sig pe =? sig_creation c)%N then Some (istate, iact) else None) pe (fst (ars1 0)) (fst (ars2 0)) (snd (ars1 0)) (snd (ars2 0))).
  - destruct (round c M grd fuel d _ pe (fst (ars2 0)) (snd (ars2 0))) as [[[d1 i1]|r d1]|]; cbn [bind]; auto using complete_rel.
  - congruence.
  - congruence.
  - intros v a E f an w' Ha Hw t Ht. destruct (ev_sig pe =? sig_creation c)%N; [|discriminate]. injection E as <- <-.
    destruct (initial_kind c M home istate Hi) as [Hk Hh].
    apply (add_action_ok c _ _ _ _ _ (holds_nil c M rank home W _ L1)) in Ha. destruct an as [al' nal]. destruct Ha as [Hroom Ha]. cbn [app] in Ha.
    cbn [fst snd] in Hw.
    match type of Hw with walk _ _ _ _ _ _ ?w = _ => set (w0 := w) in Hw end. set (p0 := mkP (say d [XTrn istate (Some istate)]) istate (act1 iact) istate).
    assert (at_point c w0 p0) as Hp0 by (constructor; cbn; auto).
    assert (good c M home p0) as G0 by (split; [apply ram_say, Hr|]; split; [exact Hk | cbn; rewrite Hh; exact I]).
    destruct (after_walk c M rank home W grd pe false f w0 p0 w' Hp0 G0 ltac:(intros E; discriminate) Hw) as (p1 & _ & Ht1 & [_ A _ _ _] & _).
    rewrite A in Ht. injection Ht as <-. unfold is_target in Ht1. unfold is_rsm. destruct (nth_error M (p_v p1)) as [[]|]; congruence.
Qed.
End Arr.
