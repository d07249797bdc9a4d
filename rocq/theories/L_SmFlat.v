(** Both configurations of the engine on a machine without hierarchy. *)
From Verif Require Import Base L_Base M_Sm M_SmFlat S_SmRun S_SmFlat.

Lemma seen_app a b : seen (a ++ b) = seen a ++ seen b.
Proof. apply filter_app. Qed.
Lemma seen_seen l : seen (seen l) = seen l.
Proof. induction l as [|e l IH]; [reflexivity|]. unfold seen in *. cbn [filter]. destruct e as [| |s [a|]|s [a|]| |]; cbn [filter]; rewrite ?IH; reflexivity. Qed.

Section Flat.
Context (c : smcfg) (M : machine) (grd0 : nat -> evt -> list xev -> bool).
Context (FM : flat_machine M = true) (NC : no_completion c M = true).
Context (H1 : (1 <= sm_depth c)%nat) (H2 : (1 <= sm_segs c)%nat).
Let grd := by_seen grd0.

(** The same but for entries and exits without action. *)
Definition same (d d' : dyn) : Prop :=
  d_st d = d_st d' /\ seen (d_log d) = seen (d_log d').

Lemma same_say d d' x : same d d' -> same (say d x) (say d' x).
Proof. intros [A B]. split; cbn; [exact A|]. rewrite !seen_app, B. reflexivity. Qed.
Lemma same_st d d' s : same d d' -> same (set_st d s) (set_st d' s).
Proof. intros [A B]. split; cbn; [reflexivity | exact B]. Qed.
Lemma same_exit d d' s : same d d' -> same (say d [XExit s None]) d'.
Proof. intros [A B]. split; cbn; [exact A|]. rewrite seen_app, B. apply app_nil_r. Qed.
Lemma same_entry d d' s : same d d' -> same (say d [XEntry s None]) d'.
Proof. intros [A B]. split; cbn; [exact A|]. rewrite seen_app, B. apply app_nil_r. Qed.

Lemma find_same pe sig tbl : forall d d', same d d' ->
  same (fst (find_trn grd d pe tbl sig)) (fst (find_trn grd d' pe tbl sig)) /\
  snd (find_trn grd d pe tbl sig) = snd (find_trn grd d' pe tbl sig).
Proof.
  induction tbl as [|t tbl IH]; intros d d' S; cbn [find_trn]; [split; [exact S | reflexivity]|].
  destruct (t_evt t =? sig)%N; [| apply IH; exact S].
  destruct (t_grd t) as [g|]; [| split; [exact S | reflexivity]].
  unfold exec_guard.
  assert (E : grd g pe (d_log d) = grd g pe (d_log d')).
  { unfold grd, by_seen. destruct S as [_ S]. rewrite S. reflexivity. }
  rewrite E. destruct (grd g pe (d_log d')).
  - split; [apply same_say; exact S | reflexivity].
  - apply IH, same_say, S.
Qed.

Lemma find_in pe sig tbl : forall d d1 t, find_trn grd d pe tbl sig = (d1, Some t) -> In t tbl.
Proof.
  induction tbl as [|u tbl IH]; intros d d1 t; cbn [find_trn]; [discriminate|].
  destruct (t_evt u =? sig)%N; [| intros E; right; apply (IH _ _ _ E)].
  destruct (t_grd u) as [g|].
  - unfold exec_guard. destruct (grd g pe (d_log d)).
    + intros E. injection E as _ E. left. exact E.
    + intros E. right. apply (IH _ _ _ E).
  - intros E. injection E as _ E. left. exact E.
Qed.

Lemma find_st pe sig tbl : forall d, d_st (fst (find_trn grd d pe tbl sig)) = d_st d.
Proof.
  induction tbl as [|t tbl IH]; intros d; cbn [find_trn]; [reflexivity|].
  destruct (t_evt t =? sig)%N; [| apply IH].
  destruct (t_grd t) as [g|]; [| reflexivity].
  unfold exec_guard. destruct (grd g pe (d_log d)); [reflexivity | rewrite IH; reflexivity].
Qed.

Lemma flat_at v : (v < length M)%nat ->
  exists tbl, (nth_error M v = Some (VBasic None None None tbl) \/ (nth_error M v = Some (VFinal None) /\ tbl = [])) /\
    Forall (fun t => match t_tgt t with Some w => w < length M | None => True end)%nat tbl /\
    find_completion c tbl = false.
Proof.
  intros L. destruct (nth_error M v) as [x|] eqn:E; [| apply nth_error_None in E; lia].
  pose proof (nth_error_In M v E) as I.
  pose proof (proj1 (forallb_forall _ _) FM x I) as F.
  pose proof (proj1 (forallb_forall _ _) NC x I) as N. cbv beta in N.
  destruct x as [[a|] [b|] [p|] tbl| | [p|] | | | | | | | |]; try discriminate F.
  - exists tbl. split; [left; reflexivity|]. split.
    + apply Forall_forall. intros t T. cbn [flat_vertex] in F.
      pose proof (proj1 (forallb_forall _ _) F t T) as G. unfold flat_trn in G.
      destruct (t_tgt t); [apply Nat.ltb_lt, G | trivial].
    + unfold find_completion. clear -N. induction tbl as [|t tbl IH]; [reflexivity|].
      cbn [forallb] in N. apply andb_prop in N. destruct N as [A B]. cbn [existsb].
      rewrite (IH B). apply Bool.negb_true_iff in A. rewrite A. reflexivity.
  - exists []. split; [right; split; reflexivity|]. split; [constructor | reflexivity].
Qed.

Definition acted (d : dyn) (act : option nat) (pe : evt) : dyn :=
  match act with Some a => say d [XEff a pe] | None => d end.
Lemma same_acted d d' act pe : same d d' -> same (acted d act pe) (acted d' act pe).
Proof. destruct act; [apply same_say | auto]. Qed.

Lemma act_one al act : length al = sm_segs c ->
  exists al' n, add_action c al 0 act = Ok (Some (al', n)) /\
    forall d pe, exec_acts al' 0 n d pe = Ok (acted d act pe).
Proof.
  intros L. unfold add_action.
  destruct (Nat.leb_spec (sm_segs c) 0) as [G|_]; [lia|].
  destruct act as [a|].
  - rewrite wr_lt by lia. cbn [bind].
    exists (upd al 0 a), 1%nat. split; [reflexivity|]. intros d pe. cbn [exec_acts].
    rewrite (proj2 (rd_ok _ _ a)) by (apply nth_upd_eq; lia). reflexivity.
  - exists al, 0%nat. split; [reflexivity|]. intros d pe. reflexivity.
Qed.

(** Leaving [s] for [t]. *)
Lemma exits_one f d s t se : (s < length M)%nat -> (t < length M)%nat -> length se = sm_depth c ->
  exists se', exec_exits c M (S (S f)) d (Some s) 0 (Some t) se 0 = Ok (Go (say d [XExit s None], se', 1%nat)) /\
    nth_error se' 0 = Some (Some t) /\ length se' = sm_depth c.
Proof.
  intros Ls Lt Le.
  destruct (flat_at s Ls) as (ts & Hs & _).
  destruct (flat_at t Lt) as (tt & Ht & _).
  assert (Ps : forall d, update_parent M d s = Ok None).
  { intros d0. unfold update_parent, vx. destruct Hs as [E|[E _]]; rewrite E; reflexivity. }
  assert (Pt : forall d, update_parent M d t = Ok None).
  { intros d0. unfold update_parent, vx. destruct Ht as [E|[E _]]; rewrite E; reflexivity. }
  assert (Us : forall d, update_shallow M d s = Ok d).
  { intros d0. unfold update_shallow, vx. destruct Hs as [E|[E _]]; rewrite E; reflexivity. }
  assert (Xs : exists x, vx M s = Ok x /\ st_exit x = Ok None).
  { unfold vx. destruct Hs as [E|[E _]]; rewrite E; eexists; split; reflexivity. }
  destruct Xs as (x & X1 & X2).
  exists (upd se 0 (Some t)).
  split; [| split; [apply nth_upd_eq; lia | rewrite length_upd; exact Le]].
  cbn [exec_exits entry_list].
  destruct (Nat.eqb_spec s t) as [->|N].
  - cbn [bind negb orb Nat.eqb]. rewrite X1. cbn [bind]. rewrite X2. cbn [bind]. rewrite Us. cbn [bind].
    rewrite wr_lt by lia. reflexivity.
  - destruct (Nat.ltb_spec 0 (sm_depth c)) as [_|G]; [| lia].
    rewrite wr_lt by lia. cbn [bind]. rewrite Pt. cbn [bind]. destruct f; cbn [entry_list bind negb orb];
    rewrite X1; cbn [bind]; rewrite X2; cbn [bind]; rewrite Us; cbn [bind]; rewrite Ps; reflexivity.
Qed.

Lemma target_one f t se : (t < length M)%nat -> length se = sm_depth c ->
  exists se', add_target M (S f) (Some t) se None = Ok (se', 1%nat) /\ nth_error se' 0 = Some (Some t).
Proof.
  intros Lt Le. destruct (flat_at t Lt) as (tt & Ht & _).
  exists (upd se 0 (Some t)). split; [| apply nth_upd_eq; lia].
  unfold add_target, vxo, vx.
  destruct Ht as [E|[E _]]; rewrite E; cbn [bind add_target_loop]; rewrite wr_lt by lia; cbn [bind vxo]; unfold vx; rewrite E;
    cbn [bind st_parent]; destruct f; reflexivity.
Qed.

(** The end of a turn, once sentry holds the target alone. *)
Lemma enter_one t se d : (t < length M)%nat -> nth_error se 0 = Some (Some t) ->
  exec_entries c M 1 se d false = Ok (say d [XEntry t None], false) /\ rd se 0 = Ok (Some t) /\
  (forall fuel d, update_deep M fuel d (Some t) = Ok d) /\
  exists x, vxo M (Some t) = Ok x /\ match x with VBasic _ _ _ _ | VFinal _ => True | _ => False end.
Proof.
  intros Lt Es. destruct (flat_at t Lt) as (tbl & Ht & _ & Hc).
  assert (R : rd se 0 = Ok (Some t)) by (apply rd_ok; exact Es).
  split; [| split; [exact R | split]].
  - cbn [exec_entries]. rewrite R. cbn [bind vxo]. unfold vx.
    destruct Ht as [E|[E _]]; rewrite E; cbn [bind st_enter is_completion]; [rewrite Hc|]; reflexivity.
  - intros fuel d0. unfold update_deep, vxo, vx.
    destruct Ht as [E|[E _]]; rewrite E; cbn [bind st_parent]; destruct fuel; reflexivity.
  - unfold vxo, vx. destruct Ht as [E|[E _]]; rewrite E; eexists; split; reflexivity || exact I.
Qed.

Lemma walk_state f pe w t x : w_ets w = Some t -> vxo M (Some t) = Ok x ->
  match x with VBasic _ _ _ _ | VFinal _ => True | _ => False end ->
  walk c M grd (S f) false pe w = Ok (Go w).
Proof.
  intros E X K. cbn [walk]. unfold pseudo. rewrite E, X. cbn [bind]. destruct x; try contradiction; reflexivity.
Qed.

(** A transition to [t] from [s], or the creation. *)
Definition left_st (cs : option nat) (d : dyn) : dyn := match cs with Some s => say d [XExit s None] | None => d end.
Lemma descend_one f cs pe act d t al src se :
  match cs with Some s => (s < length M)%nat | None => True end ->
  (t < length M)%nat -> length al = sm_segs c -> length se = sm_depth c ->
  descend c M grd (S (S f)) false (option_map Some cs) pe act (mkW d (Some t) al 0 (Some src) se 0) false =
    Ok (Go (say (acted (left_st cs d) act pe) [XEntry t None], Some t, false)).
Proof.
  intros Lc Lt La Le.
  destruct (act_one al act La) as (al' & n & A1 & A2).
  destruct (enter_one t [Some t] d Lt eq_refl) as (_ & _ & _ & x & X1 & X2).
  cbn [descend w_al w_d w_ets]. rewrite A1. cbn [bind].
  rewrite (walk_state (S f) pe _ t x) by (try exact X1; try exact X2; reflexivity). cbn [bind w_d w_ets w_se w_seg w_nn w_al w_nal fst snd].
  destruct cs as [s|]; cbn [option_map left_st].
  - destruct (exits_one f d s t se Lc Lt Le) as (se' & E1 & E2 & E3). rewrite E1. cbn [bind].
    rewrite A2. cbn [bind].
    destruct (enter_one t se' (acted (say d [XExit s None]) act pe) Lt E2) as (F1 & F2 & _ & y & Y1 & Y2).
    rewrite F1. cbn [bind]. rewrite F2. cbn [bind]. rewrite Y1. cbn [bind]. destruct y; try contradiction; reflexivity.
  - destruct (target_one (S f) t se Lt Le) as (se' & E1 & E2). rewrite E1. cbn [bind Nat.add].
    rewrite A2. cbn [bind].
    destruct (enter_one t se' (acted d act pe) Lt E2) as (F1 & F2 & _ & y & Y1 & Y2).
    rewrite F1. cbn [bind]. rewrite F2. cbn [bind]. rewrite Y1. cbn [bind]. destruct y; try contradiction; reflexivity.
Qed.

(** A transition, selected or of the creation, in the hierarchical engine. *)
Definition turned (cs : option nat) (src : nat) (ets : option nat) (act : option nat) (d : dyn) (pe : evt) : dyn :=
  match ets with
  | None => acted (say d [XTrn src None]) act pe
  | Some t => say (set_st (say (acted (left_st cs (say d [XTrn src (Some t)])) act pe) [XEntry t None]) (Some t)) [XState t]
  end.

Lemma find_up_one f d s pe tbl : (s < length M)%nat ->
  (nth_error M s = Some (VBasic None None None tbl) \/ (nth_error M s = Some (VFinal None) /\ tbl = [])) ->
  find_up M grd (S (S f)) d (Some s) pe =
    Ok (fst (find_trn grd d pe tbl (ev_sig pe)),
        match snd (find_trn grd d pe tbl (ev_sig pe)) with Some t => Some (s, t) | None => None end).
Proof.
  intros L H. cbn [find_up]. unfold vx.
  destruct H as [E|[E ->]]; rewrite E; cbn [bind st_tbl].
  - destruct (find_trn grd d pe tbl (ev_sig pe)) as [d1 [t|]]; cbn [fst snd]; [reflexivity|].
    unfold update_parent, vx. rewrite E. reflexivity.
  - cbn [find_trn fst snd]. unfold update_parent, vx. rewrite E. reflexivity.
Qed.

Lemma hier_round f creation pe al se d :
  match creation with
  | Some (i, _) => (i < length M)%nat
  | None => exists s, d_st d = Some s /\ (s < length M)%nat
  end -> length al = sm_segs c -> length se = sm_depth c ->
  round c M grd (S (S f)) d creation pe al se =
    match creation with
    | Some (i, a) => Ok (Go (turned None i (Some i) a d pe, false))
    | None =>
      match d_st d with
      | Some s =>
        match st_tbl (nth s M (VFinal None)) with
        | Ok tbl => match find_trn grd d pe tbl (ev_sig pe) with
                    | (d1, None) => Ok (Stop EVT_NFOUND d1)
                    | (d1, Some t) => Ok (Go (turned (Some s) s (t_tgt t) (t_act t) d1 pe, false))
                    end
        | Fault x => Fault x
        end
      | None => Fault (FUB UB_null)
      end
    end.
Proof.
  intros HC La Le. unfold round. destruct creation as [[i a]|].
  - cbn [bind].
    pose proof (descend_one f None pe a (say d [XTrn i (Some i)]) i al i se I HC La Le) as D. cbn [option_map] in D.
    rewrite D. cbn [bind].
    destruct (enter_one i [Some i] d HC eq_refl) as (_ & _ & U & _). rewrite U. cbn [bind]. reflexivity.
  - destruct HC as (s & Es & Ls). rewrite Es.
    destruct (flat_at s Ls) as (tbl & Ht & Tt & _).
    rewrite (find_up_one f d s pe tbl Ls Ht). cbn [bind].
    assert (Tb : st_tbl (nth s M (VFinal None)) = Ok tbl).
    { destruct Ht as [E|[E ->]]; rewrite (nth_error_nth _ _ _ E); reflexivity. }
    rewrite Tb. destruct (find_trn grd d pe tbl (ev_sig pe)) as [d1 [t|]] eqn:Ft; cbn [fst snd bind]; [| reflexivity].
    pose proof (proj1 (Forall_forall _ _) Tt t (find_in _ _ _ _ _ _ Ft)) as Lt. cbv beta in Lt.
    destruct (act_one al (t_act t) La) as (al' & n & A1 & A2).
    destruct (t_tgt t) as [v|].
    + pose proof (descend_one f (Some s) pe (t_act t) (say d1 [XTrn s (Some v)]) v al s se Ls Lt La Le) as D. cbn [option_map] in D.
      rewrite D. cbn [bind].
      destruct (enter_one v [Some v] d1 Lt eq_refl) as (_ & _ & U & _). rewrite U. cbn [bind]. reflexivity.
    + rewrite A1. cbn [bind]. rewrite A2. reflexivity.
Qed.

(** The engine without hierarchy, from the state after selection. *)
Definition turned_flat (src : nat) (ets : option nat) (act : option nat) (d : dyn) (pe : evt) : dyn :=
  match ets with
  | None => acted (say d [XTrn src None]) act pe
  | Some t => say (set_st (acted (say d [XTrn src (Some t)]) act pe) (Some t)) [XState t]
  end.
Lemma same_turned cs src ets act d d' pe : same d d' -> same (turned cs src ets act d pe) (turned_flat src ets act d' pe).
Proof.
  intros S. destruct ets as [t|]; cbn [turned turned_flat].
  - apply same_say, same_st, same_entry, same_acted. destruct cs; cbn [left_st]; [apply same_exit|]; apply same_say, S.
  - apply same_acted, same_say, S.
Qed.

Lemma vx_in v : (v < length M)%nat -> exists x, vx M v = Ok x.
Proof. intros L. unfold vx. destruct (nth_error M v) as [x|] eqn:E; [eexists; reflexivity | apply nth_error_None in E; lia]. Qed.

Lemma flat_step istate iact d pe al ixn : (istate < length M)%nat -> length al = sm_segs c ->
  (ev_sig pe = sig_creation c \/ exists s, d_st d = Some s /\ (s < length M)%nat) ->
  flat_dispatch c M grd istate iact d pe al ixn =
    if (ev_sig pe =? sig_creation c)%N then Ok (turned_flat istate (Some istate) iact d pe, EVT_PROC)
    else match d_st d with
         | None => Fault (FUB UB_null)
         | Some s =>
           match flat_tbl (nth s M (VFinal None)) with
           | Fault x => Fault x
           | Ok tbl => match find_trn grd d pe tbl (ev_sig pe) with
                       | (d1, None) => Ok (d1, EVT_NFOUND)
                       | (d1, Some t) => Ok (turned_flat s (t_tgt t) (t_act t) d1 pe, EVT_PROC)
                       end
           end
         end.
Proof.
  intros Li La HC. unfold flat_dispatch. destruct (N.eqb_spec (ev_sig pe) (sig_creation c)) as [E|NE].
  - cbn [bind]. destruct (act_one al iact La) as (al' & n & A1 & A2). rewrite A1. cbn [bind]. rewrite A2. cbn [bind].
    destruct (vx_in istate Li) as (x & X). rewrite X. cbn [bind].
    destruct (Nat.eqb ixn 0 && Nat.eqb 0 0); reflexivity.
  - destruct HC as [?|(s & Es & Ls)]; [contradiction|]. rewrite Es.
    destruct (flat_at s Ls) as (tbl & Ht & Tt & _).
    unfold vx at 1. destruct Ht as [E|[E ->]]; rewrite E, (nth_error_nth _ _ _ E); cbn [bind flat_tbl]; [| reflexivity].
    destruct (find_trn grd d pe tbl (ev_sig pe)) as [d1 [t|]] eqn:Ft; cbn [bind]; [| reflexivity].
    pose proof (proj1 (Forall_forall _ _) Tt t (find_in _ _ _ _ _ _ Ft)) as Lt. cbv beta in Lt.
    destruct (act_one al (t_act t) La) as (al' & n & A1 & A2). rewrite A1. cbn [bind].
    destruct (t_tgt t) as [v|]; cbn [turned_flat]; rewrite A2; cbn [bind]; [| reflexivity].
    destruct (vx_in v Lt) as (x & X). rewrite X. cbn [bind].
    destruct (Nat.eqb_spec s v) as [->|N]; reflexivity.
Qed.

Definition placed (d : dyn) : Prop := exists s, d_st d = Some s /\ (s < length M)%nat.

Lemma acted_st d act pe : d_st (acted d act pe) = d_st d.
Proof. destruct act; reflexivity. Qed.
Lemma turned_st cs src ets act d pe :
  d_st (turned cs src ets act d pe) = match ets with Some t => Some t | None => d_st d end.
Proof. destruct ets; cbn [turned]; [reflexivity | rewrite acted_st; reflexivity]. Qed.

Lemma both f istate iact d d' pe ars al ixn :
  (istate < length M)%nat -> arrays_ok c ars -> length al = sm_segs c -> same d d' ->
  (ev_sig pe = sig_creation c \/ placed d) ->
  exists d1 r, dispatch c M grd (S (S f)) istate iact d pe ars = Ok (d1, r) /\ placed d1 /\
    match flat_dispatch c M grd istate iact d' pe al ixn with
    | Ok (d1', r') => same d1 d1' /\ r = r'
    | Fault x => x = FUB UB_null /\ exists s p, d_st d = Some s /\ nth_error M s = Some (VFinal p)
    end.
Proof.
  intros Li Ha La S HC. destruct (Ha O) as [L1 L2]. unfold dispatch.
  assert (HC' : ev_sig pe = sig_creation c \/ placed d').
  { destruct HC as [E|(s & Es & Ls)]; [left; exact E|]. right. exists s. destruct S as [S _]. rewrite <- S. split; assumption. }
  rewrite (flat_step istate iact d' pe al ixn Li La HC').
  destruct (N.eqb_spec (ev_sig pe) (sig_creation c)) as [E|NE].
  - rewrite (hier_round f (Some (istate, iact)) pe _ _ d Li L1 L2). cbn [bind complete].
    eexists _, _. split; [reflexivity|]. split.
    + exists istate. split; [reflexivity | exact Li].
    + split; [apply same_turned, S | reflexivity].
  - destruct HC as [?|(s & Es & Ls)]; [contradiction|].
    rewrite (hier_round f None pe _ _ d (ex_intro _ s (conj Es Ls)) L1 L2). rewrite Es.
    assert (Es' : d_st d' = Some s) by (destruct S as [S _]; rewrite <- S; exact Es). rewrite Es'.
    destruct (flat_at s Ls) as (tbl & Ht & Tt & _).
    assert (Tb : st_tbl (nth s M (VFinal None)) = Ok tbl).
    { destruct Ht as [E|[E ->]]; rewrite (nth_error_nth _ _ _ E); reflexivity. }
    rewrite Tb.
    pose proof (find_same pe (ev_sig pe) tbl d d' S) as [F1 F2].
    pose proof (find_st pe (ev_sig pe) tbl d) as F3.
    destruct (find_trn grd d pe tbl (ev_sig pe)) as [d1 ot] eqn:Ft.
    destruct (find_trn grd d' pe tbl (ev_sig pe)) as [d1' ot'] eqn:Ft'. cbn [fst snd] in F1, F2, F3. subst ot'.
    assert (P : exists d2 r, (do r0 <- match ot with Some t => Ok (Go (turned (Some s) s (t_tgt t) (t_act t) d1 pe, false)) | None => Ok (Stop EVT_NFOUND d1) end;
      match r0 with Go (d0, isc) => complete c M grd (Datatypes.S (Datatypes.S f)) d0 isc ars 1 | Stop r d0 => Ok (d0, r) end) = Ok (d2, r) /\ placed d2 /\
      d2 = match ot with Some t => turned (Some s) s (t_tgt t) (t_act t) d1 pe | None => d1 end /\
      r = match ot with Some _ => EVT_PROC | None => EVT_NFOUND end).
    { destruct ot as [t|]; cbn [bind complete]; eexists _, _; (split; [reflexivity|]); (split; [| split; reflexivity]).
      - pose proof (proj1 (Forall_forall _ _) Tt t (find_in _ _ _ _ _ _ Ft)) as Lt. cbv beta in Lt.
        unfold placed. rewrite turned_st. destruct (t_tgt t) as [v|]; [exists v; split; [reflexivity | exact Lt]|].
        exists s. split; [rewrite F3; exact Es | exact Ls].
      - exists s. split; [rewrite F3; exact Es | exact Ls]. }
    destruct P as (d2 & r & P1 & P2 & P3 & P4).
    exists d2, r. split; [destruct ot; exact P1|]. split; [assumption|].
    destruct Ht as [E|[E ->]]; rewrite (nth_error_nth _ _ _ E); cbn [flat_tbl].
    + rewrite Ft'. destruct ot as [t|]; rewrite P3, P4; (split; [| reflexivity]); [apply same_turned, F1 | exact F1].
    + split; [reflexivity|]. exists s, None. split; [first [exact Es | reflexivity] | exact E].
Qed.

Lemma feed_both f istate iact : (istate < length M)%nat ->
  forall evs d d', Forall (fun e => arrays_ok c (snd (fst e)) /\ length (fst (snd e)) = sm_segs c) evs -> same d d' -> placed d ->
  exists d1 rs, feed c M grd (S (S f)) istate iact d (map fst evs) = Ok (d1, rs) /\
    match flat_feed c M grd istate iact d' (map (fun e => (fst (fst e), snd e)) evs) with
    | Ok (d1', rs') => same d1 d1' /\ rs = rs'
    | Fault x => x = FUB UB_null /\ exists s p, nth_error M s = Some (VFinal p)
    end.
Proof.
  intros Li. induction evs as [|[[pe ars] [al ixn]] evs IH]; intros d d' F S P; cbn [map fst snd feed flat_feed].
  - eexists _, _. split; [reflexivity|]. split; [exact S | reflexivity].
  - inversion F as [|? ? [F1 F2] F3]; subst. cbn [fst snd] in F1, F2.
    destruct (both f istate iact d d' pe ars al ixn Li F1 F2 S (or_intror P)) as (d1 & r & E1 & E2 & E3).
    rewrite E1. cbn [bind].
    destruct (flat_dispatch c M grd istate iact d' pe al ixn) as [[d1' r']|x].
    + destruct E3 as [E3 <-]. cbn [bind].
      destruct (IH d1 d1' F3 E3 E2) as (d2 & rs & G1 & G2). rewrite G1. cbn [bind].
      eexists _, _. split; [reflexivity|].
      destruct (flat_feed c M grd istate iact d1' _) as [[d2' rs']|x]; cbn [bind]; [| exact G2].
      destruct G2 as [G2 <-]. split; [exact G2 | reflexivity].
    + cbn [bind]. destruct (IH d1 d1 F3 (conj eq_refl eq_refl) E2) as (d2 & rs & G1 & _). rewrite G1. cbn [bind].
      eexists _, _. split; [reflexivity|]. destruct E3 as (-> & s & p & _ & E3). split; [reflexivity|]. exists s, p. exact E3.
Qed.

Lemma run_both f istate iact d ars al ixn evs : (istate < length M)%nat -> arrays_ok c ars -> length al = sm_segs c ->
  Forall (fun e => arrays_ok c (snd (fst e)) /\ length (fst (snd e)) = sm_segs c) evs ->
  exists d1 rs, hier_run c M grd (S (S f)) istate iact d ars (map fst evs) = Ok (d1, rs) /\
    match flat_run c M grd istate iact d al ixn (map (fun e => (fst (fst e), snd e)) evs) with
    | Ok (d1', rs') => same d1 d1' /\ rs = rs'
    | Fault x => x = FUB UB_null /\ exists s p, nth_error M s = Some (VFinal p)
    end.
Proof.
  intros Li Ha La F. unfold hier_run, flat_run, sm_init, flat_init.
  destruct (both f istate iact d d (evCreation c) ars al ixn Li Ha La (conj eq_refl eq_refl) (or_introl eq_refl)) as (d1 & r & E1 & E2 & E3).
  rewrite E1. cbn [bind].
  assert (K : exists d1', flat_dispatch c M grd istate iact d (evCreation c) al ixn = Ok (d1', r) /\ same d1 d1').
  { destruct (flat_dispatch c M grd istate iact d (evCreation c) al ixn) as [[d1' r']|x] eqn:E.
    - destruct E3 as [E3 <-]. exists d1'. split; [reflexivity | exact E3].
    - exfalso. rewrite (flat_step istate iact d (evCreation c) al ixn Li La (or_introl eq_refl)) in E.
      rewrite N.eqb_refl in E. discriminate E. }
  destruct K as (d1' & K1 & K2). rewrite K1. cbn [bind].
  destruct (feed_both f istate iact Li evs d1 d1' F K2 E2) as (d2 & rs & G1 & G2). rewrite G1. cbn [bind].
  eexists _, _. split; [reflexivity|].
  destruct (flat_feed c M grd istate iact d1' _) as [[d2' rs']|x]; cbn [bind]; [| exact G2].
  destruct G2 as [G2 <-]. split; [exact G2 | reflexivity].
Qed.
End Flat.
