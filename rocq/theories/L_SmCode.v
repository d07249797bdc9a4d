(** The marks in the log and the answer. *)
From Verif Require Import Base L_Base M_Sm S_Sm S_SmWf S_SmRun S_SmCode L_Sm L_SmWalk L_SmStep L_SmDet L_SmWf L_SmKeep L_SmSafe L_SmProps L_SmDisp L_SmDo L_SmLog.

Lemma marks_app a b : marks (a ++ b) = marks a ++ marks b.
Proof. apply filter_app. Qed.
Lemma marks_guards x : only_guards x -> marks x = [].
Proof. induction 1 as [| e x He _ IH]; [reflexivity|]. destruct e; try contradiction. exact IH. Qed.
Lemma marks_effects pe l : marks (map (fun a => XEff a pe) l) = [].
Proof. induction l; auto. Qed.
Lemma marks_entries (f : nat -> option nat) l : marks (map (fun s => XEntry s (f s)) l) = [].
Proof. induction l; auto. Qed.
Lemma marks_exits (f : nat -> option nat) l : marks (map (fun s => XExit s (f s)) l) = [].
Proof. induction l; auto. Qed.

Section Pure.
Context (c : smcfg) (M : machine) (grd : nat -> evt -> list xev -> bool).
(** Only unmarked entries are added. *)
Definition plainly (d d' : dyn) : Prop := exists x, d_log d' = d_log d ++ x /\ marks x = [].
Lemma plainly_refl d : plainly d d.
Proof. exists []. split; [symmetry; apply app_nil_r | reflexivity]. Qed.
Lemma plainly_trans d1 d2 d3 : plainly d1 d2 -> plainly d2 d3 -> plainly d1 d3.
Proof. intros (x & E1 & S1) (y & E2 & S2). exists (x ++ y). rewrite E2, E1, app_assoc, marks_app, S1, S2. auto. Qed.
Lemma plainly_say d x : marks x = [] -> plainly d (say d x).
Proof. intros H. exists x. auto. Qed.
Lemma plainly_leave l d : plainly d (leave M l d).
Proof. eexists. split; [apply leave_log | apply marks_exits]. Qed.
Lemma plainly_eff pe l d : plainly d (effects pe l d).
Proof. apply plainly_say, marks_effects. Qed.
Lemma plainly_denied pe d l d' : denied grd pe d l d' -> plainly d d'.
Proof. intros (x & -> & Hx)%denied_log. apply plainly_say, marks_guards, Hx. Qed.
Lemma plainly_first pe d l t d' : first_of grd pe d l t d' -> plainly d d'.
Proof. intros (x & -> & Hx)%first_log. apply plainly_say, marks_guards, Hx. Qed.
Lemma plainly_enabled pe d t d' : enabled grd pe d t d' -> plainly d d'.
Proof. intros (x & -> & Hx)%enabled_log. apply plainly_say, marks_guards, Hx. Qed.
Lemma plainly_dyp d r m : plainly d (set_dyp d r m).
Proof. exists []. split; [symmetry; apply app_nil_r | reflexivity]. Qed.
Lemma plainly_seg pe p q : seg c M grd pe p q -> plainly (p_d p) (p_d q).
Proof.
  destruct 1; cbn [p_d]; eauto using plainly_refl, plainly_trans, plainly_eff, plainly_first, plainly_enabled, plainly_dyp.
Qed.
Lemma plainly_segs pe p q : segs c M grd pe p q -> plainly (p_d p) (p_d q).
Proof. induction 1; eauto using plainly_refl, plainly_trans, plainly_seg. Qed.
Lemma plainly_over pe d v l d1 : overfull c M grd pe d v l d1 -> plainly d d1.
Proof. destruct 1; eauto using plainly_refl, plainly_trans, plainly_eff, plainly_first, plainly_enabled, plainly_dyp. Qed.
Lemma plainly_fails pe p e d1 : fails c M grd pe p e d1 -> plainly (p_d p) d1.
Proof.
  destruct 1; cbn [p_d]; eauto using plainly_refl, plainly_trans, plainly_eff, plainly_denied, plainly_over.
  apply plainly_say. reflexivity.
Qed.
Definition err (e : rcode) : Prop :=
  e = CND_NFOUND \/ e = GRD_FALSE \/ (sm_asrt c = false /\ (e = UNKN_STATE \/ e = EX_HLEVEL \/ e = EX_TSEG)).
Lemma fails_err pe p e d1 : fails c M grd pe p e d1 -> err e.
Proof. unfold err. destruct 1; auto 6. Qed.
Lemma plainly_do pe l es d : plainly d (enter M es (effects pe l d)).
Proof. eapply plainly_trans; [apply plainly_eff | apply plainly_say, marks_entries]. Qed.
Definition out_ok (d : dyn) (o : out) : Prop := plainly d (out_d o) /\ match o with Failed _ e => err e | _ => True end.
Lemma out_trans d1 d2 o : plainly d1 d2 -> out_ok d2 o -> out_ok d1 o.
Proof. intros H [A B]. split; [eapply plainly_trans; eauto | exact B]. Qed.
Lemma default_out pe d q o : default c M grd pe d q o -> out_ok d o.
Proof.
  induction 1 as [d s Hs | d q en ex p tbl v ia h d1 t l b es o Hq Hroom Hsegs Ht Hb Hd IH
    | d q en ex p tbl v ia h p1 r d1 Hq Hroom Hsegs Hf | d q en ex p tbl dc ia h Hq Hroom Hc].
  - split; [apply plainly_refl | exact I].
  - eapply out_trans; [exact (plainly_segs _ _ _ Hsegs)|]. eapply out_trans; [apply plainly_do | exact IH].
  - split; [eapply plainly_trans; [exact (plainly_segs _ _ _ Hsegs) | eapply plainly_fails; eauto] | eapply fails_err; eauto].
  - split; [apply plainly_refl | unfold err; auto 6].
Qed.
Lemma fire_out pe d cs src v a o : fire c M grd pe d cs src v a o -> out_ok (say d [XTrn src (Some v)]) o.
Proof.
  intros H.
  inversion H as [d1 ts l b lc lt o' Hsegs Hroom Ht Hlc Hlt Hin Hd | p1 r d1 Hsegs Hroom Hf | d1 ts l b lt Hsegs Hroom Ht Hc Hne Hlt Hlen | Hroom Hc]; subst.
  - eapply out_trans; [exact (plainly_segs _ _ _ Hsegs)|]. eapply out_trans; [apply (plainly_leave (exits lc lt))|].
    eapply out_trans; [apply plainly_do | exact (default_out _ _ _ _ Hd)].
  - split; [eapply plainly_trans; [exact (plainly_segs _ _ _ Hsegs) | eapply plainly_fails; eauto] | eapply fails_err; eauto].
  - split; [exact (plainly_segs _ _ _ Hsegs) | unfold err; auto 6].
  - split; [apply plainly_refl | unfold err; auto 6].
Qed.

(** One event. *)
Definition told (d : dyn) (r : result) : Prop :=
  exists x, d_log (res_d r) = d_log d ++ x /\
  match r with
  | Rest _ => (exists src v s, marks x = [XTrn src (Some v); XState s] /\ completes c M s = false) \/
              (exists src, marks x = [XTrn src None] /\ (0 < sm_segs c)%nat)
  | Chained _ => exists src v s, marks x = [XTrn src (Some v); XState s] /\ completes c M s = true
  | Error _ e => (marks x = [] /\ e = EVT_NFOUND) \/ (exists src v, marks x = [XTrn src (Some v)] /\ err e) \/
                 (exists src, marks x = [XTrn src None] /\ sm_segs c = 0%nat /\ e = EX_TSEG)
  end.
Lemma settle_told d y src v o r : marks y = [] -> out_ok (say d (y ++ [XTrn src (Some v)])) o -> settle c M o r -> told d r.
Proof.
  intros Hy [(x & E & Hx) Ho] Hs. cbn in E. rewrite <- !app_assoc in E. destruct o as [d1 s | d1 e]; cbn in Hs, E.
  - destruct Hs as (d' & (anc & _ & _ & _ & El & _) & ->).
    exists (y ++ [XTrn src (Some v)] ++ x ++ [XState s]). split.
    { destruct (completes c M s); cbn [res_d]; rewrite El, E; cbn; rewrite <- !app_assoc; cbn; reflexivity. }
    assert (marks (y ++ [XTrn src (Some v)] ++ x ++ [XState s]) = [XTrn src (Some v); XState s]) as K
      by (rewrite !marks_app, Hy, Hx; reflexivity).
    destruct (completes c M s) eqn:Ec; [| left]; exists src, v, s; auto.
  - subst r. exists (y ++ [XTrn src (Some v)] ++ x). split; [exact E|]. right. left. exists src, v. split; [| exact Ho].
    rewrite !marks_app, Hy, Hx. reflexivity.
Qed.
Lemma step_told pe d r : step c M grd pe d r -> told d r.
Proof.
  inversion 1 as [cs l d' Ecs Hl Hn | cs l src t d1 Ecs Hl Hsel Et Hroom | cs l src t d1 Ecs Hl Hsel Et Hroom Hc
    | cs l src t d1 v o r' Ecs Hl Hsel Et Hf Hset]; subst.
  - destruct (denied_log _ _ _ _ _ Hn) as (x & -> & Hx%marks_guards). exists x. auto.
  - destruct (selected_log _ _ _ _ _ _ _ _ Hsel) as (x & -> & Hx%marks_guards). unfold effects. rewrite !say_say.
    eexists. split; [reflexivity|]. right. exists src. rewrite !marks_app, Hx, marks_effects. auto.
  - destruct (selected_log _ _ _ _ _ _ _ _ Hsel) as (x & -> & Hx%marks_guards). rewrite !say_say.
    eexists. split; [reflexivity|]. right. right. exists src. rewrite !marks_app, Hx. split; [reflexivity|]. split; [| reflexivity].
    unfold room in Hroom. cbn in Hroom. lia.
  - destruct (selected_log _ _ _ _ _ _ _ _ Hsel) as (x & -> & Hx%marks_guards). apply fire_out in Hf. rewrite say_say in Hf.
    eapply settle_told; eauto.
Qed.
Lemma create_told pe d v a r : create c M grd pe d v a r -> told d r.
Proof.
  inversion 1 as [d1 ts l b es o r' Hsegs Hroom Ht Hb Hd Hset | p1 r' d1 Hsegs Hroom Hf | Hroom Hc]; subst.
  - apply (settle_told d [] v v o r eq_refl); [| exact Hset]. cbn [app].
    eapply out_trans; [exact (plainly_segs _ _ _ Hsegs)|]. eapply out_trans; [apply plainly_do | exact (default_out _ _ _ _ Hd)].
  - apply (settle_told d [] v v (Failed d1 r') (Error d1 r') eq_refl); [| reflexivity]. cbn [app].
    split; [eapply plainly_trans; [exact (plainly_segs _ _ _ Hsegs) | eapply plainly_fails; eauto] | eapply fails_err; eauto].
  - apply (settle_told d [] v v (Failed (say d [XTrn v (Some v)]) EX_TSEG) _ eq_refl); [| reflexivity]. cbn [app].
    split; [apply plainly_refl | unfold err; auto 6].
Qed.
Lemma finish_account r d' e : finish c M grd r d' e -> forall d, told d r ->
  exists x, d_log d' = d_log d ++ x /\ account c M (marks x) e.
Proof.
  induction 1 as [d1 | d1 r | d1 r d' e Hs Hf IH]; intros d (x & E & K); cbn [res_d] in E.
  - exists x. split; [exact E|]. destruct K as [(src & v & s & -> & Ec) | (src & -> & Hl)]; cbn.
    + rewrite Ec. auto.
    + destruct (sm_segs c); [lia | reflexivity].
  - exists x. split; [exact E|]. destruct K as [[-> ->] | [(src & v & -> & He) | (src & -> & Hl & ->)]]; cbn; auto.
    rewrite Hl. reflexivity.
  - destruct K as (src & v & s & Em & Ec). destruct (IH _ (step_told _ _ _ Hs)) as (y & Ey & A).
    exists (x ++ y). split; [rewrite Ey, E, app_assoc; reflexivity|]. rewrite marks_app, Em. cbn. rewrite Ec. exact A.
Qed.
End Pure.

Lemma account_latest c M e : forall n l, (length l <= n)%nat -> account c M l e ->
  match last (map Some l) None with
  | None => e = EVT_NFOUND
  | Some (XState s) => e = if completes c M s then EVT_NFOUND else EVT_PROC
  | Some (XTrn _ None) => e = if (0 <? sm_segs c)%nat then EVT_PROC else EX_TSEG
  | Some (XTrn _ (Some _)) => err c e
  | _ => False
  end.
Proof.
  induction n as [| n IH]; intros l Hn H.
  { destruct l; [exact H | cbn in Hn; lia]. }
  destruct l as [| a l]; [exact H|]. destruct a as [| | | | src [v|] |]; try contradiction.
  - destruct l as [| b l]; [exact H|]. destruct b as [| | | | | s]; try contradiction. cbn [account] in H.
    destruct (completes c M s) eqn:Ec.
    + destruct l as [| b l]; [cbn in *; rewrite Ec; exact H|].
      specialize (IH (b :: l)). cbn [length] in *. specialize (IH ltac:(lia) H). exact IH.
    + destruct H as [-> ->]. cbn. rewrite Ec. reflexivity.
  - destruct l; [exact H | contradiction].
Qed.

Section Do.
Context (c : smcfg) (M : machine) (rank : nat -> nat) (home : nat -> option nat).
Context (W : wf_machine c M rank home = true) (grd : nat -> evt -> list xev -> bool).
Theorem do_account fuel istate iact d pe ars d' e :
  wf_initial c M home istate = true -> arrays_ok c ars -> machine_ok c M home d -> ev_sig pe <> (sm_any c - 2)%N ->
  dispatch c M grd fuel istate iact d pe ars = Ok (d', e) ->
  exists x, d_log d' = d_log d ++ x /\ account c M (marks x) e.
Proof.
  intros Hi Ha Hm Hs H. destruct (disp_step _ _ _ _ W _ _ _ _ _ _ _ _ _ Hi Ha Hm Hs H) as (r & H1 & H2 & _).
  eapply finish_account; eauto. eapply step_told; eauto.
Qed.
Theorem do_answer fuel istate iact d pe ars d' e :
  wf_initial c M home istate = true -> arrays_ok c ars -> machine_ok c M home d -> ev_sig pe <> (sm_any c - 2)%N ->
  dispatch c M grd fuel istate iact d pe ars = Ok (d', e) ->
  exists x, d_log d' = d_log d ++ x /\
    match latest x with
    | None => e = EVT_NFOUND
    | Some (XState s) => e = if completes c M s then EVT_NFOUND else EVT_PROC
    | Some (XTrn _ None) => e = if (0 <? sm_segs c)%nat then EVT_PROC else EX_TSEG
    | Some (XTrn _ (Some _)) => err c e
    | _ => False
    end.
Proof.
  intros Hi Ha Hm Hs H. destruct (do_account _ _ _ _ _ _ _ _ Hi Ha Hm Hs H) as (x & E & K). exists x. split; [exact E|].
  exact (account_latest _ _ _ _ _ (le_n _) K).
Qed.
End Do.

(** * Completion transitions and their states *)
Lemma denied_guarded grd pe d l d' : denied grd pe d l d' -> forall t, In t l -> t_grd t <> None.
Proof. induction 1; cbn; [tauto|]. intros x [<- | H']; [congruence | auto]. Qed.
Lemma closed_spec c M s o : closed c M = true -> completes c M s = true -> owns M s o = true ->
  exists t, In t (triggered M (sm_any c - 1) o) /\ t_grd t = None.
Proof.
  intros Hc Hs Ho. unfold closed in Hc. rewrite forallb_forall in Hc.
  assert (s < length M)%nat as Hl.
  { apply nth_error_Some. unfold completes in Hs. destruct (nth_error M s); discriminate. }
  specialize (Hc s ltac:(apply in_seq; lia)). rewrite Hs in Hc. cbn [negb orb] in Hc. rewrite forallb_forall in Hc.
  assert (o < length M)%nat as Hlo.
  { unfold owns in Ho. destruct (nth_error M s) as [x|] eqn:E; [| discriminate]. destruct x as [? ? ? ?| | [q|] | | | | | | | |]; try discriminate.
    - apply Nat.eqb_eq in Ho. subst. exact Hl.
    - apply nth_error_Some. destruct (nth_error M o); discriminate. }
  specialize (Hc o ltac:(apply in_seq; lia)). rewrite Ho in Hc. cbn [negb orb] in Hc. apply existsb_exists in Hc as (t & Ht & K).
  apply andb_true_iff in K as [K1 K2]. exists t. split; [apply filter_In; auto|]. destruct (t_grd t); [discriminate | reflexivity].
Qed.

Section Owner.
Context (c : smcfg) (M : machine) (rank : nat -> nat) (home : nat -> option nat).
Context (W : wf_machine c M rank home = true) (grd : nat -> evt -> list xev -> bool).
Lemma owner_chain d s l : ram_ok c M home d -> bound (d_dyp d) (home s) -> completes c M s = true -> chain M (d_dyp d) (Some s) l ->
  exists inner o outer, l = inner ++ o :: outer /\ owns M s o = true /\ flat_map (triggered M (sm_any c - 1)) inner = [].
Proof.
  intros Hr Hb Hc Hl. inversion Hl as [| s' p l' Hp Hl']; subst. pose proof Hp as Hp'. unfold completes in Hc. unfold parent_of in Hp. unfold owns.
  destruct (nth_error M s) as [x|] eqn:E; [| discriminate]. destruct x as [? ? ? ? | | [q|] | | | | | | | |]; try discriminate.
  - exists [], s, l'. split; [reflexivity|]. rewrite Nat.eqb_refl. auto.
  - injection Hp as <-. assert (triggered M (sm_any c - 1) s = []) as Ht by (unfold triggered, table_of; rewrite E; reflexivity).
    destruct (wf_parent_some c M rank home W _ _ Hp') as [_ [(K1 & K2 & _) | [K1 K2]]]; cbn [outer] in Hl'.
    + rewrite K2 in Hl'. inversion Hl' as [| s' p l2 Hq Hl2]; subst. exists [s], q, l2. split; [reflexivity|]. cbn. rewrite Ht.
      unfold is_comp in K1. destruct (nth_error M q) as [[]|]; try discriminate. rewrite Nat.eqb_refl. auto.
    + rewrite K1 in Hl'. rewrite K2 in Hb. cbn in Hb. destruct (d_dyp d q) as [m|] eqn:Em; [| congruence].
      destruct (ro_dyp _ _ _ _ Hr _ _ Em) as [(en & ex & p & tbl & e & Hm) _].
      inversion Hl' as [| s' p' l2 Hq Hl2]; subst. exists [s], m, l2. split; [reflexivity|]. cbn. rewrite Ht, Hm, Nat.eqb_refl. auto.
Qed.
Lemma owner_selected d s l src t d0 : ram_ok c M home d -> bound (d_dyp d) (home s) -> completes c M s = true -> closed c M = true ->
  chain M (d_dyp d) (Some s) l -> selected M grd (mkEv (sm_any c - 1) 0) d l src t d0 -> owns M s src = true.
Proof.
  intros Hr Hb Hc Hcl Hl (inn & out & dm & E & Hd & Hf). destruct (owner_chain _ _ _ Hr Hb Hc Hl) as (inn2 & o & out2 & E2 & Ho & Ht).
  destruct (closed_spec _ _ _ _ Hcl Hc Ho) as (u & Hu & Hg). cbn [ev_sig] in *.
  rewrite E2 in E. clear E2 Hl. revert inn E Hd. induction inn2 as [| a inn2 IH]; intros inn E Hd.
  - destruct inn as [| b inn]; cbn in E; injection E as <- _; [exact Ho|].
    exfalso. eapply (denied_guarded _ _ _ _ _ Hd u); [| exact Hg]. cbn. apply in_app_iff. auto.
  - cbn in Ht. apply app_eq_nil in Ht as [Ha Ht]. destruct inn as [| b inn]; cbn in E.
    + injection E as <- _. destruct Hf as (pre & post & dm' & K & _). rewrite Ha in K. destruct pre; discriminate.
    + injection E as <- E. cbn in Hd. rewrite Ha in Hd. exact (IH Ht _ E Hd).
Qed.
Lemma owner_something d s l dn : ram_ok c M home d -> bound (d_dyp d) (home s) -> completes c M s = true -> closed c M = true ->
  chain M (d_dyp d) (Some s) l -> nothing M grd (mkEv (sm_any c - 1) 0) d l dn -> False.
Proof.
  intros Hr Hb Hc Hcl Hl Hn. destruct (owner_chain _ _ _ Hr Hb Hc Hl) as (inn2 & o & out2 & -> & Ho & Ht).
  destruct (closed_spec _ _ _ _ Hcl Hc Ho) as (u & Hu & Hg).
  eapply (denied_guarded _ _ _ _ _ Hn u); [| exact Hg]. cbn [ev_sig]. rewrite flat_map_app. apply in_app_iff. right. cbn. apply in_app_iff. auto.
Qed.
Theorem do_owner fuel istate iact d pe ars d' e y s z :
  wf_initial c M home istate = true -> arrays_ok c ars -> machine_ok c M home d -> ev_sig pe <> (sm_any c - 2)%N ->
  closed c M = true -> dispatch c M grd fuel istate iact d pe ars = Ok (d', e) ->
  d_log d' = d_log d ++ y ++ XState s :: z -> completes c M s = true ->
  exists g src t w, z = g ++ XTrn src t :: w /\ only_guards g /\ owns M s src = true.
Proof.
  intros Hi Ha Hm Hs Hcl H El Hc. destruct (do_completion _ _ _ _ W _ _ _ _ _ _ _ _ _ _ _ _ Hi Ha Hm Hs H El) as (da & A1 & A2 & (A3 & sa & A4 & A5 & A6) & _ & G).
  rewrite A2 in A4. injection A4 as <-. specialize (G Hc).
  destruct (chain_ex M rank (wf_tidy c M rank home W) (d_dyp da) (tr_dyp _ _ (ram_tidy c M home _ A3)) s) as [l Hl].
  { unfold is_leaf in A5. unfold parent_of. destruct (nth_error M s) as [[]|]; discriminate. }
  destruct (G _ Hl) as [G1 _]. destruct (selected_or_nothing M grd (mkEv (sm_any c - 1) 0) (s :: l) da) as [(src & t & d0 & Hsel) | (dn & Hn)].
  - destruct (G1 _ _ _ Hsel) as [x Ex]. destruct (selected_log _ _ _ _ _ _ _ _ Hsel) as (g & -> & Hg). cbn in Ex. rewrite A1 in Ex. rewrite El in Ex.
    rewrite <- !app_assoc in Ex. apply app_inv_head in Ex. apply app_inv_head in Ex. cbn in Ex. injection Ex as ->.
    exists g, src, (t_tgt t), x. split; [reflexivity|]. split; [exact Hg|]. eapply owner_selected; eauto.
  - exfalso. eapply owner_something; eauto.
Qed.
End Owner.
