(** What a dispatch does, for well-formed machines. *)
From Verif Require Import Base L_Base M_Sm S_Sm S_SmWf S_SmRun L_Sm L_SmWalk L_SmStep L_SmDet L_SmWf L_SmKeep L_SmSafe L_SmProps.

Section Pure.
Context (c : smcfg) (M : machine) (grd : nat -> evt -> list xev -> bool).
Definition ext (d d' : dyn) : Prop := exists x, d_log d' = d_log d ++ x.
Lemma ext_refl d : ext d d.
Proof. exists []. symmetry. apply app_nil_r. Qed.
Lemma ext_trans d1 d2 d3 : ext d1 d2 -> ext d2 d3 -> ext d1 d3.
Proof. intros [x E1] [y E2]. exists (x ++ y). rewrite E2, E1, app_assoc. reflexivity. Qed.
Lemma ext_say d x : ext d (say d x).
Proof. exists x. reflexivity. Qed.
Lemma ext_leave l d : ext d (leave M l d).
Proof. eexists. apply leave_log. Qed.
Lemma segs_ext pe p q : segs c M grd pe p q -> ext (p_d p) (p_d q).
Proof. intros H. destruct (segs_log _ _ _ _ _ _ H) as (x & E & _). exists x. exact E. Qed.
Lemma fails_ext pe p e d1 : fails c M grd pe p e d1 -> ext (p_d p) d1.
Proof. intros H. destruct (fails_log _ _ _ _ _ _ _ H) as (x & E & _). exists x. exact E. Qed.
Definition out_d (o : out) : dyn := match o with Arrived d _ | Failed d _ => d end.
Definition res_d (r : result) : dyn := match r with Rest d | Chained d | Error d _ => d end.
Lemma default_ext pe d q o : default c M grd pe d q o -> ext d (out_d o).
Proof.
  induction 1 as [d s Hs | d q en ex p tbl v ia h d1 t l b es o Hq Hroom Hsegs Ht Hb Hd IH
    | d q en ex p tbl v ia h p1 r d1 Hq Hroom Hsegs Hf | d q en ex p tbl dc ia h Hq Hroom Hc]; cbn [out_d]; try apply ext_refl.
  - eapply ext_trans; [exact (segs_ext _ _ _ Hsegs)|]. eapply ext_trans; [| exact IH]. eapply ext_trans; apply ext_say.
  - eapply ext_trans; [exact (segs_ext _ _ _ Hsegs) | eapply fails_ext; eauto].
Qed.
Lemma fire_ext pe d cs src v a o : fire c M grd pe d cs src v a o -> ext (say d [XTrn src (Some v)]) (out_d o).
Proof.
  inversion 1 as [d1 ts l b lc lt o' Hsegs Hroom Ht Hlc Hlt Hin Hd | p1 r d1 Hsegs Hroom Hf | d1 ts l b lt Hsegs Hroom Ht Hc Hne Hlt Hlen | Hroom Hc]; subst; cbn [out_d].
  - eapply ext_trans; [exact (segs_ext _ _ _ Hsegs)|]. eapply ext_trans; [apply (ext_leave (exits lc lt))|].
    eapply ext_trans; [| exact (default_ext _ _ _ _ Hd)]. eapply ext_trans; apply ext_say.
  - eapply ext_trans; [exact (segs_ext _ _ _ Hsegs) | eapply fails_ext; eauto].
  - exact (segs_ext _ _ _ Hsegs).
  - apply ext_refl.
Qed.
Lemma settle_ext o r : settle c M o r -> ext (out_d o) (res_d r).
Proof.
  destruct o as [d s | d e]; cbn.
  - intros (d' & (anc & _ & _ & _ & E & _) & ->). destruct (completes c M s); exists [XState s]; exact E.
  - intros ->. apply ext_refl.
Qed.
Lemma step_ext pe d r : step c M grd pe d r -> ext d (res_d r).
Proof.
  inversion 1 as [cs l d' Ecs Hl Hn | cs l src t d1 Ecs Hl Hsel Et Hroom | cs l src t d1 Ecs Hl Hsel Et Hroom Hc
    | cs l src t d1 v o r' Ecs Hl Hsel Et Hf Hset]; subst; cbn [res_d].
  - destruct (denied_log _ _ _ _ _ Hn) as (x & -> & _). apply ext_say.
  - destruct (selected_log _ _ _ _ _ _ _ _ Hsel) as (x & -> & _). unfold effects. rewrite !say_say. apply ext_say.
  - destruct (selected_log _ _ _ _ _ _ _ _ Hsel) as (x & -> & _). rewrite !say_say. apply ext_say.
  - destruct (selected_log _ _ _ _ _ _ _ _ Hsel) as (x & -> & _). eapply ext_trans; [apply ext_say|].
    eapply ext_trans; [| exact (settle_ext _ _ Hset)]. eapply ext_trans; [| exact (fire_ext _ _ _ _ _ _ _ Hf)]. apply ext_say.
Qed.
Lemma finish_ext r d' e : finish c M grd r d' e -> ext (res_d r) d'.
Proof.
  induction 1 as [d | d r | d r d' e Hs Hf IH]; try apply ext_refl. eapply ext_trans; [| exact IH]. eapply step_ext; eauto.
Qed.

Lemma denied_or_first pe l : forall d, (exists d', denied grd pe d l d') \/ exists t d', first_of grd pe d l t d'.
Proof.
  induction l as [| t l IH]; intros d; [left; exists d; constructor|].
  destruct (t_grd t) as [g|] eqn:Eg.
  - destruct (grd g pe (d_log d)) eqn:Er.
    + right. exists t, (say d [XGrd g pe true]). exists [], l, d. split; [reflexivity|]. split; [constructor|].
      unfold enabled. rewrite Eg. auto.
    + destruct (IH (say d [XGrd g pe false])) as [(d' & H) | (t' & d' & pre & post & dm & -> & D & E)].
      * left. exists d'. econstructor; eauto.
      * right. exists t', d', (t :: pre), post, dm. split; [reflexivity|]. split; [econstructor; eauto | exact E].
  - right. exists t, d. exists [], l, d. split; [reflexivity|]. split; [constructor|]. unfold enabled. rewrite Eg. reflexivity.
Qed.
Lemma denied_app pe l1 : forall d dm l2 d', denied grd pe d l1 dm -> denied grd pe dm l2 d' -> denied grd pe d (l1 ++ l2) d'.
Proof. induction l1 as [| t l1 IH]; intros d dm l2 d' H1 H2; inversion H1; subst; [exact H2|]. cbn. econstructor; eauto. Qed.
Lemma selected_or_nothing pe l : forall d, (exists s t d', selected M grd pe d l s t d') \/ exists d', nothing M grd pe d l d'.
Proof.
  induction l as [| s l IH]; intros d; [right; exists d; constructor|].
  destruct (denied_or_first pe (triggered M (ev_sig pe) s) d) as [(dm & D) | (t & d' & F)].
  - destruct (IH dm) as [(s' & t & d' & inn & out & dm' & -> & D' & F) | (d' & N)].
    + left. exists s', t, d', (s :: inn), out, dm'. split; [reflexivity|]. split; [cbn [flat_map]; eapply denied_app; eauto | exact F].
    + right. exists d'. unfold nothing. cbn [flat_map]. eapply denied_app; eauto.
  - left. exists s, t, d', [], l, d. split; [reflexivity|]. split; [constructor | exact F].
Qed.

(** What is left of an event at a point. *)
Definition rest_of (pe : evt) (d : dyn) (micro : bool) (p : point) (r : result) : Prop :=
  exists q, segs c M grd pe p q /\
  ((exists e d1, fails c M grd pe q e d1 /\ r = Error d1 e) \/
   (is_target M (p_v q) = true /\
    if micro then exists es o, below M (Some (p_base q)) (Some (p_v q)) es /\
      default c M grd pe (enter M (rev es) (effects pe (p_pend q) (p_d q))) (p_v q) o /\ settle c M o r
    else exists cs, d_st d = Some cs /\
      ((exists lc lt o, chain M (d_dyp (p_d q)) (Some cs) lc /\ chain M (d_dyp (p_d q)) (Some (p_v q)) lt /\
          (In cs lt \/ (length lt <= sm_depth c)%nat) /\
          default c M grd pe (enter M (enters lc lt) (effects pe (p_pend q) (leave M (exits lc lt) (p_d q)))) (p_v q) o /\ settle c M o r)
       \/ (exists lt, sm_asrt c = false /\ cs <> p_v q /\ chain M (d_dyp (p_d q)) (Some (p_v q)) lt /\ (sm_depth c < length lt)%nat /\
            r = Error (p_d q) EX_HLEVEL)))).
Lemma rest_move pe d micro p p' r : rest_of pe d micro p r -> segs c M grd pe p p' -> rest_of pe d micro p' r.
Proof.
  intros (q & Hq & H) Hp. exists q. split; [| exact H].
  destruct (segs_line _ _ _ _ _ _ Hp _ Hq) as [K | K]; [exact K|].
  destruct H as [(e & d1 & Hf & _) | [Ht _]].
  - rewrite (segs_end_fails _ _ _ _ _ _ _ _ K Hf). constructor.
  - rewrite (segs_end_target _ _ _ _ _ _ K Ht). constructor.
Qed.
Lemma below_fun base s l1 : below M base s l1 -> forall l2, below M base s l2 -> l1 = l2.
Proof.
  induction 1 as [| s p l Hne Hp H IH]; intros l2 H2; inversion H2 as [| s2 p2 l2' Hne2 Hp2 H2']; subst; try congruence.
  f_equal. apply IH. congruence.
Qed.
Lemma target_default pe d ts o en ex q tbl v ia h r : nth_error M ts = Some (VComp en ex q tbl (Some v) ia h) ->
  room c [] -> default c M grd pe d ts o -> settle c M o r -> forall dd, rest_of pe dd true (mkP d v (act1 ia) ts) r.
Proof.
  intros Hts Hroom H Hs dd. inversion H as [d2 s Hl | d2 q2 en2 ex2 p2 tbl2 v2 ia2 h2 d1 t l b es o2 Hq _ Hsegs Ht Hb Hd
    | d2 q2 en2 ex2 p2 tbl2 v2 ia2 h2 p1 r2 d1 Hq _ Hsegs Hf | d2 q2 en2 ex2 p2 tbl2 dc ia2 h2 Hq Hn Hc]; subst.
  - unfold is_leaf in Hl. rewrite Hts in Hl. discriminate.
  - rewrite Hts in Hq. injection Hq as <- <- <- <- <- <- <-. eexists. split; [exact Hsegs|]. right. split; [exact Ht|]. cbn. eauto.
  - rewrite Hts in Hq. injection Hq as <- <- <- <- <- <- <-. exists p1. split; [exact Hsegs|]. left. cbn in Hs. eauto.
  - contradiction.
Qed.
Lemma visits_rest pe d micro p r : visits c M grd pe d micro p -> step c M grd pe d r -> rest_of pe d micro p r.
Proof.
  intros H Hs. assert (room c []) as Hroom by (induction H; auto).
  induction H as [cs l src t d0 v p Es Hl Hsel Et _ Hsegs
    | d1 ts l b cs lc lt en ex q tbl v ia h p Hv IH Es Hlc Hlt Hlen Hts Hsegs
    | d1 ts l b es en ex q tbl v ia h p Hv IH Hb Hts Hsegs].
  - refine (rest_move _ _ _ _ _ _ _ Hsegs). clear Hsegs.
    inversion Hs as [cs' l' d' Ecs' Hl' Hn | cs' l' src' t' d1' Ecs' Hl' Hsel' Et' _ | cs' l' src' t' d1' Ecs' Hl' Hsel' Et' Hnr Hc
      | cs' l' src' t' d1' v' o r' Ecs' Hl' Hsel' Et' Hf Hset]; subst;
      rewrite Es in Ecs'; injection Ecs' as <-; pose proof (chain_fun _ _ _ _ Hl _ Hl') as <-;
      try (destruct (selected_fun _ _ _ _ _ _ _ _ _ _ _ (chain_nodup _ _ _ _ Hl) Hsel Hsel') as (<- & <- & <-)); try congruence.
    + exfalso. eapply selected_nothing; eauto.
    + rewrite Et in Et'. injection Et' as <-.
      inversion Hf as [d1 ts l' b lc lt o' Hsegs _ Ht Hlc Hlt Hin Hd | p1 r' d1 Hsegs _ Hff | d1 ts l' b lt Hsegs _ Ht Hc Hne Hlt Hlen | Hnr Hc]; subst.
      * eexists. split; [exact Hsegs|]. right. split; [exact Ht|]. exists cs. split; [exact Es|]. left. cbn. eauto 10.
      * exists p1. split; [exact Hsegs|]. left. cbn in Hset. eauto.
      * eexists. split; [exact Hsegs|]. right. split; [exact Ht|]. exists cs. split; [exact Es|]. right. cbn in Hset |- *. eauto 10.
      * contradiction.
  - refine (rest_move _ _ _ _ _ _ _ Hsegs). clear Hsegs. destruct IH as (q' & Hq & [(e & d2 & Hf & _) | [Ht (cs' & Es' & K)]]).
    { exfalso. assert (is_target M ts = true) as Ht by (unfold is_target; rewrite Hts; reflexivity).
      rewrite (segs_end_target _ _ _ _ _ _ Hq Ht) in Hf. eapply fails_target; eauto. }
    assert (is_target M ts = true) as Ht' by (unfold is_target; rewrite Hts; reflexivity).
    rewrite (segs_end_target _ _ _ _ _ _ Hq Ht') in *. cbn [p_d p_v p_pend p_base] in *. assert (cs' = cs) by congruence. subst cs'.
    destruct K as [(lc' & lt' & o & Hlc' & Hlt' & Hin & Hd & Hset) | (lt' & _ & _ & Hlt' & Hlen' & _)].
    + rewrite <- (chain_fun _ _ _ _ Hlc _ Hlc'), <- (chain_fun _ _ _ _ Hlt _ Hlt') in Hd. eapply target_default; eauto.
    + rewrite <- (chain_fun _ _ _ _ Hlt _ Hlt') in Hlen'. lia.
  - refine (rest_move _ _ _ _ _ _ _ Hsegs). clear Hsegs. destruct IH as (q' & Hq & [(e & d2 & Hf & _) | [Ht (es' & o & Hb' & Hd & Hset)]]).
    { exfalso. assert (is_target M ts = true) as Ht by (unfold is_target; rewrite Hts; reflexivity).
      rewrite (segs_end_target _ _ _ _ _ _ Hq Ht) in Hf. eapply fails_target; eauto. }
    assert (is_target M ts = true) as Ht' by (unfold is_target; rewrite Hts; reflexivity).
    rewrite (segs_end_target _ _ _ _ _ _ Hq Ht') in *. cbn [p_d p_v p_pend p_base] in *.
    rewrite (below_fun _ _ _ Hb' _ Hb) in Hd. eapply target_default; eauto.
Qed.
Lemma rest_ext pe d micro p r : rest_of pe d micro p r -> ext (p_d p) (res_d r).
Proof.
  intros (q & Hq & H). eapply ext_trans; [exact (segs_ext _ _ _ Hq)|]. destruct H as [(e & d1 & Hf & ->) | [_ H]]; [eapply fails_ext; eauto|].
  destruct micro.
  - destruct H as (es & o & _ & Hd & Hs). eapply ext_trans; [| exact (settle_ext _ _ Hs)]. eapply ext_trans; [| exact (default_ext _ _ _ _ Hd)].
    eapply ext_trans; apply ext_say.
  - destruct H as (cs & _ & [(lc & lt & o & _ & _ & _ & Hd & Hs) | (lt & _ & _ & _ & _ & ->)]); [| apply ext_refl].
    eapply ext_trans; [| exact (settle_ext _ _ Hs)]. eapply ext_trans; [| exact (default_ext _ _ _ _ Hd)].
    eapply ext_trans; [apply (ext_leave (exits lc lt))|]. eapply ext_trans; apply ext_say.
Qed.
End Pure.
