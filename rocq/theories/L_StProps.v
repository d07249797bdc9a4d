(** Proofs: what holds in executions of the single-thread host ports. *)
From Verif Require Import Base L_Base M_RdyGrp S_RdyGrp L_RdyGrp M_Queue S_Queue L_Queue
  M_MemPool S_MemPool L_MemPool M_Kernel S_Kernel L_KMem L_KQueue L_Kernel L_KRun L_KBoot L_KProps L_KSeq L_KSched
  M_Threads S_Threads L_Threads L_TRun L_TProps M_St S_St L_StRun.
From Coq Require Import Permutation Sorted.
Local Open Scope N_scope.

(** *** Dispatches in progress *)
Inductive once : prog -> Prop :=
| on_nd p : nodisp p -> once p
| on_user u k : nodisp k -> once (User u k)
| on_atom f : (forall s s' labs p', f s = Ok (s', labs, p') -> once p') -> once (Atom f).
Lemma once_atom f s s' labs p' : once (Atom f) -> f s = Ok (s', labs, p') -> once p'.
Proof. intros H E. inversion H as [p Hn| |]; subst; [|eauto]. apply on_nd. inversion Hn; subst; eauto. Qed.
Lemma once_user u k : once (User u k) -> nodisp k.
Proof. intros H. inversion H as [p Hn| |]; subst; [|assumption]. inversion Hn; subst; assumption. Qed.
Lemma once_turn c : once (st_turn c).
Proof.
  apply on_atom. intros s s' labs p' E. destruct (rg_isReady (k_rg s)).
  - destruct (rg_findHighest (k_rg s)) as [p|]; [|discriminate]. cbn [bind] in E.
    destruct (rd (k_sp s) (N.to_nat p)) as [y|]; [|discriminate]. cbn [bind] in E. okp E. destruct y as [o|].
    + apply on_atom. clear. intros s s' labs p' E. okall E. okp E. apply on_user. apply plain_nodisp, plain_gc.
    + apply on_nd. constructor. discriminate.
  - injection E as <- <- <-. apply on_user. constructor.
Qed.
Definition sdisp_ok (t : sthread) : Prop :=
  if sh_main t then sh_stk t = [] \/ exists up f, sh_stk t = up ++ [f] /\ (forall g, In g up -> nodisp (tf_p g)) /\ once (tf_p f)
  else forall f, In f (sh_stk t) -> nodisp (tf_p f).
Definition EInv (x : sconf) : Prop :=
  (forall t, In t (u_thr x) -> sdisp_ok t) /\
  (forall i j t u, nth_error (u_thr x) i = Some t -> nth_error (u_thr x) j = Some u ->
     sh_main t = true -> sh_main u = true -> i = j).
Definition top_on (main : bool) (p : prog) (below : list tframe) : Prop :=
  match main, below with true, [] => once p | _, _ => nodisp p end.

Lemma sdisp_top main w f below : sdisp_ok (mkSH main w (f :: below)) -> top_on main (tf_p f) below.
Proof.
  unfold sdisp_ok, top_on. cbn [sh_main sh_stk]. destruct main.
  - intros [E|(up & g & E & H1 & H2)]; [discriminate|]. destruct up as [|h up].
    + cbn [app] in E. injection E as -> ->. exact H2.
    + injection E as <- E. destruct below as [|b below]; [destruct up; discriminate|]. apply H1. now left.
  - intros H. apply H. now left.
Qed.
Lemma sdisp_replace main w w' f f' below : sdisp_ok (mkSH main w (f :: below)) -> top_on main (tf_p f') below ->
  sdisp_ok (mkSH main w' (f' :: below)).
Proof.
  unfold sdisp_ok, top_on. cbn [sh_main sh_stk]. destruct main.
  - intros [E|(up & g & E & H1 & H2)] H; [discriminate|]. right. destruct up as [|h up].
    + cbn [app] in E. injection E as -> ->. exists [], f'. split; [reflexivity|]. split; [intros ? []|exact H].
    + injection E as <- E. exists (f' :: up), g. split; [cbn [app]; now rewrite E|]. split; [|exact H2].
      destruct below as [|b below]; [destruct up; discriminate|]. intros g0 [<-|Hg]; [exact H|]. apply H1. now right.
  - intros H1 H2 g [<-|Hg]; [exact H2|]. apply H1. now right.
Qed.
Lemma sdisp_push main w w' f g below : sdisp_ok (mkSH main w (g :: below)) -> nodisp (tf_p f) -> sdisp_ok (mkSH main w' (f :: g :: below)).
Proof.
  unfold sdisp_ok. cbn [sh_main sh_stk]. destruct main.
  - intros [E|(up & h & E & H1 & H2)] H; [discriminate|]. right. exists (f :: up), h. rewrite E. split; [reflexivity|]. split; [|exact H2].
    intros g0 [<-|Hg]; auto.
  - intros H1 H2 h [<-|Hg]; auto.
Qed.
Lemma sdisp_pop main w w' f g below : sdisp_ok (mkSH main w (f :: g :: below)) -> sdisp_ok (mkSH main w' (g :: below)).
Proof.
  unfold sdisp_ok. cbn [sh_main sh_stk]. destruct main.
  - intros [E|(up & h & E & H1 & H2)]; [discriminate|]. right. destruct up as [|u up]; [discriminate|]. injection E as <- E. exists up, h.
    split; [exact E|]. split; [|exact H2]. intros g0 Hg. apply H1. now right.
  - intros H1 g0 Hg. apply H1. now right.
Qed.
Lemma top_on_atom main f below s s' labs p' : top_on main (Atom f) below -> f s = Ok (s', labs, p') -> top_on main p' below.
Proof.
  unfold top_on. intros H E. assert (Hn : nodisp (Atom f) -> nodisp p') by (intros Hn; inversion Hn; subst; eauto).
  destruct main; [|destruct below; auto]. destruct below; [|auto]. eapply once_atom; eauto.
Qed.
Lemma top_on_user main u k below : top_on main (User u k) below -> top_on main k below.
Proof.
  unfold top_on. intros H. assert (Hn : nodisp (User u k) -> nodisp k) by (intros Hn; inversion Hn; subst; auto).
  destruct main; [|destruct below; auto]. destruct below; [|auto]. apply on_nd. eapply once_user; eauto.
Qed.
Lemma EInv_upd x s n r e l log i t t' : EInv x -> nth_error (u_thr x) i = Some t -> sh_main t' = sh_main t -> sdisp_ok t' ->
  EInv (mkSC s n r e l (put_thr x i t') log).
Proof.
  intros [D1 D2] Ht Eo Hd. split; cbn [u_thr]; unfold put_thr.
  - intros u Hu. apply In_nth_error in Hu. destruct Hu as [j Hj]. eapply upd_cases in Hj; [|exact Ht].
    destruct Hj as [[_ ->]|[_ Hj]]; [exact Hd|]. apply D1. eapply nth_error_In; eauto.
  - intros j k u v H1 H2 E1 E2. eapply upd_cases in H1; [|exact Ht]. eapply upd_cases in H2; [|exact Ht].
    destruct H1 as [[-> ->]|[_ H1]], H2 as [[-> ->]|[_ H2]]; rewrite ?Eo in *; eauto.
Qed.
Lemma sstep_EInv c pt statics strict x ch x' : EInv x -> sstep c pt statics strict x ch = Ok x' -> EInv x'.
Proof.
  intros HD. destruct ch as [| | |i a]; cbn [sstep].
  - intros E. injection E as <-. destruct HD as [D1 D2]. split; cbn [u_thr].
    + intros t Ht. apply in_app_iff in Ht. destruct Ht as [Ht|[<-|[]]]; [auto|]. intros f [<-|[]].
      constructor; [discriminate|constructor].
    + intros i j t u H1 H2 E1 E2. apply app_cases in H1, H2.
      destruct H1 as [[-> ->]|H1], H2 as [[-> ->]|H2]; try discriminate. eauto.
  - destruct (existsb sh_main (u_thr x)) eqn:Er; intros E; injection E as <-; [exact HD|].
    destruct HD as [D1 D2].
    assert (Hno : forall i u, nth_error (u_thr x) i = Some u -> sh_main u = true -> False).
    { intros i u Hu Eu. assert (existsb sh_main (u_thr x) = true); [|congruence]. apply existsb_exists.
      exists u. split; [eapply nth_error_In; eauto|exact Eu]. }
    split; cbn [u_thr].
    + intros t Ht. apply in_app_iff in Ht. destruct Ht as [Ht|[<-|[]]]; [auto|].
      right. eexists [], _. split; [reflexivity|]. split; [intros g []|]. cbn [tf_p]. apply on_user. constructor.
    + intros i j t u H1 H2 E1 E2. apply app_cases in H1, H2.
      destruct H1 as [[-> ->]|H1], H2 as [[-> ->]|H2]; [reflexivity| | |eauto]; exfalso; eauto.
  - intros E. injection E as <-. exact HD.
  - destruct (nth_error (u_thr x) i) as [t|] eqn:Ht; [|intros E; now injection E as <-].
    assert (Hd : sdisp_ok t) by (apply (proj1 HD); eapply nth_error_In; eauto).
    destruct t as [main w stk]. cbn [sh_main sh_wait sh_stk].
    destruct a as [|op| |]; destruct w; try (intros E; now injection E as <-).
    + destruct stk as [|top below]; [intros E; now injection E as <-|].
      pose proof (sdisp_top _ _ _ _ Hd) as Htop. destruct (tf_p top) as [v|f|u k] eqn:Ep.
      * cbv zeta. destruct below as [|g below].
        -- destruct main.
           ++ destruct (v =? 1); intros E; injection E as <-; (eapply EInv_upd; [exact HD|exact Ht|reflexivity|]).
              ** right. eexists [], _. split; [reflexivity|]. split; [intros g []|]. apply on_nd. constructor.
              ** destruct (if v =? 2 then _ else _); [|now left].
                 right. eexists [], _. split; [reflexivity|]. split; [intros g []|]. apply once_turn.
           ++ intros E; injection E as <-. eapply EInv_upd; [exact HD|exact Ht|reflexivity|]. intros f [].
        -- intros E. assert (E' : Ok (mkSC (u_s x) (u_sem x) (u_run x) (u_end x)
               (filter (fun y => negb (match y with LRef e => is_static statics e | _ => false end)) (tf_led top) ++ u_led x)
               (put_thr x i (mkSH main false (g :: below))) (u_log x)) = Ok x') by (destruct main; exact E).
           injection E' as <-. eapply EInv_upd; [exact HD|exact Ht|reflexivity|]. eapply sdisp_pop; exact Hd.
      * destruct (u_end x); [discriminate|]. destruct (f (u_s x)) as [[[s' labs] p']|] eqn:Ef; [|discriminate]. cbn zeta.
        destruct (over _ _ _); intros E; injection E as <-; [exact HD|].
        eapply EInv_upd; [exact HD|exact Ht|reflexivity|]. eapply sdisp_replace; [exact Hd|]. cbn [tf_p].
        eapply top_on_atom; eauto.
      * intros E. injection E as <-. eapply EInv_upd; [exact HD|exact Ht|reflexivity|].
        eapply sdisp_replace; [exact Hd|]. cbn [tf_p]. eapply top_on_user; eauto.
    + destruct stk as [|top below]; [intros E; now injection E as <-|].
      destruct (tf_p top); try (intros E; now injection E as <-).
      destruct (grab _ _ _ _ _ _ _) as [[mine l']|]; [|intros E; now injection E as <-].
      destruct (negb strict || _); intros E; injection E as <-; [|exact HD].
      eapply EInv_upd; [exact HD|exact Ht|reflexivity|]. eapply sdisp_push; [exact Hd|]. apply api_nodisp.
    + destruct (sem_down _); intros E; injection E as <-; [|exact HD].
      eapply EInv_upd; [exact HD|exact Ht|reflexivity|]. exact Hd.
    + intros E; injection E as <-. eapply EInv_upd; [exact HD|exact Ht|reflexivity|]. exact Hd.
Qed.
Lemma srun_EInv c pt statics strict chs : forall x x', EInv x -> srun c pt statics strict x chs = Ok x' -> EInv x'.
Proof.
  induction chs as [|ch t IH]; intros x x' HD E; cbn [srun] in E; [congruence|].
  destruct (sstep c pt statics strict x ch) as [y|] eqn:Ey; [|discriminate]. cbn [bind] in E.
  eapply IH; [|exact E]. eapply sstep_EInv; eauto.
Qed.

Definition sdisp_of (f : tframe) : list (nat * N) :=
  match tf_p f with User (UDispatch o e) _ => [(o, e)] | _ => [] end.
Lemma snodisp_none f : nodisp (tf_p f) -> sdisp_of f = [].
Proof. unfold sdisp_of. intros H. destruct H as [| u k Hu |]; try reflexivity. destruct u; try reflexivity. now destruct (Hu o e). Qed.
Lemma snodisps_none l : (forall f, In f l -> nodisp (tf_p f)) -> concat (map sdisp_of l) = [].
Proof.
  induction l as [|f l IH]; intros H; [reflexivity|]. cbn [map concat]. rewrite snodisp_none by (apply H; now left).
  apply IH. intros g Hg. apply H. now right.
Qed.
Lemma sthread_disp t : sdisp_ok t -> (length (concat (map sdisp_of (sh_stk t))) <= 1)%nat /\
  (sh_main t = false -> concat (map sdisp_of (sh_stk t)) = []).
Proof.
  unfold sdisp_ok. destruct (sh_main t).
  - intros [->|(up & f & -> & H1 & H2)]; [cbn; split; [lia|reflexivity]|]. rewrite map_app, concat_app, snodisps_none by exact H1. cbn [map concat app].
    rewrite app_nil_r. split; [|discriminate]. unfold sdisp_of. destruct (tf_p f) as [| |u k]; cbn [length]; try lia. destruct u; cbn [length]; lia.
  - intros H. rewrite snodisps_none by exact H. cbn. auto.
Qed.
Lemma one_dispatch x : EInv x -> (length (st_dispatching x) <= 1)%nat.
Proof.
  intros [D1 D2]. unfold st_dispatching. fold sdisp_of.
  change (length (concat (map (fun t => concat (map sdisp_of (sh_stk t))) (u_thr x))) <= 1)%nat.
  revert D1 D2. induction (u_thr x) as [|t l IH]; intros D1 D2; [cbn; lia|]. cbn [map concat]. rewrite app_length.
  destruct (sthread_disp t (D1 t ltac:(now left))) as [H1 H2].
  assert (IHl : (length (concat (map (fun t => concat (map sdisp_of (sh_stk t))) l)) <= 1)%nat).
  { apply IH; [intros u Hu; apply D1; now right|].
    intros i j u v A B E1 E2. assert (S i = S j) by (apply (D2 (S i) (S j) u v); assumption). lia. }
  destruct (sh_main t) eqn:Eo; [|rewrite H2 by reflexivity; cbn; lia].
  assert (E : concat (map (fun t => concat (map sdisp_of (sh_stk t))) l) = []); [|rewrite E; cbn; lia].
  assert (Hall : forall u, In u l -> concat (map sdisp_of (sh_stk u)) = []).
  { intros u Hu. destruct (sthread_disp u (D1 u ltac:(now right))) as [_ H3]. apply H3.
    destruct (sh_main u) eqn:Eu; [|reflexivity].
    apply In_nth_error in Hu. destruct Hu as [j Hj].
    specialize (D2 0%nat (S j) t u eq_refl Hj Eo Eu). discriminate. }
  clear - Hall. induction l as [|u l IH]; [reflexivity|]. cbn [map concat]. rewrite Hall by now left. cbn [app].
  apply IH. intros v Hv. apply Hall. now right.
Qed.

(** Without a stop the loop does not end. *)
Definition RInv (pt : stport) (x : sconf) : Prop :=
  u_end x = false /\
  forall t, In t (u_thr x) -> sh_main t = true -> u_run x = true \/ (st_early pt = false /\ booting t).
Lemma RInv_upd pt x s n r l log i t t' : RInv pt x -> nth_error (u_thr x) i = Some t -> (u_run x = true -> r = true) ->
  (sh_main t' = true -> sh_main t = true /\ (r = true \/ (booting t -> booting t'))) ->
  RInv pt (mkSC s n r false l (put_thr x i t') log).
Proof.
  intros [R1 R2] Ht Hr Hm. split; [reflexivity|]. cbn [u_thr u_run]. intros u Hu Em.
  apply In_nth_error in Hu. destruct Hu as [j Hj]. eapply upd_cases in Hj; [|exact Ht]. destruct Hj as [[_ ->]|[_ Hj]].
  - destruct (Hm Em) as [Et [Hr'|Hb]]; [auto|]. destruct (R2 t ltac:(eapply nth_error_In; eauto) Et) as [H|[H1 H2]]; auto.
  - destruct (R2 u ltac:(eapply nth_error_In; eauto) Em) as [H|H]; auto.
Qed.
Lemma sstep_RInv c pt statics strict x ch x' : ch <> SStop -> RInv pt x -> sstep c pt statics strict x ch = Ok x' -> RInv pt x'.
Proof.
  intros Hns HR. destruct ch as [| | |i a]; cbn [sstep]; [| |congruence|].
  - intros E. injection E as <-. destruct HR as [R1 R2]. split; [exact R1|]. cbn [u_thr u_run].
    intros t Ht Em. apply in_app_iff in Ht. destruct Ht as [Ht|[<-|[]]]; [auto|discriminate].
  - destruct (existsb sh_main (u_thr x)) eqn:Er; intros E; injection E as <-; [exact HR|].
    destruct HR as [R1 R2]. split; [exact R1|]. cbn [u_thr u_run]. intros t Ht Em. apply in_app_iff in Ht. unfold run_at_enter.
    destruct Ht as [Ht|[<-|[]]].
    + assert (existsb sh_main (u_thr x) = true); [|congruence]. apply existsb_exists. eauto.
    + destruct (st_early pt); [now left|]. right. split; [reflexivity|]. eexists [], _. split; [reflexivity|now left].
  - destruct (nth_error (u_thr x) i) as [t|] eqn:Ht; [|intros E; now injection E as <-].
    pose proof (proj1 HR) as Hend. destruct t as [main w stk]. cbn [sh_main sh_wait sh_stk].
    destruct a as [|op| |]; destruct w; try (intros E; now injection E as <-).
    + destruct stk as [|top below]; [intros E; now injection E as <-|]. destruct (tf_p top) as [v|f|u k] eqn:Ep.
      * cbv zeta. destruct below as [|g below].
        -- destruct main.
           ++ destruct (N.eqb_spec v 1) as [->|Hv]; intros E; injection E as <-; rewrite Hend.
              ** eapply RInv_upd; [exact HR|exact Ht|auto|]. intros _. split; [reflexivity|]. right.
                 intros (up & f & E & [Ef|Ef]); (destruct up as [|? up]; [|destruct up; discriminate]);
                   cbn [sh_stk app] in E; injection E as E0; rewrite <- E0, Ep in Ef; discriminate.
              ** cbn [orb]. set (r := if v =? 2 then _ else _).
                 assert (Hr : r = true).
                 { unfold r, run_after_hook. destruct (proj2 HR _ (nth_error_In _ _ Ht) eq_refl) as [Hr|[He (up & f & E & Hf)]].
                   - rewrite Hr. destruct (v =? 2), (st_early pt); reflexivity.
                   - cbn [sh_stk] in E. destruct up as [|? up]; [|destruct up; discriminate].
                     injection E as <-. rewrite He. destruct Hf as [Hf|Hf]; [unfold st_start in Hf; congruence|].
                     rewrite Ep in Hf. injection Hf as ->. reflexivity. }
                 rewrite Hr. eapply RInv_upd; [exact HR|exact Ht|auto|]. cbn [sh_main]. auto.
           ++ intros E; injection E as <-. rewrite Hend. eapply RInv_upd; [exact HR|exact Ht|auto|]. discriminate.
        -- intros E. assert (E' : Ok (mkSC (u_s x) (u_sem x) (u_run x) (u_end x)
               (filter (fun y => negb (match y with LRef e => is_static statics e | _ => false end)) (tf_led top) ++ u_led x)
               (put_thr x i (mkSH main false (g :: below))) (u_log x)) = Ok x') by (destruct main; exact E).
           injection E' as <-. rewrite Hend. eapply RInv_upd; [exact HR|exact Ht|auto|]. cbn [sh_main]. intros ->. split; [reflexivity|]. right.
           intros (up & f & E1 & Hf). cbn [sh_stk] in E1. destruct up as [|h up]; [discriminate|]. injection E1 as _ E1.
           exists up, f. auto.
      * rewrite Hend. destruct (f (u_s x)) as [[[s' labs] p']|] eqn:Ef; [|discriminate]. cbn zeta.
        destruct (over _ _ _); intros E; injection E as <-; [exact HR|].
        eapply RInv_upd; [exact HR|exact Ht|auto|]. cbn [sh_main]. intros ->. split; [reflexivity|]. right.
        intros (up & f0 & E1 & Hf). cbn [sh_stk] in E1. destruct up as [|h up].
        -- injection E1 as E1 E2. rewrite <- E1, Ep in Hf. destruct Hf; discriminate.
        -- injection E1 as E1 E2. exists (mkTF (tf_act top) (filter is_right (fold_left led_step labs (tf_led top))) p' :: up), f0.
           split; [cbn [sh_stk app]; now rewrite E2|exact Hf].
      * intros E. injection E as <-. rewrite Hend. eapply RInv_upd; [exact HR|exact Ht|auto|]. cbn [sh_main]. intros ->. split; [reflexivity|]. right.
        intros (up & f0 & E1 & Hf). cbn [sh_stk] in E1. destruct up as [|h up].
        -- injection E1 as E1 E2. subst f0 below. exists [], (mkTF false (tf_led top) k). split; [reflexivity|]. right. cbn [tf_p].
           rewrite Ep in Hf. unfold st_start in Hf. destruct Hf as [Hf|Hf]; [congruence|discriminate].
        -- injection E1 as E1 E2. exists (mkTF false (tf_led top) k :: up), f0. split; [cbn [sh_stk app]; now rewrite E2|exact Hf].
    + destruct stk as [|top below]; [intros E; now injection E as <-|].
      destruct (tf_p top); try (intros E; now injection E as <-).
      destruct (grab _ _ _ _ _ _ _) as [[mine l']|]; [|intros E; now injection E as <-].
      destruct (negb strict || _); intros E; injection E as <-; [|exact HR]. rewrite Hend.
      eapply RInv_upd; [exact HR|exact Ht|auto|]. cbn [sh_main]. intros ->. split; [reflexivity|]. right.
      intros (up & f0 & E1 & Hf). cbn [sh_stk] in E1. eexists (_ :: up), f0. split; [cbn [sh_stk app]; now rewrite <- E1|exact Hf].
    + destruct (sem_down _); intros E; injection E as <-; [|exact HR]. rewrite Hend.
      eapply RInv_upd; [exact HR|exact Ht|auto|]. cbn [sh_main]. auto.
    + intros E; injection E as <-. rewrite Hend. eapply RInv_upd; [exact HR|exact Ht|auto|]. cbn [sh_main]. auto.
Qed.
Lemma srun_RInv c pt statics strict chs : forall x x', ~ In SStop chs -> RInv pt x -> srun c pt statics strict x chs = Ok x' -> RInv pt x'.
Proof.
  induction chs as [|ch t IH]; intros x x' Hn HD E; cbn [srun] in E; [congruence|].
  destruct (sstep c pt statics strict x ch) as [y|] eqn:Ey; [|discriminate]. cbn [bind] in E.
  eapply IH; [|eapply sstep_RInv; [|exact HD|exact Ey]|exact E]; intros Hc; apply Hn; [now right|left; congruence].
Qed.

Section P.
Context (c : kcfg) (pt : stport) (mem0 : @mem cell) (statics : list (N * N)) (prios : list N)
  (dqs : list (list (option N) * nat)) (pools : list (N * N * N)) (rs : list N).
Context (SO : sys_ok c mem0 statics prios dqs pools rs) (Hpt : 1 <= st_vmax pt).
Notation PB := (pool_lists pools rs).
Notation KInv := (KInv c statics PB mem0 rs prios (length dqs)).
Notation CInv := (CInv c statics PB mem0 rs prios (length dqs)).
Notation SInv := (SInv c statics PB mem0 rs prios (length dqs)).
Notation s_reachable := (s_reachable c pt mem0 statics prios dqs pools).
Notation OK := (OK c mem0 statics prios dqs pools rs SO).
Notation Hmax := (Hmax c mem0 statics prios dqs pools rs SO).
Notation Hasrt := (Hasrt c mem0 statics prios dqs pools rs SO).
Notation sinv := (sstep_inv c pt statics PB mem0 rs prios (length dqs) OK Hmax Hasrt Hpt).

Lemma s_system_ok : exists s, start c mem0 prios dqs pools = Ok s /\
  forall chs,
    (exists x, srun c pt statics true (sconf0 s) chs = Ok x /\ SInv x) \/
    (exists f, srun c pt statics true (sconf0 s) chs = Fault f /\ resource_fault f) \/
    (exists chs1 y ch, (exists chs2, chs = chs1 ++ ch :: chs2) /\ srun c pt statics true (sconf0 s) chs1 = Ok y /\ u_end y = true /\
     sstep c pt statics true y ch = Fault (FUB UB_dangling) /\ srun c pt statics true (sconf0 s) chs = Fault (FUB UB_dangling)).
Proof.
  destruct (start_ok c mem0 statics prios dqs pools rs SO) as (s & E & HI & Hv & Hq). exists s. split; [exact E|]. intros chs.
  apply (srun_inv c pt statics PB mem0 rs prios (length dqs) OK Hmax Hasrt Hpt). eapply (sconf0_inv c pt); eauto using OK, Hmax, Hasrt.
Qed.
Lemma RInv0 s : RInv pt (sconf0 s).
Proof. split; [reflexivity|intros t []]. Qed.
Lemma s_every_interleaving : exists s, start c mem0 prios dqs pools = Ok s /\
  forall chs, ~ In SStop chs ->
    (exists x, srun c pt statics true (sconf0 s) chs = Ok x) \/
    (exists f, srun c pt statics true (sconf0 s) chs = Fault f /\ resource_fault f).
Proof.
  destruct s_system_ok as (s & E & H). exists s. split; [exact E|]. intros chs Hn.
  destruct (H chs) as [(x & Ex & _)|[Hf|(chs1 & y & ch & (chs2 & ->) & E1 & E2 & _)]]; [eauto|eauto|]. exfalso.
  assert (HR : RInv pt y); [|destruct HR; congruence].
  eapply srun_RInv; [|apply RInv0|exact E1]. intros Hi. apply Hn. apply in_app_iff. now left.
Qed.
Lemma s_reach_inv x : s_reachable x -> SInv x.
Proof.
  intros (s & chs & Es & Ex). destruct s_system_ok as (s' & E & H).
  assert (s' = s) by congruence. subst s'.
  destruct (H chs) as [(x' & Ex' & HC)|[(f & Ef & _)|(chs1 & y & ch & _ & _ & _ & _ & Ef)]]; congruence.
Qed.

(** The state of the kernel, all that is held put together. *)
Definition sflat (x : sconf) : conf := mkC (u_s x) (sled_all x) [] (u_log x).
Lemma sflat_inv x : SInv x -> CInv (sflat x).
Proof. intros []. constructor; auto. exact I. Qed.

Lemma s_reach_EInv x : s_reachable x -> EInv x.
Proof.
  intros (s & chs & _ & Ex). eapply srun_EInv; [|exact Ex].
  split; [intros t []|]. intros [|i] j t u H; discriminate.
Qed.
Lemma s_dispatching x : s_reachable x -> (length (st_dispatching x) <= 1)%nat.
Proof.
  intros H. apply one_dispatch. now apply s_reach_EInv.
Qed.

(** *** Waking up *)
Lemma st_no_lost_wakeup x o : SInv x -> st_idle x -> ao_view (u_s x) o <> [] -> 0 < u_sem x.
Proof.
  intros HT (t & Ht & Em & Hw) Hv. apply In_nth_error in Ht. destruct Ht as [i Ht].
  destruct (si_bot _ _ _ _ _ _ _ _ HT i t Ht Em) as [[E E']|(up & f & E & H1 & H2)].
  - destruct Hw as [Hw|(up & f & Eg & _)]; [congruence|]. rewrite E in Eg. destruct up; discriminate.
  - destruct Hw as [Hw|(up' & g & Eg & Ep)].
    + destruct (H1 Hw) as (_ & _ & H). exact (H o Hv).
    + rewrite Eg in E. apply app_inj_tail in E. destruct E as [_ <-].
      destruct H2 as [H2|[H2|[H2|[H2|[_ H2]]]]]; [| | | |exact (H2 o Hv)]; destruct Ep as [Ep|Ep]; rewrite Ep in H2; try discriminate.
      * inversion H2.
      * inversion H2 as [|u k Hk|]; subst. inversion Hk.
Qed.

(** *** The thread of rkh_fwk_enter going on by itself *)
Notation step := (sstep c pt statics true).
Notation run := (srun c pt statics true).
Lemma slone_atom x i main act led f below s' labs p' : SInv x -> u_end x = false ->
  nth_error (u_thr x) i = Some (mkSH main false (mkTF act led (Atom f) :: below)) -> f (u_s x) = Ok (s', labs, p') ->
  (forall a, refs s' a + cnt (filter is_right (fold_left led_step labs led)) (LRef a) <= refs (u_s x) a + cnt led (LRef a))%nat ->
  exists x', step x (SAct i SGo) = Ok x' /\ SInv x' /\ u_s x' = s' /\ u_run x' = u_run x /\ u_end x' = false /\
    nth_error (u_thr x') i = Some (mkSH main false (mkTF act (filter is_right (fold_left led_step labs led)) p' :: below)) /\
    u_log x' = u_log x ++ map EL labs ++ user_of p'.
Proof.
  intros HT He Ht Ef Hle. set (led' := filter is_right (fold_left led_step labs led)) in *.
  set (x' := mkSC s' (fold_left (sem_up pt) labs (u_sem x)) (u_run x) false (u_led x)
                (put_thr x i (mkSH main false (mkTF act led' p' :: below))) (u_log x ++ map EL labs ++ user_of p')).
  assert (E : step x (SAct i SGo) = Ok x').
  { cbn [sstep]. rewrite Ht. cbn [sh_wait sh_stk sh_main tf_p tf_led tf_act]. rewrite He, Ef. cbn zeta. fold led'. fold x'.
    rewrite not_over; [reflexivity|]. intros a Ha.
    pose proof (si_b _ _ _ _ _ _ _ _ HT a ltac:(intros Hs; apply is_static_stat in Hs; congruence)) as Hb.
    rewrite tot_holders in Hb. specialize (Hle a).
    assert (El : (cnt (sled_all x') (LRef a) + cnt led (LRef a) = cnt (sled_all x) (LRef a) + cnt led' (LRef a))%nat).
    { unfold sled_all, x', put_thr. cbn [u_thr u_led]. rewrite !cnt_app.
      pose proof (scnt_upd _ _ _ (mkSH main false (mkTF act led' p' :: below)) (LRef a) Ht) as H.
      rewrite !scnt_top in H. cbn [tf_led] in H. lia. }
    unfold holders in *. unfold refs in Hle. lia. }
  exists x'. split; [exact E|]. split; [|split; [reflexivity|split; [reflexivity|split; [reflexivity|split; [|reflexivity]]]]].
  - destruct (sinv x (SAct i SGo) HT) as [(x2 & E2 & H2)|[(f2 & E2 & _)|[E2 _]]];
      rewrite E in E2; [|discriminate|discriminate]. injection E2 as <-. exact H2.
  - cbn [u_thr x']. apply nth_upd_eq. eapply nth_some_lt; eauto.
Qed.
Lemma slone_user x i main act led u k below : SInv x ->
  nth_error (u_thr x) i = Some (mkSH main false (mkTF act led (User u k) :: below)) ->
  exists x', step x (SAct i SGo) = Ok x' /\ SInv x' /\ u_s x' = u_s x /\ u_run x' = u_run x /\ u_end x' = u_end x /\
    nth_error (u_thr x') i = Some (mkSH main false (mkTF false led k :: below)) /\ u_log x' = u_log x ++ user_of k.
Proof.
  intros HT Ht. destruct (sinv x (SAct i SGo) HT) as [(x2 & E2 & H2)|[(f2 & E2 & _)|[E2 _]]];
    pose proof E2 as E3; cbn [sstep] in E3; rewrite Ht in E3; cbn [sh_wait sh_stk tf_p] in E3; try discriminate.
  exists x2. split; [exact E2|]. split; [exact H2|]. injection E3 as <-. cbn [u_s u_run u_end u_thr u_log].
  split; [reflexivity|]. split; [reflexivity|]. split; [reflexivity|]. split; [|reflexivity].
  apply nth_upd_eq. eapply nth_some_lt; eauto.
Qed.
(** The loop goes round, or waits. *)
Lemma slone_ret x i act led v : SInv x -> u_run x = true ->
  nth_error (u_thr x) i = Some (mkSH true false [mkTF act led (Ret v)]) -> v <> 2 ->
  exists x', step x (SAct i SGo) = Ok x' /\ SInv x' /\ u_s x' = u_s x /\ u_run x' = true /\ u_end x' = u_end x /\
    nth_error (u_thr x') i = Some (if v =? 1 then mkSH true true [mkTF false [] (Ret 0)]
                                   else mkSH true false [mkTF false [] (st_turn c)]) /\ u_log x' = u_log x.
Proof.
  intros HT Hr Ht Hv. destruct (sinv x (SAct i SGo) HT) as [(x2 & E2 & H2)|[(f2 & E2 & _)|[E2 _]]];
    pose proof E2 as E3; cbn [sstep] in E3; rewrite Ht in E3; cbn [sh_wait sh_stk sh_main tf_p] in E3; cbv zeta in E3;
    destruct (N.eqb_spec v 1) as [->|Hv1]; try discriminate.
  - exists x2. split; [exact E2|]. split; [exact H2|]. injection E3 as <-. cbn [u_s u_run u_end u_thr u_log].
    split; [reflexivity|]. split; [exact Hr|]. split; [reflexivity|]. split; [|reflexivity].
    apply nth_upd_eq. eapply nth_some_lt; eauto.
  - exists x2. split; [exact E2|]. split; [exact H2|]. destruct (N.eqb_spec v 2) as [|_]; [contradiction|].
    rewrite Hr in E3. cbn [negb] in E3. rewrite orb_false_r in E3. injection E3 as <-. cbn [u_s u_run u_end u_thr u_log].
    split; [reflexivity|]. split; [reflexivity|]. split; [reflexivity|]. split; [|reflexivity].
    apply nth_upd_eq. eapply nth_some_lt; eauto.
Qed.
Lemma srun_cons x h t y : step x h = Ok y -> run x (h :: t) = run y t.
Proof. intros E. cbn [srun]. now rewrite E. Qed.
Lemma srun_app x a b : run x (a ++ b) = do y <- run x a; run y b.
Proof.
  revert x. induction a as [|h t IH]; intros x; cbn [app srun bind]; [reflexivity|].
  destruct (step x h); cbn [bind]; [apply IH|reflexivity].
Qed.

(** A turn that finds something. *)
Lemma slone_turn x i o0 : SInv x -> u_end x = false -> at_top c x i -> ao_view (u_s x) o0 <> [] ->
  exists o e w a x', ao_view (u_s x) o = e :: w /\ nth_error (k_ao (u_s x)) o = Some a /\
    (forall o' a', nth_error (k_ao (u_s x)) o' = Some a' -> ao_view (u_s x) o' <> [] -> ao_prio a <= ao_prio a') /\
    run x [SAct i SGo; SAct i SGo] = Ok x' /\ SInv x' /\ u_run x' = u_run x /\ u_end x' = false /\
    nth_error (u_thr x') i = Some (mkSH true false [mkTF false [LRef e] (User (UDispatch o e) (fwk_gc c e))]) /\
    u_log x' = u_log x ++ [EL (KSel o); EL (KGet o e); EU (UDispatch o e)] /\
    (forall o', ao_view (u_s x') o' = if Nat.eqb o' o then w else ao_view (u_s x) o') /\
    map ao_prio (k_ao (u_s x')) = map ao_prio (k_ao (u_s x)).
Proof.
  intros HT He Ht Hne0. pose proof (ki_q _ _ _ _ _ _ _ _ _ (si_k _ _ _ _ _ _ _ _ HT)) as HQ. set (s := u_s x) in *.
  destruct (rg_isReady (k_rg s)) eqn:Er.
  2:{ exfalso. apply Hne0. unfold ao_view. destruct (nth_error (k_ao s) o0) as [a|] eqn:Ea; [|reflexivity].
      eapply KQ_idle; eauto using Hmax, Hasrt. }
  destruct (KQ_highest c prios (length dqs) Hmax Hasrt _ _ _ _ _ HQ Er) as (p & o & a & E1 & E2 & Ho & Ep & Hreg & Hne & Hleast).
  destruct (q_view (ao_q a)) as [|e w] eqn:Hv; [congruence|].
  destruct (KQ_get c prios (length dqs) Hmax Hasrt _ _ _ _ _ o a e w HQ Ho Hreg Hv) as (q' & g' & E & Hv' & _ & HQ').
  set (s' := set_rg (set_ao s (upd (k_ao s) o (mkAo (ao_prio a) q'))) g').
  assert (Hrefs : forall y, (refs s' y + (if N.eq_dec e y then 1 else 0) = refs s y)%nat).
  { intros y. pose proof (refs_ao _ s o a q' y Ho eq_refl) as H1. rewrite Hv, Hv' in H1. cbn [count_occ] in H1.
    change (refs s' y) with (refs (set_ao s (upd (k_ao s) o (mkAo (ao_prio a) q'))) y).
    destruct (N.eq_dec e y); lia. }
  destruct (slone_atom x i true false [] _ [] s [KSel o] (sma_get c o (fun e => User (UDispatch o e) (fwk_gc c e))) HT He Ht)
    as (x1 & A1 & A2 & A3 & A4 & A5 & A6 & A7).
  { cbv beta. fold s. rewrite Er, E1. cbn [bind]. rewrite E2. reflexivity. }
  { intros y. reflexivity. }
  change (filter is_right (fold_left led_step [KSel o] [])) with (@nil litem) in A6.
  destruct (slone_atom x1 i true false [] _ [] s' [KGet o e] (User (UDispatch o e) (fwk_gc c e)) A2 A5 A6)
    as (x2 & B1 & B2 & B3 & B4 & B5 & B6 & B7).
  { cbv beta. rewrite A3. rewrite (proj2 (rd_ok _ _ _) Ho). cbn [bind]. rewrite E. cbn [bind].
    rewrite wr_lt by (eapply nth_some_lt; eauto). cbn [bind]. rewrite rassert_true. reflexivity. }
  { intros y. cbn [fold_left led_step filter is_right]. rewrite A3. specialize (Hrefs y). rewrite !cnt_cons.
    destruct (N.eq_dec e y), (litem_dec (LRef e) (LRef y)); try congruence; cbn [cnt count_occ]; lia. }
  exists o, e, w, a, x2.
  split; [unfold ao_view; now rewrite Ho|]. split; [exact Ho|]. split.
  { intros o' a' Ho' Hv2. rewrite Ep. apply (Hleast o' a' Ho'). unfold ao_view in Hv2. now rewrite Ho' in Hv2. }
  split; [rewrite (srun_cons _ _ _ _ A1), (srun_cons _ _ _ _ B1); reflexivity|].
  split; [exact B2|]. split; [congruence|]. split; [exact B5|]. split; [exact B6|].
  split; [rewrite B7, A7, <- app_assoc; reflexivity|]. rewrite B3. split.
  - intros o'. unfold ao_view, s'. cbn [k_ao set_rg set_ao]. destruct (Nat.eqb_spec o' o) as [->|Hn].
    + rewrite nth_upd_eq by (eapply nth_some_lt; eauto). exact Hv'.
    + now rewrite nth_upd_ne by auto.
  - unfold s'. cbn [k_ao set_rg set_ao]. clear - Ho. revert o Ho.
    induction (k_ao s) as [|h t IH]; intros [|o] Ho; try discriminate; cbn [upd map]; [injection Ho as ->; reflexivity|].
    f_equal. now apply IH.
Qed.

Lemma st_selects x i o0 : SInv x -> u_end x = false -> at_top c x i -> ao_view (u_s x) o0 <> [] ->
  exists o a x', step x (SAct i SGo) = Ok x' /\ u_log x' = u_log x ++ [EL (KSel o)] /\
    nth_error (k_ao (u_s x)) o = Some a /\ ao_view (u_s x) o <> [] /\
    forall o' a', nth_error (k_ao (u_s x)) o' = Some a' -> ao_view (u_s x) o' <> [] -> ao_prio a <= ao_prio a'.
Proof.
  intros HT He Ht Hne0. pose proof (ki_q _ _ _ _ _ _ _ _ _ (si_k _ _ _ _ _ _ _ _ HT)) as HQ.
  destruct (rg_isReady (k_rg (u_s x))) eqn:Er.
  2:{ exfalso. apply Hne0. unfold ao_view. destruct (nth_error (k_ao (u_s x)) o0) as [a|] eqn:Ea; [|reflexivity].
      eapply KQ_idle; eauto using Hmax, Hasrt. }
  destruct (KQ_highest c prios (length dqs) Hmax Hasrt _ _ _ _ _ HQ Er) as (p & o & a & E1 & E2 & Ho & Ep & Hreg & Hne & Hleast).
  destruct (slone_atom x i true false [] _ [] (u_s x) [KSel o] (sma_get c o (fun e => User (UDispatch o e) (fwk_gc c e))) HT He Ht)
    as (x1 & A1 & A2 & A3 & A4 & A5 & A6 & A7).
  { cbv beta. rewrite Er, E1. cbn [bind]. rewrite E2. reflexivity. }
  { intros y. reflexivity. }
  exists o, a, x1. split; [exact A1|]. split; [exact A7|]. split; [exact Ho|]. split; [unfold ao_view; now rewrite Ho|].
  intros o' a' Ho' Hv. rewrite Ep. apply (Hleast o' a' Ho'). unfold ao_view in Hv. now rewrite Ho' in Hv.
Qed.
Lemma slone_gc x i o e : SInv x -> u_end x = false -> u_run x = true ->
  nth_error (u_thr x) i = Some (mkSH true false [mkTF false [LRef e] (User (UDispatch o e) (fwk_gc c e))]) ->
  exists n x' labs, run x (repeat (SAct i SGo) n) = Ok x' /\ SInv x' /\ u_run x' = true /\ u_end x' = false /\ at_top c x' i /\
    same_queues (u_s x) (u_s x') /\ u_log x' = u_log x ++ map EL labs.
Proof.
  intros HT He Hr Ht. pose proof (si_k _ _ _ _ _ _ _ _ HT) as HI. set (s := u_s x) in *. set (l := sled_all x) in *.
  assert (Hin : In (LRef e) l).
  { unfold l, sled_all. apply in_app_iff. left. apply in_concat. eexists. split.
    - apply in_map_iff. eexists. split; [reflexivity|]. eapply nth_error_In; exact Ht.
    - now left. }
  assert (Hpos : (0 < holders s l e)%nat).
  { unfold holders. apply cnt_in in Hin. lia. }
  destruct (slone_user x i true false [LRef e] _ _ [] HT Ht) as (x1 & E1 & T1 & S1 & R1 & N1 & H1 & L1).
  cbn [user_of fwk_gc] in L1. rewrite app_nil_r in L1. fold s in S1. rewrite Hr in R1. rewrite He in N1.
  assert (Hfin : forall y act led, SInv y -> u_run y = true -> u_end y = false ->
            nth_error (u_thr y) i = Some (mkSH true false [mkTF act led (Ret 0)]) ->
            exists y', step y (SAct i SGo) = Ok y' /\ SInv y' /\ u_s y' = u_s y /\ u_run y' = true /\ u_end y' = false /\
              at_top c y' i /\ u_log y' = u_log y).
  { intros y act led Ty Ry Ny Hy.
    destruct (slone_ret y i act led 0 Ty Ry Hy ltac:(discriminate)) as (y' & A & B & C & D & F & G & H).
    exists y'. split; [exact A|]. split; [exact B|]. split; [exact C|]. split; [exact D|]. split; [congruence|]. split; [exact G|exact H]. }
  destruct (held_event c mem0 statics prios dqs pools rs s l e HI Hpos) as [Hst|[j Hbk]].
  - destruct (gc_static c mem0 statics prios dqs pools rs SO s e ltac:(eauto) Hst) as [sig Eh].
    destruct (slone_atom x1 i true false [LRef e] _ [] s [] (Ret 0) T1 N1 H1) as (x2 & E2 & T2 & S2 & R2 & N2 & H2 & L2).
    { cbv beta. rewrite S1, Eh. reflexivity. }
    { intros a. rewrite S1. reflexivity. }
    destruct (Hfin x2 _ _ T2 ltac:(congruence) N2 H2) as (x3 & E3 & T3 & S3 & R3 & N3 & H3 & L3).
    exists 3%nat, x3, []. cbn [repeat]. rewrite (srun_cons _ _ _ _ E1), (srun_cons _ _ _ _ E2), (srun_cons _ _ _ _ E3).
    split; [reflexivity|]. split; [exact T3|]. split; [exact R3|]. split; [exact N3|]. split; [exact H3|]. split; [rewrite S3, S2; repeat split|].
    rewrite L3, L2, L1. cbn [map user_of]. now rewrite !app_nil_r.
  - assert (Hns : is_static statics e = false).
    { destruct (is_static statics e) eqn:Es; [|reflexivity]. apply is_static_stat in Es. exfalso.
      eapply (pb_stat _ _ _ OK); [apply inpool_block; exact Hbk|exact Es]. }
    destruct (Nat.eq_dec (holders s l e) 1) as [E|E].
    + destruct (gc_last c mem0 statics prios dqs pools rs SO s l e j HI Hin Hbk E)
        as ((sig & Eh) & Em & Hlt & Hi255 & _ & p & p' & m' & Hp & Ep & _ & _ & _ & _).
      set (s' := set_pools (set_mem s m') (upd (k_ep s) j p') (k_mgr s) (k_next s)) in *.
      edestruct (slone_atom x1 i true false [LRef e]) as (x2 & E2 & T2 & S2 & R2 & N2 & H2 & L2); [exact T1|exact N1|exact H1| | |].
      { cbv beta. rewrite S1, Eh. cbn [bind]. reflexivity. }
      { intros a. rewrite S1. reflexivity. }
      change (1 =? 0) with false in H2. cbv iota in H2.
      edestruct (slone_atom x2 i true false [LRef e]) as (x3 & E3 & T3 & S3 & R3 & N3 & H3 & L3); [exact T2|exact N2|exact H2| | |].
      { cbv beta. rewrite S2, Eh. cbn [bind]. change (1 <? 1) with false. cbv iota zeta.
        rewrite u8_idx by exact Hi255.
        replace (N.of_nat j <? k_next s) with true by (symmetry; now apply N.ltb_lt).
        rewrite rassert_true. cbn [bind]. rewrite Nat2N.id, Em. cbn [bind]. reflexivity. }
      { intros a. rewrite S2. cbn [fold_left led_step rem1 filter is_right].
        destruct (litem_dec (LRef e) (LRef e)) as [_|]; [|congruence]. cbn [filter is_right]. rewrite cnt_cons.
        destruct litem_dec; [discriminate|]. cbn [cnt count_occ]. lia. }
      cbn [fold_left led_step rem1] in H3. destruct (litem_dec (LRef e) (LRef e)) as [_|]; [|congruence].
      cbn [filter is_right] in H3.
      edestruct (slone_atom x3 i true false [LDead j e]) as (x4 & E4 & T4 & S4 & R4 & N4 & H4 & L4); [exact T3|exact N3|exact H3| | |].
      { cbv beta. rewrite S3, Ep. cbn [bind]. reflexivity. }
      { intros a. rewrite S3. cbn [fold_left led_step rem1].
        destruct (litem_dec (LDead j e) (LDead j e)) as [_|]; [|congruence]. cbn [filter cnt count_occ].
        change (refs s' a) with (refs s a). lia. }
      destruct (Hfin x4 _ _ T4 ltac:(congruence) N4 H4) as (x5 & E5 & T5 & S5 & R5 & N5 & H5 & L5).
      exists 5%nat, x5, [KDead j e; KFree j e]. cbn [repeat].
      rewrite (srun_cons _ _ _ _ E1), (srun_cons _ _ _ _ E2), (srun_cons _ _ _ _ E3), (srun_cons _ _ _ _ E4), (srun_cons _ _ _ _ E5).
      split; [reflexivity|]. split; [exact T5|]. split; [exact R5|]. split; [exact N5|]. split; [exact H5|]. split; [rewrite S5, S4; repeat split|].
      rewrite L5, L4, L3, L2, L1. cbn [map user_of app]. rewrite ?app_nil_r, <- ?app_assoc. reflexivity.
    + destruct (gc_more c mem0 statics prios dqs pools rs SO s l e j HI Hin Hbk) as (sig & m' & Eh & Ew & _ & _).
      { pose proof (si_b _ _ _ _ _ _ _ _ HT e ltac:(intros Hs; apply is_static_stat in Hs; congruence)) as Hb.
        rewrite tot_holders in Hb. fold s l in Hb. lia. }
      edestruct (slone_atom x1 i true false [LRef e]) as (x2 & E2 & T2 & S2 & R2 & N2 & H2 & L2); [exact T1|exact N1|exact H1| | |].
      { cbv beta. rewrite S1, Eh. cbn [bind]. reflexivity. }
      { intros a. rewrite S1. reflexivity. }
      destruct (N.eqb_spec (N.of_nat (holders s l e)) 0) as [|_]; [lia|].
      edestruct (slone_atom x2 i true false [LRef e]) as (x3 & E3 & T3 & S3 & R3 & N3 & H3 & L3); [exact T2|exact N2|exact H2| | |].
      { cbv beta. rewrite S2, Eh. cbn [bind].
        replace (1 <? N.of_nat (holders s l e)) with true by (symmetry; apply N.ltb_lt; lia).
        cbv iota. rewrite Ew. cbn [bind]. reflexivity. }
      { intros a. rewrite S2. cbn [fold_left led_step rem1].
        destruct (litem_dec (LRef e) (LRef e)) as [_|]; [|congruence]. cbn [filter cnt count_occ].
        change (refs (set_mem s m') a) with (refs s a). lia. }
      destruct (Hfin x3 _ _ T3 ltac:(congruence) N3 H3) as (x4 & E4 & T4 & S4 & R4 & N4 & H4 & L4).
      exists 4%nat, x4, [KDec e]. cbn [repeat].
      rewrite (srun_cons _ _ _ _ E1), (srun_cons _ _ _ _ E2), (srun_cons _ _ _ _ E3), (srun_cons _ _ _ _ E4).
      split; [reflexivity|]. split; [exact T4|]. split; [exact R4|]. split; [exact N4|]. split; [exact H4|]. split; [rewrite S4, S3; repeat split|].
      rewrite L4, L3, L2, L1. cbn [map user_of app]. rewrite ?app_nil_r, <- ?app_assoc. reflexivity.
Qed.

(** All queues are drained, the most urgent first. *)
Lemma for_obj_cons o p l : for_obj o (p :: l) = (if Nat.eqb (fst p) o then [snd p] else []) ++ for_obj o l.
Proof. unfold for_obj. cbn [filter]. destruct (Nat.eqb (fst p) o); reflexivity. Qed.
Lemma prio_of_nth s o a : nth_error (k_ao s) o = Some a -> prio_of s o = ao_prio a.
Proof. intros H. unfold prio_of. apply nth_error_nth. now apply map_nth_error. Qed.
Lemma view_ao s o : ao_view s o <> [] -> exists a, nth_error (k_ao s) o = Some a.
Proof. unfold ao_view. destruct (nth_error (k_ao s) o) as [a|]; [eauto|congruence]. Qed.
Lemma slone_drain : forall n x i, SInv x -> u_end x = false -> u_run x = true -> at_top c x i -> pending (u_s x) = n ->
  exists k x' new, run x (repeat (SAct i SGo) k) = Ok x' /\ SInv x' /\ u_run x' = true /\ u_end x' = false /\ asleep x' i /\
    (forall o, ao_view (u_s x') o = []) /\
    dispatches (u_log x') = dispatches (u_log x) ++ new /\
    (forall o, for_obj o new = ao_view (u_s x) o) /\
    StronglySorted (fun a b => prio_of (u_s x) (fst a) <= prio_of (u_s x) (fst b)) new.
Proof.
  induction n as [|n IH]; intros x i HT He Hr Ht Hn.
  - pose proof (proj1 (pending_zero _) Hn) as Hz.
    pose proof (ki_q _ _ _ _ _ _ _ _ _ (si_k _ _ _ _ _ _ _ _ HT)) as HQ.
    destruct (slone_atom x i true false [] _ [] (u_s x) [] (User UIdle (Ret 1)) HT He Ht) as (x1 & E1 & T1 & S1 & R1 & N1 & H1 & L1).
    { cbv beta. destruct (rg_isReady (k_rg (u_s x))) eqn:Er; [|reflexivity].
      destruct (KQ_highest c prios (length dqs) Hmax Hasrt _ _ _ _ _ HQ Er) as (p & o & a & _ & _ & Ho & _ & _ & Hne & _).
      exfalso. apply Hne. specialize (Hz o). unfold ao_view in Hz. now rewrite Ho in Hz. }
    { intros y. reflexivity. }
    destruct (slone_user x1 i true false [] _ _ [] T1 H1) as (x2 & E2 & T2 & S2 & R2 & N2 & H2 & L2).
    destruct (slone_ret x2 i false [] 1 T2 ltac:(congruence) H2 ltac:(discriminate)) as (x3 & E3 & T3 & S3 & R3 & N3 & H3 & L3).
    exists 3%nat, x3, []. cbn [repeat]. rewrite (srun_cons _ _ _ _ E1), (srun_cons _ _ _ _ E2), (srun_cons _ _ _ _ E3).
    split; [reflexivity|]. split; [exact T3|]. split; [exact R3|]. split; [congruence|]. split; [exact H3|].
    split; [intros o; rewrite S3, S2, S1; apply Hz|]. split; [|split; [intros o; now rewrite Hz|constructor]].
    rewrite L3, L2, L1, !dispatches_app. cbn. now rewrite !app_nil_r.
  - assert (Hne : exists o0, ao_view (u_s x) o0 <> []).
    { clear - Hn. unfold pending, ao_view in *. induction (k_ao (u_s x)) as [|a t IH]; [discriminate|].
      cbn [map concat] in Hn. rewrite app_length in Hn. destruct (q_view (ao_q a)) eqn:E.
      - destruct IH as [o Ho]; [exact Hn|]. now exists (S o).
      - exists 0%nat. cbn [nth_error]. congruence. }
    destruct Hne as [o0 Hne].
    destruct (slone_turn x i o0 HT He Ht Hne) as (o & e & w & a & x1 & Hv & Ho & Hleast & E1 & T1 & R1 & N1 & H1 & L1 & V1 & P1).
    destruct (slone_gc x1 i o e T1 N1 ltac:(congruence) H1) as (k2 & x2 & labs & E2 & T2 & R2 & N2 & H2 & Q2 & L2).
    assert (V2 : forall o', ao_view (u_s x2) o' = if Nat.eqb o' o then w else ao_view (u_s x) o').
    { intros o'. rewrite <- V1. destruct Q2 as (Eq & _). unfold ao_view. now rewrite Eq. }
    assert (P2 : map ao_prio (k_ao (u_s x2)) = map ao_prio (k_ao (u_s x))).
    { rewrite <- P1. destruct Q2 as (Eq & _). now rewrite Eq. }
    destruct (IH x2 i T2 N2 R2 H2) as (k3 & x3 & new & E3 & T3 & R3 & N3 & H3 & V3 & L3 & F3 & D3).
    { (* one event less *)
      assert (Hl : (pending (u_s x2) + 1 = pending (u_s x))%nat); [|lia].
      assert (Hlen : length (k_ao (u_s x2)) = length (k_ao (u_s x))).
      { rewrite <- (map_length ao_prio), P2, map_length. reflexivity. }
      unfold pending. clear - V2 Hv Ho Hlen. unfold ao_view in *. revert o Ho V2 Hv Hlen.
      generalize (k_ao (u_s x)) as L1, (k_ao (u_s x2)) as L2. induction L1 as [|h t IH]; intros L2 [|o] Ho V2 Hv Hlen; try discriminate.
      - destruct L2 as [|h2 t2]; [discriminate|]. cbn [map concat]. rewrite !app_length. pose proof (V2 0%nat) as V0. cbn [nth_error Nat.eqb] in V0, Hv.
        rewrite V0, Hv. cbn [length].
        assert (Et : concat (map (fun a => q_view (ao_q a)) t2) = concat (map (fun a => q_view (ao_q a)) t)).
        { assert (Vt : forall k, match nth_error t2 k with Some a => q_view (ao_q a) | None => [] end =
                             match nth_error t k with Some a => q_view (ao_q a) | None => [] end) by (intros k; exact (V2 (S k))).
          cbn [length] in Hlen. assert (Hl : length t2 = length t) by lia. clear - Vt Hl. revert t2 Vt Hl.
          induction t as [|a t IH]; intros [|b t2] Vt Hl; try discriminate; [reflexivity|]. cbn [map concat]. f_equal; [exact (Vt 0%nat)|].
          apply IH; [intros k; exact (Vt (S k))|cbn [length] in Hl; lia]. }
        rewrite Et. lia.
      - destruct L2 as [|h2 t2]; [discriminate|]. cbn [map concat]. rewrite !app_length. pose proof (V2 0%nat) as V0. cbn [nth_error Nat.eqb] in V0, Hv, Ho.
        rewrite V0. enough ((length (concat (map (fun a => q_view (ao_q a)) t2)) + 1 = length (concat (map (fun a => q_view (ao_q a)) t)))%nat) by lia.
        apply (IH t2 o Ho); [intros k; exact (V2 (S k))|exact Hv|cbn [length] in Hlen; lia]. }
    exists (2 + (k2 + k3))%nat, x3, ((o, e) :: new).
    split. { rewrite !repeat_app, srun_app. change (repeat (SAct i SGo) 2) with [SAct i SGo; SAct i SGo]. rewrite E1. cbn [bind].
             rewrite srun_app, E2. exact E3. }
    split; [exact T3|]. split; [exact R3|]. split; [exact N3|]. split; [exact H3|]. split; [exact V3|].
    split. { rewrite L3, L2, L1, !dispatches_app, dispatches_EL. cbn [dispatches map concat app]. rewrite app_nil_r, <- !app_assoc. reflexivity. }
    split.
    { intros o'. rewrite for_obj_cons, F3, V2. cbn [fst snd]. rewrite (Nat.eqb_sym o o'). destruct (Nat.eqb_spec o' o) as [->|Hne']; [|reflexivity].
      now rewrite Hv. }
    constructor.
    + unfold prio_of in *. rewrite P2 in D3. exact D3.
    + apply Forall_forall. intros [o' e'] Hin. cbn [fst].
      assert (Hv' : ao_view (u_s x) o' <> []).
      { assert (Hf : In e' (for_obj o' new)).
        { unfold for_obj. apply in_map_iff. exists (o', e'). split; [reflexivity|]. apply filter_In. split; [exact Hin|]. apply Nat.eqb_refl. }
        rewrite F3, V2 in Hf. destruct (Nat.eqb_spec o' o) as [->|]; [rewrite Hv; discriminate|].
        intros E. rewrite E in Hf. destruct Hf. }
      destruct (view_ao _ _ Hv') as [a' Ha']. rewrite (prio_of_nth _ _ _ Ho), (prio_of_nth _ _ _ Ha'). eauto.
Qed.

Lemma swake x i : SInv x -> asleep x i -> 0 < u_sem x -> u_run x = true -> u_end x = false ->
  exists x', run x [SAct i SWake; SAct i SGo] = Ok x' /\ SInv x' /\ at_top c x' i /\ u_run x' = true /\ u_end x' = false /\
    u_s x' = u_s x /\ u_log x' = u_log x.
Proof.
  intros HT Ht Hs Hr He. destruct (sinv x (SAct i SWake) HT) as [(x1 & E1 & T1)|[(f & E1 & _)|[E1 _]]];
    pose proof E1 as E2; cbn [sstep] in E2; rewrite Ht in E2; cbn [sh_wait sh_stk sh_main] in E2; unfold sem_down in E2;
    destruct (N.eqb_spec (u_sem x) 0) as [|_]; try lia; try discriminate.
  injection E2 as <-. set (x1 := mkSC _ _ _ _ _ _ _) in *.
  assert (H1 : nth_error (u_thr x1) i = Some (mkSH true false [mkTF false [] (Ret 0)])).
  { apply nth_upd_eq. eapply nth_some_lt; eauto. }
  destruct (slone_ret x1 i false [] 0 T1 Hr H1 ltac:(discriminate)) as (x2 & E2 & T2 & S2 & R2 & N2 & H2 & L2).
  exists x2. split; [rewrite (srun_cons _ _ _ _ E1), (srun_cons _ _ _ _ E2); reflexivity|]. split; [exact T2|]. split; [exact H2|].
  split; [exact R2|]. split; [exact (eq_trans N2 He)|]. split; [exact S2|exact L2].
Qed.

Lemma st_drains x i o : SInv x -> (at_top c x i \/ asleep x i) -> u_run x = true -> u_end x = false -> ao_view (u_s x) o <> [] ->
  exists chs x' new, (forall ch, In ch chs -> ch = SAct i SGo \/ ch = SAct i SWake) /\ run x chs = Ok x' /\ asleep x' i /\
    (forall o, ao_view (u_s x') o = []) /\
    dispatches (u_log x') = dispatches (u_log x) ++ new /\ (forall o, for_obj o new = ao_view (u_s x) o) /\
    StronglySorted (fun a b => prio_of (u_s x) (fst a) <= prio_of (u_s x) (fst b)) new.
Proof.
  intros HT [Ht|Ht] Hr He Hv.
  - destruct (slone_drain _ x i HT He Hr Ht eq_refl) as (k & x' & new & E & _ & _ & _ & H3 & V & L & F & D).
    exists (repeat (SAct i SGo) k), x', new. split; [|auto 8]. intros ch Hc. left. eapply repeat_spec; eauto.
  - assert (Hs : 0 < u_sem x).
    { eapply (st_no_lost_wakeup x o HT); [|exact Hv]. eexists. split; [eapply nth_error_In; exact Ht|]. split; [reflexivity|now left]. }
    destruct (swake x i HT Ht Hs Hr He) as (x1 & E1 & T1 & H1 & R1 & N1 & S1 & L1).
    destruct (slone_drain _ x1 i T1 N1 R1 H1 eq_refl) as (k & x' & new & E & _ & _ & _ & H3 & V & L & F & D).
    rewrite S1 in F, D. rewrite L1 in L.
    exists ([SAct i SWake; SAct i SGo] ++ repeat (SAct i SGo) k), x', new. split.
    + intros ch Hc. apply in_app_iff in Hc. destruct Hc as [[<-|[<-|[]]]|Hc]; [now right|now left|]. left. eapply repeat_spec; eauto.
    + rewrite srun_app, E1. auto 8.
Qed.

(** *** After a stop *)
Definition bootp (p : prog) : Prop := p = st_start \/ p = Ret 2.
Definition halting (x : sconf) : Prop :=
  u_run x = false /\ (exists t, In t (u_thr x) /\ sh_main t = true) /\
  (st_early pt = true \/ forall t, In t (u_thr x) -> sh_main t = true -> ~ booting t).
Definition spent (p : prog) : Prop := match p with User _ k => nodisp k | _ => nodisp p end.
Definition sq (t : sthread) : Prop := sh_stk t = [] \/ exists up f, sh_stk t = up ++ [f] /\ spent (tf_p f).
Definition quietD (x : sconf) : Prop := forall t, In t (u_thr x) -> sh_main t = true -> sq t.
Lemma nodisp_spent p : nodisp p -> spent p.
Proof. intros H. destruct H; cbn; auto; now constructor. Qed.
Lemma nodisp_arrive p : nodisp p -> dispatches (user_of p) = [].
Proof. destruct 1 as [| u k Hu |]; try reflexivity. destruct u; try reflexivity. now destruct (Hu o e). Qed.
Lemma spent_atom f s s' labs p' : spent (Atom f) -> f s = Ok (s', labs, p') -> nodisp p'.
Proof. cbn. intros H E. inversion H; subst; eauto. Qed.
Lemma once_arrive p : once p -> dispatches (user_of p) = [] \/ (length (dispatches (user_of p)) = 1%nat /\ spent p).
Proof.
  destruct p as [v|f|u k]; try (left; reflexivity). intros H. apply once_user in H.
  destruct u; try (left; reflexivity). right. split; [reflexivity|exact H].
Qed.
Lemma halt_upd x s n e l log i t t' : halting x -> nth_error (u_thr x) i = Some t -> sh_main t' = sh_main t ->
  (sh_main t = true -> booting t' -> booting t) -> halting (mkSC s n (u_run x) e l (put_thr x i t') log).
Proof.
  intros (H1 & (m & Hm & Em) & H2) Ht Eo Hb. split; [exact H1|]. cbn [u_thr]. unfold put_thr. split.
  - apply In_nth_error in Hm. destruct Hm as [j Hj]. destruct (Nat.eq_dec j i) as [->|Hn].
    + exists t'. split; [|congruence]. eapply nth_error_In. apply nth_upd_eq. eapply nth_some_lt; eauto.
    + exists m. split; [|exact Em]. apply (nth_error_In _ j). rewrite nth_upd_ne by auto. exact Hj.
  - destruct H2 as [H2|H2]; [now left|right]. intros u Hu Eu. apply In_nth_error in Hu. destruct Hu as [j Hj].
    eapply upd_cases in Hj; [|exact Ht]. destruct Hj as [[_ ->]|[_ Hj]].
    + rewrite Eo in Eu. intros Hbo. apply (H2 t); [eapply nth_error_In; eauto|exact Eu|auto].
    + apply H2; [eapply nth_error_In; eauto|exact Eu].
Qed.
Lemma quietD_upd x s n r e l log i t t' : nth_error (u_thr x) i = Some t -> sh_main t' = sh_main t ->
  (sh_main t = true -> sq t -> sq t') -> quietD x -> quietD (mkSC s n r e l (put_thr x i t') log).
Proof.
  intros Ht Eo Hs HQ u Hu Eu. cbn [u_thr] in Hu. apply In_nth_error in Hu. destruct Hu as [j Hj].
  eapply upd_cases in Hj; [|exact Ht]. destruct Hj as [[_ ->]|[_ Hj]].
  - apply Hs; [congruence|]. apply HQ; [eapply nth_error_In; eauto|congruence].
  - apply HQ; [eapply nth_error_In; eauto|exact Eu].
Qed.
Lemma quietD_set x s n r e l log i t t' : EInv x -> nth_error (u_thr x) i = Some t -> sh_main t' = sh_main t ->
  sh_main t = true -> sq t' -> quietD (mkSC s n r e l (put_thr x i t') log).
Proof.
  intros [_ D] Ht Eo Em Hs u Hu Eu. cbn [u_thr] in Hu. apply In_nth_error in Hu. destruct Hu as [j Hj].
  eapply upd_cases in Hj; [|exact Ht]. destruct Hj as [[_ ->]|[Hn Hj]]; [exact Hs|]. destruct Hn. eauto.
Qed.
Lemma phase_next s0 n0 f s s' labs p' : phase c s0 n0 (Atom f) -> f s = Ok (s', labs, p') -> ~ bootp p'.
Proof.
  intros H Ef. assert (Hr : rets0 p' \/ p' = User UIdle (Ret 1)).
  { destruct H as [H|[H|[H|[H|[[H|H] _]]]]]; try discriminate.
    - unfold st_turn in H. injection H as ->. destruct (rg_isReady (k_rg s)) eqn:Er.
      + destruct (rg_findHighest (k_rg s)) as [p|]; [|discriminate]. cbn [bind] in Ef.
        destruct (rd (k_sp s) _) as [[o|]|]; [| |discriminate]; cbn [bind] in Ef.
        * assert (Ep : sma_get c o (fun e => User (UDispatch o e) (fwk_gc c e)) = p') by congruence. rewrite <- Ep. left. apply rets0_get.
        * assert (Ep : Atom (fun _ => Fault (FUB UB_null)) = p') by congruence. rewrite <- Ep. left. constructor. discriminate.
      + injection Ef as <- <- <-. now right.
    - left. inversion H; subst. eauto. }
  destruct Hr as [Hr| ->]; intros [E|E]; try discriminate; subst p'; inversion Hr as [|u k Hk|]; subst; inversion Hk.
Qed.
Lemma phase_past s n u k : phase c s n (User u k) -> bootp k -> bootp (User u k).
Proof.
  intros [H|[H|[H|[H|[[H|H] Ht]]]]] Hk; try discriminate.
  - now left.
  - exfalso. inversion H as [|u' k' Hr|]; subst. destruct Hk; subst k; inversion Hr as [|u' k' Hk|]; subst; inversion Hk.
  - injection H as -> ->. destruct Hk as [Hk|Hk]; discriminate.
Qed.
(** What the frame at the bottom of the stack becomes. *)
Lemma booting_replace main w w' f f' below : (below = [] -> bootp (tf_p f') -> bootp (tf_p f)) ->
  booting (mkSH main w' (f' :: below)) -> booting (mkSH main w (f :: below)).
Proof.
  intros Hf (up & g & E & Hg). cbn [sh_stk] in E. destruct up as [|h up].
  - injection E as -> ->. exists [], f. split; [reflexivity|]. apply Hf; auto.
  - injection E as _ E. exists (f :: up), g. split; [cbn [sh_stk app]; now rewrite E|exact Hg].
Qed.
Lemma booting_push main w w' f g below : booting (mkSH main w' (f :: g :: below)) -> booting (mkSH main w (g :: below)).
Proof.
  intros (up & h & E & Hh). cbn [sh_stk] in E. destruct up as [|h' up]; [discriminate|]. injection E as _ E.
  exists up, h. auto.
Qed.
Lemma booting_pop main w w' f g below : booting (mkSH main w' (g :: below)) -> booting (mkSH main w (f :: g :: below)).
Proof. intros (up & h & E & Hh). cbn [sh_stk] in E. exists (f :: up), h. split; [cbn [sh_stk app]; now rewrite E|exact Hh]. Qed.
Lemma sq_replace main w w' f f' below : (below = [] -> spent (tf_p f) -> spent (tf_p f')) ->
  sq (mkSH main w (f :: below)) -> sq (mkSH main w' (f' :: below)).
Proof.
  intros Hf [E|(up & g & E & Hg)]; [discriminate|]. cbn [sh_stk] in E. right. destruct up as [|h up].
  - injection E as -> ->. exists [], f'. split; [reflexivity|]. auto.
  - injection E as _ E. exists (f' :: up), g. split; [cbn [sh_stk app]; now rewrite E|exact Hg].
Qed.
Lemma sq_push main w w' f g below : sq (mkSH main w (g :: below)) -> sq (mkSH main w' (f :: g :: below)).
Proof.
  intros [E|(up & h & E & Hh)]; [discriminate|]. cbn [sh_stk] in E. right. exists (f :: up), h.
  split; [cbn [sh_stk app]; now rewrite E|exact Hh].
Qed.
Lemma sq_pop main w w' f g below : sq (mkSH main w (f :: g :: below)) -> sq (mkSH main w' (g :: below)).
Proof.
  intros [E|(up & h & E & Hh)]; [discriminate|]. cbn [sh_stk] in E. right. destruct up as [|h' up]; [discriminate|].
  injection E as _ E. exists up, h. auto.
Qed.

Definition wind (x x' : sconf) : Prop :=
  halting x' /\ exists new, dispatches (u_log x') = dispatches (u_log x) ++ new /\
    (new = [] /\ (quietD x -> quietD x') \/ length new = 1%nat /\ quietD x' /\ ~ quietD x).
Lemma wind_same x : halting x -> wind x x.
Proof. intros H. split; [exact H|]. exists []. rewrite app_nil_r. auto. Qed.
Lemma wind_quiet x s n e l i t t' add : halting x -> nth_error (u_thr x) i = Some t -> sh_main t' = sh_main t ->
  (sh_main t = true -> booting t' -> booting t) -> (sh_main t = true -> sq t -> sq t') -> dispatches add = [] ->
  wind x (mkSC s n (u_run x) e l (put_thr x i t') (u_log x ++ add)).
Proof.
  intros HH Ht Em Hb Hq Ha. split; [eapply halt_upd; eauto|]. exists [].
  cbn [u_log]. rewrite dispatches_app, Ha. split; [reflexivity|]. left. split; [reflexivity|]. eapply quietD_upd; eauto.
Qed.
Lemma sstep_wind x ch x' : SInv x -> EInv x -> halting x -> step x ch = Ok x' -> wind x x'.
Proof.
  intros HT HE HH. pose proof HH as (Hrun & (m & Hm & Em) & Hbo). destruct ch as [| | |i a]; cbn [sstep].
  - intros E. injection E as <-. split.
    + split; [exact Hrun|]. cbn [u_thr]. split; [exists m; rewrite in_app_iff; auto|]. destruct Hbo as [H|H]; [now left|right].
      intros t Ht Et. apply in_app_iff in Ht. destruct Ht as [Ht|[<-|[]]]; [auto|discriminate].
    + exists []. rewrite app_nil_r. split; [reflexivity|]. left. split; [reflexivity|]. intros HQ t Ht Et. cbn [u_thr] in Ht.
      apply in_app_iff in Ht. destruct Ht as [Ht|[<-|[]]]; [auto|discriminate].
  - destruct (existsb sh_main (u_thr x)) eqn:Er; intros E; injection E as <-; [now apply wind_same|].
    exfalso. assert (existsb sh_main (u_thr x) = true); [|congruence]. apply existsb_exists. eauto.
  - intros E. injection E as <-. rewrite <- Hrun at 1. destruct x; cbn in *. apply wind_same. exact HH.
  - destruct (nth_error (u_thr x) i) as [t|] eqn:Ht; [|intros E; injection E as <-; now apply wind_same].
    assert (Hd : sdisp_ok t) by (apply (proj1 HE); eapply nth_error_In; eauto).
    assert (Hph : sh_main t = true -> sbot_ok c (u_s x) (u_sem x) t) by (intros; eapply (si_bot _ _ _ _ _ _ _ _ HT); eauto).
    destruct t as [main w stk]. cbn [sh_main sh_wait sh_stk] in *.
    assert (Hphase : forall f0, main = true -> stk = [f0] -> phase c (u_s x) (u_sem x) (tf_p f0)).
    { intros f0 -> ->. destruct (Hph eq_refl) as [[E _]|(up & g & E & _ & H)]; [discriminate|]. cbn [sh_stk] in E.
      destruct up as [|h up]; [injection E as ->; exact H|destruct up; discriminate]. }
    destruct a as [|op| |]; destruct w; try (intros E; injection E as <-; now apply wind_same).
    + destruct stk as [|top below]; [intros E; injection E as <-; now apply wind_same|].
      pose proof (sdisp_top _ _ _ _ Hd) as Htop. destruct (tf_p top) as [v|f|u k] eqn:Ep.
      * cbv zeta. rewrite <- (app_nil_r (u_log x)). destruct below as [|g below].
        -- destruct main.
           ++ destruct (N.eqb_spec v 1) as [->|Hv]; intros E; injection E as <-.
              ** eapply wind_quiet; [exact HH|exact Ht|reflexivity| | |reflexivity].
                 --- intros _ (up & f & E & [Hf|Hf]); (destruct up as [|? up]; [|destruct up; discriminate]); cbn in E; injection E as <-; discriminate.
                 --- intros _ _. right. eexists [], _. split; [reflexivity|]. constructor.
              ** set (r := if v =? 2 then _ else _).
                 assert (Hr : r = u_run x).
                 { unfold r. destruct (N.eqb_spec v 2) as [->|]; [|reflexivity]. unfold run_after_hook. destruct Hbo as [->|Hbo]; [reflexivity|].
                   exfalso. apply (Hbo _ (nth_error_In _ _ Ht) eq_refl). exists [], top. split; [reflexivity|]. right. exact Ep. }
                 rewrite Hr. eapply wind_quiet; [exact HH|exact Ht|reflexivity| | |reflexivity]; rewrite Hrun.
                 --- intros _ (up & f & E & _). destruct up; discriminate.
                 --- intros _ _. now left.
           ++ intros E; injection E as <-. eapply wind_quiet; [exact HH|exact Ht|reflexivity|discriminate|discriminate|reflexivity].
        -- intros E. assert (E' : Ok (mkSC (u_s x) (u_sem x) (u_run x) (u_end x)
               (filter (fun y => negb (match y with LRef e => is_static statics e | _ => false end)) (tf_led top) ++ u_led x)
               (put_thr x i (mkSH main false (g :: below))) (u_log x ++ [])) = Ok x') by (destruct main; exact E).
           injection E' as <-. eapply wind_quiet; [exact HH|exact Ht|reflexivity| | |reflexivity]; intros _.
           ++ apply booting_pop.
           ++ apply sq_pop.
      * destruct (u_end x); [discriminate|]. destruct (f (u_s x)) as [[[s' labs] p']|] eqn:Ef; [|discriminate]. cbn zeta.
        destruct (over _ _ _); intros E; injection E as <-; [now apply wind_same|].
        pose proof (top_on_atom _ _ _ _ _ _ _ Htop Ef) as Htop'.
        assert (Hb : main = true -> booting (mkSH main false (mkTF (tf_act top) (filter is_right (fold_left led_step labs (tf_led top))) p' :: below)) ->
                  booting (mkSH main false (top :: below))).
        { intros Em'. apply booting_replace. cbn [tf_p]. intros ->. intros Hp. exfalso.
          specialize (Hphase top Em' eq_refl). rewrite Ep in Hphase. eapply phase_next; eauto. }
        assert (Hsp : spent (tf_p top) -> spent p' /\ dispatches (user_of p') = []).
        { rewrite Ep. intros Hs. pose proof (spent_atom _ _ _ _ _ Hs Ef). auto using nodisp_spent, nodisp_arrive. }
        assert (Hone : dispatches (user_of p') = [] \/ (main = true /\ below = [] /\ length (dispatches (user_of p')) = 1%nat /\ spent p')).
        { unfold top_on in Htop'. destruct main; [destruct below|]; [|left; now apply nodisp_arrive|left; now apply nodisp_arrive].
          destruct (once_arrive _ Htop') as [|[? ?]]; auto. }
        destruct Hone as [Hone|(Em' & -> & Hone & Hsp')].
        -- eapply wind_quiet; [exact HH|exact Ht|reflexivity|exact Hb| |].
           ++ intros _. apply sq_replace. cbn [tf_p]. intros _ Hs. now destruct (Hsp Hs).
           ++ rewrite dispatches_app, dispatches_EL. exact Hone.
        -- split; [eapply halt_upd; [exact HH|exact Ht|reflexivity|exact Hb]|]. exists (dispatches (user_of p')).
           cbn [u_log]. rewrite !dispatches_app, dispatches_EL. split; [reflexivity|]. right. split; [exact Hone|]. split.
           ++ eapply quietD_set; [exact HE|exact Ht|reflexivity|exact Em'|]. right. eexists [], _. split; [reflexivity|exact Hsp'].
           ++ intros HQ. destruct (HQ _ (nth_error_In _ _ Ht) Em') as [E|(up & g & E & Hg)]; [discriminate|]. cbn [sh_stk] in E.
              destruct up as [|h up]; [|destruct up; discriminate]. injection E as <-. destruct (Hsp Hg) as [_ H]. rewrite H in Hone. discriminate.
      * intros E. injection E as <-. pose proof (top_on_user _ _ _ _ Htop) as Htop'.
        assert (Hk : nodisp k).
        { unfold top_on in Htop. destruct main; [destruct below|]; [eapply once_user; exact Htop| |]; inversion Htop; subst; assumption. }
        eapply wind_quiet; [exact HH|exact Ht|reflexivity| | |now apply nodisp_arrive].
        -- intros Em'. apply booting_replace. cbn [tf_p]. intros ->. rewrite Ep. apply phase_past with (s := u_s x) (n := u_sem x).
           specialize (Hphase top Em' eq_refl). now rewrite Ep in Hphase.
        -- intros _. apply sq_replace. cbn [tf_p]. intros _ _. now apply nodisp_spent.
    + destruct stk as [|top below]; [intros E; injection E as <-; now apply wind_same|].
      destruct (tf_p top); try (intros E; injection E as <-; now apply wind_same).
      destruct (grab _ _ _ _ _ _ _) as [[mine l']|]; [|intros E; injection E as <-; now apply wind_same].
      destruct (negb true || _); intros E; injection E as <-; [|now apply wind_same]. rewrite <- (app_nil_r (u_log x)).
      eapply wind_quiet; [exact HH|exact Ht|reflexivity| | |reflexivity]; intros _; [apply booting_push|apply sq_push].
    + destruct (sem_down _); intros E; injection E as <-; [|now apply wind_same]. rewrite <- (app_nil_r (u_log x)).
      eapply wind_quiet; [exact HH|exact Ht|reflexivity| | |reflexivity]; intros _ H; exact H.
    + rewrite <- (app_nil_r (u_log x)). intros E; injection E as <-.
      eapply wind_quiet; [exact HH|exact Ht|reflexivity| | |reflexivity]; intros _ H; exact H.
Qed.
Lemma sstep_inv_ok x ch x' : SInv x -> step x ch = Ok x' -> SInv x'.
Proof.
  intros HT E. destruct (sinv x ch HT) as [(y & E2 & H2)|[(f & E2 & _)|[E2 _]]]; rewrite E in E2; [|discriminate|discriminate].
  injection E2 as <-. exact H2.
Qed.
Lemma srun_wind chs : forall x x', SInv x -> EInv x -> halting x -> run x chs = Ok x' -> wind x x'.
Proof.
  induction chs as [|ch t IH]; intros x x' HT HE HH E; cbn [srun] in E; [injection E as <-; now apply wind_same|].
  destruct (step x ch) as [y|] eqn:Ey; [|discriminate]. cbn [bind] in E.
  destruct (sstep_wind _ _ _ HT HE HH Ey) as (HH1 & new1 & L1 & N1).
  destruct (IH y x') as (HH2 & new2 & L2 & N2); [eapply sstep_inv_ok; eauto|eapply sstep_EInv; eauto|exact HH1|exact E|].
  split; [exact HH2|]. exists (new1 ++ new2). split; [rewrite L2, L1; now rewrite app_assoc|].
  destruct N1 as [[-> Q1]|(Q1 & Q1' & Q1'')], N2 as [[-> Q2]|(Q2 & Q2' & Q2'')].
  - left. auto.
  - right. cbn [app]. split; [exact Q2|]. split; [exact Q2'|]. intros HQ. apply Q2''. auto.
  - right. rewrite app_nil_r. auto.
  - exfalso. auto.
Qed.
Lemma dispatching_quiet x : EInv x -> st_dispatching x <> [] -> quietD x.
Proof.
  intros [D D2] Hd t Ht Em. pose proof (D t Ht) as D1. unfold sdisp_ok in D1. rewrite Em in D1.
  destruct D1 as [E|(up & f & E & H1 & H2)]; [now left|]. right. exists up, f. split; [exact E|].
  destruct (tf_p f) as [v|g|u k] eqn:Ep; [constructor| |cbn; eapply once_user; eauto].
  exfalso. apply Hd. unfold st_dispatching. fold sdisp_of.
  assert (Hall : forall u, In u (u_thr x) -> concat (map sdisp_of (sh_stk u)) = []).
  { intros u Hu. destruct (sh_main u) eqn:Eu.
    - apply In_nth_error in Hu, Ht. destruct Hu as [j Hj], Ht as [i Hi]. specialize (D2 i j t u Hi Hj Em Eu). subst j.
      assert (u = t) by congruence. subst u. rewrite E, map_app, concat_app, snodisps_none by exact H1. cbn [map concat]. unfold sdisp_of.
      now rewrite Ep.
    - apply (proj2 (sthread_disp u (D u Hu)) Eu). }
  clear - Hall. change (concat (map (fun t => concat (map sdisp_of (sh_stk t))) (u_thr x)) = []).
  induction (u_thr x) as [|u l IH]; [reflexivity|]. cbn [map concat]. rewrite Hall by now left. cbn [app].
  apply IH. intros v Hv. apply Hall. now right.
Qed.
End P.
