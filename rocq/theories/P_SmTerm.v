(** Property C53: a dispatch returns. *)
From Verif Require Import Base L_Base M_Sm S_Sm S_SmWf S_SmRun S_SmTerm L_Sm L_SmStep L_SmDet L_SmWf L_SmSafe L_SmTerm P_SmExample.

(** * C53 A dispatch returns *)
(** In a well-formed machine whose paths are not circular and whose default
    transitions lead inwards, only completion events that follow one another can
    keep a dispatch from returning: if the model of [rkh_sm_dispatch] has not
    returned when each of its loops has been given [turns + n] turns, there are
    [n] completion events in a row.  [turns] is linear in the size of the machine
    and the configured depth. *)
Theorem C53_only_completions :
  forall c M rank home grd order, wf_machine c M rank home = true -> paths_end M order = true -> defaults_enter M = true ->
  forall fuel n istate iact d pe ars, wf_initial c M home istate = true -> arrays_ok c ars ->
  ready c M home d -> (d_st d = None -> ev_sig pe = (sm_any c - 2)%N) -> turns c M + n <= fuel ->
  dispatch c M grd fuel istate iact d pe ars = Fault FFuel ->
  exists r, (if (ev_sig pe =? sm_any c - 2)%N then create c M grd pe d istate iact r else step c M grd pe d r) /\ completions c M grd n r.
Proof.
  intros c M rank home grd order W P D fuel n istate iact d pe ars Hi Ha Hd Hn Hf H.
  exact (dispatch_live c M rank home W grd order P D istate iact d pe ars n fuel Hi Ha Hd Hn Hf H).
Qed.
(** If also completion transitions pass the check, every call of every execution
    returns: with a result or, with assertions on, in the assertion that a
    transition has too many segments. *)
Theorem C53_returns :
  forall c M rank home grd order mu, wf_machine c M rank home = true -> paths_end M order = true -> defaults_enter M = true ->
  completions_end c M mu = true ->
  forall fuel istate iact ops, wf_initial c M home istate = true -> Forall (smop_ok c) ops ->
  turns c M + S (highest M mu) <= fuel ->
  (exists d, sm_run c M grd fuel istate iact blank ops = Ok d) \/
  (exists line, sm_run c M grd fuel istate iact blank ops = Fault (FAssert line) /\ sm_asrt c = true /\ In line seg_lines).
Proof.
  intros c M rank home grd order mu W P D C fuel istate iact ops Hi Ho Hf.
  pose proof (run_returns c M rank home W grd order P D mu C istate iact fuel Hi Hf ops blank Ho (blank_ready c M home)) as L.
  pose proof (proj1 (run_ready c M rank home W grd fuel istate iact Hi ops blank Ho (blank_ready c M home))) as S1. unfold live in L.
  destruct (sm_run c M grd fuel istate iact blank ops) as [d | [line | k |]]; cbn in S1; [eauto | | destruct S1 | congruence].
  right. exists line. auto.
Qed.
(** The other way round: where completion events do not end - [X] holds after
    the event and after each completion event - a dispatch does not return,
    however many turns it gets. *)
Theorem C53_endless :
  forall c M rank home grd, wf_machine c M rank home = true ->
  forall (X : dyn -> Prop) fuel istate iact d pe ars, wf_initial c M home istate = true -> arrays_ok c ars -> machine_ok c M home d ->
  ev_sig pe <> (sm_any c - 2)%N ->
  (forall r, step c M grd pe d r -> exists d1, r = Chained d1 /\ X d1) ->
  (forall d1 r, X d1 -> step c M grd (mkEv (sm_any c - 1) 0) d1 r -> exists d2, r = Chained d2 /\ X d2) ->
  forall d' e, dispatch c M grd fuel istate iact d pe ars <> Ok (d', e).
Proof.
  intros c M rank home grd W X fuel istate iact d pe ars Hi Ha Hm Hp H0 H1 d' e H.
  destruct (dispatch_safe c M rank home W grd fuel istate iact d pe ars Hi Ha (machine_ready c M home _ Hm)) as [_ K].
  { destruct Hm as (_ & s & -> & _). discriminate. }
  destruct (K _ _ H) as [(r' & H3 & H2) _]. apply N.eqb_neq in Hp. rewrite Hp in H3.
  apply H0 in H3 as (d1 & -> & HX). clear -H2 HX H1. remember (Chained d1) as r eqn:E. revert d1 E HX.
  induction H2 as [d | d x | d r d' e Hst Hf IH]; intros d1 E HX; try discriminate. injection E as ->.
  destruct (H1 _ _ HX Hst) as (d2 & -> & HX2). eapply IH; [reflexivity | exact HX2].
Qed.

Definition xorder (v : nat) : nat := match v with 14 => 1 | 18 => 1 | 17 => 1 | 6 => 1 | 7 => 1 | 8 => 1 | 12 => 1 | _ => 0 end%nat.
Definition xmu (v : nat) : nat := match v with 5 | 6 => 2 | 1 => 1 | _ => 0 end%nat.
Example C53_ex :
  paths_end xm xorder = true /\ defaults_enter xm = true /\ completions_end xc xm xmu = true /\
  turns xc xm + S (highest xm xmu) = 44%nat /\
  match sm_run xc xm xgrd 44 0 None blank (on [ev 6 0; ev 8 0; ev 7 0; ev 9 0; ev 8 0; ev 8 0; ev 8 0; ev 8 0]) with
  | Ok d => d_st d = Some 1
  | Fault _ => False
  end.
Proof. vm_compute. auto 10. Qed.

(** * Where it does not return *)
(** Composite state 0 whose default child is its own history 1, which has stored
    nothing and has no default transition: it leads back to 0, for ever. *)
Definition hm : machine :=
  [ VComp None None None [] (Some 1) None (Some 1); VHist false (Some 0) (tr 0 None None None); VBasic None None (Some 0) [] ].
Definition hrank (v : nat) : nat := match v with 2 => 1 | 1 => 1 | _ => 0 end%nat.
Lemma hm_loop pe : forall f d al se0 se nn isc, length al = 4%nat -> d_hist d 1 = None ->
  descend xc hm xgrd f true None pe None (mkW d (Some 1) al 0 (Some 0) (se0 :: se) nn) isc = Fault FFuel.
Proof.
  induction f as [| f IH]; intros d al se0 se nn isc Hal Hd; [reflexivity|].
  destruct f as [| f]; cbn -[Nat.ltb]; rewrite Hd; cbn -[Nat.ltb]; [reflexivity|]. apply IH; auto.
Qed.
Lemma hm_first f al : length al = 4%nat ->
  descend xc hm xgrd (S (S f)) false None (evCreation xc) None
    (mkW (say blank [XTrn 0 (Some 0)]) (Some 0) al 0 (Some 0) (repeat None 4) 0) false = Fault FFuel.
Proof.
  intros Hal. transitivity (descend xc hm xgrd (S f) true None (evCreation xc) None
    (mkW (say (say blank [XTrn 0 (Some 0)]) [XEntry 0 None]) (Some 1) al 0 (Some 0) [Some 0; None; None; None] 1) false).
  - reflexivity.
  - apply hm_loop; auto.
Qed.
Theorem C53_default_history_refuted :
  wf_machine xc hm hrank (fun _ => None) = true /\ wf_initial xc hm (fun _ => None) 0 = true /\
  paths_end hm (fun _ => 0%nat) = true /\ completions_end xc hm (fun _ => 0%nat) = true /\ defaults_enter hm = false /\
  forall fuel, sm_init xc hm xgrd fuel 0 None blank xars = Fault FFuel.
Proof.
  split; [reflexivity|]. split; [reflexivity|]. split; [reflexivity|]. split; [reflexivity|]. split; [reflexivity|].
  intros fuel. destruct fuel as [| f]; [reflexivity|]. destruct f as [| f]; [reflexivity|].
  pose proof (hm_first f (repeat 999%nat 4) eq_refl) as K.
  unfold sm_init, dispatch. change (ev_sig (evCreation xc) =? sig_creation xc)%N with true. cbn iota. unfold round. cbn [bind].
  match type of K with ?x = _ => match goal with |- bind (bind ?y _) _ = _ => change y with x end end. rewrite K. reflexivity.
Qed.

(** State 1 has a completion transition to itself. *)
Definition cm : machine := [ bs 0 None [ tr 1 None None (Some 1) ]; bs 1 None [ tr 254 None None (Some 1) ] ].
Lemma cm_round f h y l k :
  round xc cm xgrd (S f) (mkD (Some 1) h y l) None (evCompletion xc) (fst (xars k)) (snd (xars k)) =
  Ok (Go (mkD (Some 1) h y ((((l ++ [XTrn 1 (Some 1)]) ++ [XExit 1 (Some 201)]) ++ [XEntry 1 (Some 101)]) ++ [XState 1]), true)).
Proof. destruct f; reflexivity. Qed.
Lemma cm_loop : forall f h y l k, complete xc cm xgrd f (mkD (Some 1) h y l) true xars k = Fault FFuel.
Proof.
  induction f as [| f IH]; intros h y l k; [reflexivity|]. cbn [complete]. rewrite cm_round. cbn [bind]. apply IH.
Qed.
Theorem C53_completion_cycle_refuted :
  wf_machine xc cm (fun _ => 0%nat) (fun _ => None) = true /\ wf_initial xc cm (fun _ => None) 0 = true /\
  paths_end cm (fun _ => 0%nat) = true /\ defaults_enter cm = true /\ (forall mu, completions_end xc cm mu = false) /\
  exists d, sm_init xc cm xgrd 20 0 None blank xars = Ok (d, EVT_PROC) /\
  forall fuel, dispatch xc cm xgrd fuel 0 None d (ev 1 0) xars = Fault FFuel.
Proof.
  split; [reflexivity|]. split; [reflexivity|]. split; [reflexivity|]. split; [reflexivity|]. split.
  - intros mu. unfold completions_end. apply andb_false_iff. right. cbn -[Nat.ltb]. rewrite Nat.ltb_irrefl. reflexivity.
  - eexists. split; [reflexivity|]. intros fuel. destruct fuel as [| f]; [reflexivity|]. unfold dispatch.
    destruct f as [| f]; [reflexivity|]. cbn -[complete]. apply cm_loop.
Qed.

(** A branch of choice 1 leads to choice 1. *)
Definition pm : machine :=
  [ bs 0 None [ tr 1 None None (Some 1) ]; VChoice [ tr 0 (Some 0) None (Some 1); tr 0 (Some 1) None (Some 0) ] ].
Lemma pm_loop : forall f d al src se nn, walk xc pm xgrd f false (ev 1 1) (mkW d (Some 1) al 0 src se nn) = Fault FFuel.
Proof. induction f as [| f IH]; intros d al src se nn; [reflexivity|]. cbn. apply IH. Qed.
Lemma pm_desc f cs d al src se isc :
  descend xc pm xgrd f false cs (ev 1 1) None (mkW d (Some 1) al 0 src se 0) isc = Fault FFuel.
Proof.
  destruct f as [| f]; [reflexivity|].
  cbn [descend w_al]. match goal with |- bind ?a _ = _ => change a with (Ok (Some (al, 0%nat))) end. cbn [bind].
  match goal with |- bind ?a _ = _ => change a with (walk xc pm xgrd (S f) false (ev 1 1) (mkW d (Some 1) al 0 src se 0)) end.
  rewrite pm_loop. reflexivity.
Qed.
Theorem C53_path_cycle_refuted :
  wf_machine xc pm (fun _ => 0%nat) (fun _ => None) = true /\ wf_initial xc pm (fun _ => None) 0 = true /\
  defaults_enter pm = true /\ completions_end xc pm (fun _ => 0%nat) = true /\ (forall order, paths_end pm order = false) /\
  exists d, sm_init xc pm xgrd 20 0 None blank xars = Ok (d, EVT_PROC) /\
  forall fuel, dispatch xc pm xgrd fuel 0 None d (ev 1 1) xars = Fault FFuel.
Proof.
  split; [reflexivity|]. split; [reflexivity|]. split; [reflexivity|]. split; [reflexivity|]. split.
  - intros order. cbn -[Nat.ltb]. rewrite Nat.ltb_irrefl. cbn -[Nat.ltb]. rewrite !andb_false_r. reflexivity.
  - eexists. split; [reflexivity|]. intros fuel. destruct fuel as [| f]; [reflexivity|]. unfold dispatch, round.
    match goal with |- bind (bind ?x _) _ = _ => let y := eval cbn in x in change x with y end. cbn [bind]. cbv zeta. cbn iota.
    rewrite pm_desc. reflexivity.
Qed.

Print Assumptions C53_only_completions.
Print Assumptions C53_returns.
Print Assumptions C53_endless.
Print Assumptions C53_default_history_refuted.
Print Assumptions C53_completion_cycle_refuted.
Print Assumptions C53_path_cycle_refuted.
