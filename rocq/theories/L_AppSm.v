(** Proofs: the machine of an active object alone, as an execution of the state
    machine's functions. *)
From Verif Require Import Base L_Base M_Sm S_Sm S_SmWf S_SmRun L_SmKeep L_SmSafe M_App S_App.
Local Open Scope N_scope.

Section S.
Context (ob : smobj) (rank : nat -> nat) (home : nat -> option nat).
Context (W : wf_machine (ob_c ob) (ob_M ob) rank home = true) (Hi : wf_initial (ob_c ob) (ob_M ob) home (ob_ist ob) = true).
Context (Ha : forall k, arrays_ok (ob_c ob) (ob_ars ob k)).
Notation srun := (sm_run (ob_c ob) (ob_M ob) (ob_grd ob) (ob_fuel ob) (ob_ist ob) (ob_iact ob)).

Lemma dispatch_active d pe ars d' e : arrays_ok (ob_c ob) ars -> machine_ok (ob_c ob) (ob_M ob) home d -> ev_sig pe <> sm_any (ob_c ob) - 2 ->
  dispatch (ob_c ob) (ob_M ob) (ob_grd ob) (ob_fuel ob) (ob_ist ob) (ob_iact ob) d pe ars = Ok (d', e) -> machine_ok (ob_c ob) (ob_M ob) home d'.
Proof.
  intros Hars Hm Hp H.
  destruct (dispatch_safe _ _ _ _ W (ob_grd ob) (ob_fuel ob) (ob_ist ob) (ob_iact ob) d pe ars Hi Hars (machine_ready _ _ _ _ Hm)) as [_ K].
  { destruct Hm as (_ & s & -> & _). discriminate. }
  destruct (K _ _ H) as [(r & H1 & H2) _]. apply N.eqb_neq in Hp. rewrite Hp in H1.
  eapply (finish_wf _ _ _ _ _ W); [exact H2|]. exact (step_wf _ _ _ _ _ W _ _ _ H1 Hm).
Qed.
Lemma alone_fault k f sigs : alone_from ob k (Fault f) sigs = Fault f.
Proof. revert k. induction sigs as [|g t IH]; intros k; cbn [alone_from bind]; [reflexivity|apply IH]. Qed.
Lemma alone_run sigs : forall k d, machine_ok (ob_c ob) (ob_M ob) home d -> ~ In (Some (sm_any (ob_c ob) - 2)) sigs -> 
  (forall g, In g sigs -> g <> None) ->
  alone_from ob k (Ok d) sigs = srun d (calls_from ob k sigs) /\
  forall d', alone_from ob k (Ok d) sigs = Ok d' -> machine_ok (ob_c ob) (ob_M ob) home d'.
Proof.
  induction sigs as [|g t IH]; intros k d Hm Hn Hs; cbn [alone_from calls_from sm_run].
  - split; [reflexivity|]. intros d' E. now injection E as <-.
  - destruct g as [v|]; [|exfalso; now apply (Hs None); [left|]]. cbn [sm_do]. pose proof Hm as (_ & s & Es & _). rewrite Es.
    cbn [bind]. destruct (dispatch _ _ _ _ _ _ d (mkEv v (2 + v)) (ob_ars ob k)) as [[d1 e1]|f] eqn:Ed; cbn [bind].
    + apply IH; [|intros Hx; apply Hn; now right|intros g Hg; apply Hs; now right].
      eapply dispatch_active; [apply Ha|exact Hm| |exact Ed]. cbn [ev_sig]. intros ->. apply Hn. now left.
    + rewrite alone_fault. split; [reflexivity|discriminate].
Qed.
Lemma alone_calls sigs d0 e0 : sm_init (ob_c ob) (ob_M ob) (ob_grd ob) (ob_fuel ob) (ob_ist ob) (ob_iact ob) blank (ob_ars ob 0) = Ok (d0, e0) ->
  d_st d0 <> None -> ~ In (Some (sm_any (ob_c ob) - 2)) sigs -> (forall g, In g sigs -> g <> None) ->
  alone ob sigs = srun blank (calls ob sigs) /\ forall d, alone ob sigs = Ok d -> machine_ok (ob_c ob) (ob_M ob) home d.
Proof.
  intros E Hs Hn Hg. unfold alone, calls. cbn [sm_run sm_do]. rewrite E. cbn [bind]. apply alone_run; auto.
  destruct (d_st d0) as [s|] eqn:Es; [|congruence].
  destruct (dispatch_safe _ _ _ _ W (ob_grd ob) (ob_fuel ob) (ob_ist ob) (ob_iact ob) blank (evCreation (ob_c ob)) (ob_ars ob 0) Hi (Ha 0%nat)
    (blank_ready _ _ _) (fun _ => eq_refl)) as [_ K].
  destruct (K _ _ E) as [_ R]. eapply ready_machine; eauto.
Qed.
Lemma calls_ok sigs : Forall (smop_ok (ob_c ob)) (calls ob sigs).
Proof.
  constructor; [apply Ha|]. generalize 1%nat. induction sigs as [|g t IH]; intros k; cbn [calls_from]; constructor; [apply Ha|apply IH].
Qed.
End S.
