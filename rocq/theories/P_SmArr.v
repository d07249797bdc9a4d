(** Theorems about the work arrays of rkh_sm_dispatch: al, the list of actions
    (rkhsm.c: 418), and sentry, the list of states to enter (415). *)
From Verif Require Import Base L_Base M_Sm S_Sm S_SmWf S_SmRun L_SmSafe L_SmMore M_SmStat S_SmStat L_SmStat L_SmCnt L_SmArr P_SmExample.

(** * C77 What the work arrays contain before a dispatch makes no difference *)

(** Any machine at all, any state of it, any event: two dispatches that find
    different values in the arrays return the same, leave the same, call the same
    functions in the same order, or stop at the same fault.  So no cell of the
    arrays is used before it is written. *)
Theorem C77_dispatch :
  forall c M grd fuel istate iact d pe ars1 ars2, arrays_ok c ars1 -> arrays_ok c ars2 -> ev_sig pe <> sig_creation c ->
  dispatch c M grd fuel istate iact d pe ars1 = dispatch c M grd fuel istate iact d pe ars2.
Proof. intros c M grd. exact (dispatch_arr c M grd). Qed.

(** The same for the event that creates the machine, if the machine is well-formed. *)
Theorem C77_init :
  forall c M rank home grd, wf_machine c M rank home = true ->
  forall fuel istate iact d ars1 ars2, wf_initial c M home istate = true -> ram_ok c M home d ->
  arrays_ok c ars1 -> arrays_ok c ars2 ->
  sm_init c M grd fuel istate iact d ars1 = sm_init c M grd fuel istate iact d ars2.
Proof. intros c M rank home grd W fuel istate iact d ars1 ars2 Hi Hr A1 A2. exact (init_arr c M grd rank home fuel istate iact d (evCreation c) ars1 ars2 W Hi Hr A1 A2). Qed.

(** Whole executions: the same calls give the same result. *)
Definition same_op (a b : smop) : Prop :=
  match a, b with
  | OInit _, OInit _ => True
  | ODisp e _, ODisp e' _ => e = e'
  | OClear h, OClear h' => h = h'
  | _, _ => False
  end.
Theorem C77_run :
  forall c M rank home grd, wf_machine c M rank home = true ->
  forall fuel istate iact ops1 ops2, wf_initial c M home istate = true -> Forall (smop_ok c) ops1 -> Forall (smop_ok c) ops2 ->
  Forall2 same_op ops1 ops2 ->
  sm_run c M grd fuel istate iact blank ops1 = sm_run c M grd fuel istate iact blank ops2.
Proof.
  intros c M rank home grd W fuel istate iact ops1 ops2 Hi H1 H2 H. assert (ready c M home blank) as Hd by (apply blank_ready).
  revert Hd. generalize blank. revert H1 H2. induction H as [| a b l1 l2 Hab H IH]; intros H1 H2 d Hd; [reflexivity|].
  inversion H1 as [|? ? Oa H1']; inversion H2 as [|? ? Ob H2']; subst. cbn [sm_run].
  assert (sm_do c M grd fuel istate iact d a = sm_do c M grd fuel istate iact d b) as E.
  { destruct a as [r1|p1 r1|h1], b as [r2|p2 r2|h2]; cbn in Hab; try contradiction; subst; cbn [sm_do smop_ok] in *.
    - rewrite (C77_init c M rank home grd W fuel istate iact d r1 r2 Hi (proj1 Hd) Oa Ob). reflexivity.
    - destruct (d_st d); [|reflexivity].
      rewrite (init_arr c M grd rank home fuel istate iact d p2 r1 r2 W Hi (proj1 Hd) Oa Ob). reflexivity.
    - reflexivity. }
  rewrite E. destruct (do_safe c M rank home W grd fuel istate iact d b Hi Ob Hd) as [_ K].
  destruct (sm_do c M grd fuel istate iact d b) as [d1|]; [|reflexivity]. cbn [bind]. apply IH; auto.
Qed.
(** And with the variables of the dispatcher static (C68): whatever they contain,
    the result is the one with any contents of the work arrays one likes. *)
Theorem C77_static :
  forall c M grd fuel istate iact l d pe ars, bytes_ok c -> statics_ok c l -> arrays_ok c ars -> ev_sig pe <> sig_creation c ->
  match dispatchS c M grd keep fuel istate iact l d pe, dispatch c M grd fuel istate iact d pe ars with
  | Ok (l', d1, e1), Ok (d2, e2) => d1 = d2 /\ e1 = e2 /\ statics_ok c l'
  | Fault f1, Fault f2 => f1 = f2
  | _, _ => False
  end.
Proof.
  intros c M grd fuel istate iact l d pe ars [H1 H2] Hl Ha Hs.
  destruct (dispatch_eq c M grd keep (fun _ _ => eq_refl) H1 H2 fuel istate iact l d pe Hl) as (ars' & HA & HX).
  rewrite (C77_dispatch c M grd fuel istate iact d pe ars ars' Ha HA Hs). exact HX.
Qed.

(** Other values than those of [xars], different at every turn. *)
Definition yars : arrays := fun k => ([k; 7; 3; 11], [Some 5; Some k; None; Some 2])%nat.
Example C77_case :
  arrays_ok xc xars /\ arrays_ok xc yars /\ xars 0 <> yars 0 /\ wf_machine xc xm xrank xhome = true /\
  wf_initial xc xm xhome 0 = true /\
  match sm_run xc xm xgrd 20 0 None blank (OInit yars :: map (fun e => ODisp e yars) [ev 10 0; ev 8 0; ev 8 0; ev 8 0; ev 8 0]) with
  | Ok d => d_st d = d_st (after (on [ev 10 0; ev 8 0; ev 8 0; ev 8 0; ev 8 0])) /\
      d_log d = d_log (after (on [ev 10 0; ev 8 0; ev 8 0; ev 8 0; ev 8 0])) /\ length (d_log d) = 41%nat
  | Fault _ => False
  end.
Proof.
  split; [apply x_ars|]. split; [intros k; split; reflexivity|]. split; [discriminate|].
  split; [apply x_wf|]. split; [apply x_init|]. vm_compute. auto.
Qed.

(** The initial transition needs well-formedness: if it leads to a referenced
    submachine itself (vertex 0), the new state is what sentry[0] happened to
    contain. *)
Definition im : machine := [ VRsm (Some 1) None; bs 1 (Some 0) []; bs 2 None []; bs 3 None [] ].
Definition iars (s : nat) : arrays := fun _ => ([0; 0; 0; 0], [Some s; None; None; None])%nat.
Theorem C77_initial_submachine_refuted :
  (forall s, arrays_ok xc (iars s)) /\
  match sm_init xc im xgrd 20 0 None blank (iars 2), sm_init xc im xgrd 20 0 None blank (iars 3) with
  | Ok (d1, e1), Ok (d2, e2) => d_st d1 = Some 2%nat /\ d_st d2 = Some 3%nat /\ e1 = EVT_PROC /\ e2 = EVT_PROC
  | _, _ => False
  end.
Proof. split; [intros s k; split; reflexivity | vm_compute; auto]. Qed.

Print Assumptions C77_dispatch.
Print Assumptions C77_init.
Print Assumptions C77_run.
Print Assumptions C77_static.
Print Assumptions C77_initial_submachine_refuted.
