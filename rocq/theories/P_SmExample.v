(** A machine with all kinds of vertices, used in the examples beside the
    theorems of P_Sm. *)
From Verif Require Import Base L_Base M_Sm S_Sm S_SmWf S_SmRun L_SmWf L_SmSafe L_SmMore.

Definition xc : smcfg := mkSm true 4 4 255.
Definition tr (sig : N) (g a t : option nat) : trn := mkT sig g a t.
(** State [n] has entry action 100+n and exit action 200+n. *)
Definition bs (n : nat) (p : option nat) (t : list trn) : vertex := VBasic (Some (100 + n)) (Some (200 + n)) p t.
Definition xm : machine :=
  [ bs 0 None [ tr 1 None (Some 1) (Some 2); tr 2 (Some 1) (Some 2) None; tr 2 None (Some 3) None; tr 3 None (Some 3) (Some 7);
                tr 4 None (Some 4) (Some 8); tr 5 None (Some 5) (Some 6); tr 6 None (Some 6) (Some 14);
                tr 9 None (Some 9) (Some 12); tr 10 None (Some 10) (Some 11); tr 11 None (Some 11) (Some 18); tr 12 None None (Some 1) ];
    bs 1 None [ tr 254 (Some 3) (Some 12) (Some 0) ];                                          (* 1: with completion transition *)
    VComp (Some 102) (Some 202) None [ tr 7 None (Some 7) (Some 0); tr 254 None (Some 8) (Some 1) ] (Some 3) (Some 20) (Some 6);
    bs 3 (Some 2) [ tr 8 None (Some 13) (Some 4) ];
    bs 4 (Some 2) [ tr 8 None (Some 14) (Some 5); tr 13 None (Some 15) (Some 4) ];
    VFinal (Some 2);
    VHist false (Some 2) (tr 0 None (Some 21) (Some 4));
    VCond [ tr 0 (Some 1) (Some 22) (Some 4); tr 0 (Some 2) (Some 23) (Some 13) ];               (* 7: junction *)
    VChoice [ tr 0 (Some 1) (Some 24) (Some 4); tr 0 (Some 2) (Some 25) (Some 13) ];             (* 8: choice *)
    VComp (Some 109) (Some 209) None [ tr 7 None (Some 7) (Some 0) ] (Some 10) None (Some 12);
    VComp (Some 110) (Some 210) (Some 9) [] (Some 11) (Some 26) None;
    bs 11 (Some 10) [ tr 8 None (Some 16) (Some 13) ];
    VHist true (Some 9) (tr 0 None None None);
    bs 13 (Some 10) [ tr 8 None (Some 17) (Some 2) ];
    VSubm (Some 114) (Some 214) None [ tr 7 None (Some 7) (Some 0) ] [(Some 27, Some 3)] 15;
    VRsm (Some 16) (Some 28);
    bs 16 (Some 15) [ tr 8 None (Some 18) (Some 17) ];
    VExp 0 15;
    VEnp (Some 29) (Some 16) 14 ].
Definition xrank (v : nat) : nat :=
  match v with 3 | 4 | 5 | 10 | 16 => 1 | 11 | 13 => 2 | _ => 0 end%nat.
Definition xhome (v : nat) : option nat := match v with 16 | 17 => Some 15 | _ => None end%nat.
(** Guard [g] answers with bit [g] of the event. *)
Definition xgrd (g : nat) (e : evt) (l : list xev) : bool := N.testbit (ev_id e) (N.of_nat g).
Definition ev (sig id : N) : evt := mkEv sig id.
Definition xars : arrays := fun _ => (repeat 999%nat 4, repeat None 4).
Definition after (ops : list smop) : dyn := ok_or blank (sm_run xc xm xgrd 20 0 None blank ops).
Definition xdisp (d : dyn) (pe : evt) : res (dyn * rcode) := dispatch xc xm xgrd 20 0 None d pe xars.
Definition on (evs : list evt) : list smop := OInit xars :: map (fun e => ODisp e xars) evs.

Lemma x_wf : wf_machine xc xm xrank xhome = true.
Proof. vm_compute. reflexivity. Qed.
Lemma x_init : wf_initial xc xm xhome 0 = true.
Proof. vm_compute. reflexivity. Qed.
Lemma x_single : single_use xm = true.
Proof. vm_compute. reflexivity. Qed.
Lemma x_ars : arrays_ok xc xars.
Proof. intros k. split; reflexivity. Qed.
Lemma x_on evs : Forall (smop_ok xc) (on evs).
Proof. constructor; [apply x_ars|]. induction evs; constructor; [apply x_ars | assumption]. Qed.
(** What the runs of the examples leave is in the invariant. *)
Lemma x_ok evs s : is_ok (sm_run xc xm xgrd 20 0 None blank (on evs)) = true -> d_st (after (on evs)) = Some s ->
  machine_ok xc xm xhome (after (on evs)).
Proof.
  intros H. unfold after. destruct (sm_run xc xm xgrd 20 0 None blank (on evs)) as [d|] eqn:E; [| discriminate]. cbn [ok_or].
  intros Es. exact (run_machine xc xm xrank xhome x_wf xgrd 20 0 None (on evs) d s x_init (x_on evs) E Es).
Qed.
