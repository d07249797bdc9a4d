(** The configuration without hierarchy. *)
From Verif Require Import Base L_Base M_Sm M_SmFlat S_SmRun S_SmFlat L_SmFlat.

(** C60: the engine with hierarchy disabled runs a machine of basic states as the
    hierarchical one does: same answers, same state, same guards and actions in the
    same order, whatever the work arrays and the static counter contain. *)
Theorem C60_same :
  forall c M grd fuel istate iact d ars al ixn evs,
  flat_machine M = true -> no_completion c M = true -> no_final M = true ->
  (1 <= sm_depth c)%nat -> (1 <= sm_segs c)%nat -> (2 <= fuel)%nat -> (istate < length M)%nat ->
  arrays_ok c ars -> length al = sm_segs c ->
  Forall (fun e => arrays_ok c (snd (fst e)) /\ length (fst (snd e)) = sm_segs c) evs ->
  exists d1 d2 rs,
    hier_run c M (by_seen grd) fuel istate iact d ars (map fst evs) = Ok (d1, rs) /\
    flat_run c M (by_seen grd) istate iact d al ixn (map (fun e => (fst (fst e), snd e)) evs) = Ok (d2, rs) /\
    d_st d1 = d_st d2 /\ seen (d_log d1) = seen (d_log d2).
Proof.
  intros c M grd fuel istate iact d ars al ixn evs FM NC NF H1 H2 Hf Li Ha La F.
  destruct fuel as [|[|f]]; [lia | lia|].
  destruct (run_both c M grd FM NC H1 H2 f istate iact d ars al ixn evs Li Ha La F) as (d1 & rs & E1 & E2).
  destruct (flat_run c M (by_seen grd) istate iact d al ixn _) as [[d2 rs']|x].
  - destruct E2 as [[A B] <-]. exists d1, d2, rs. repeat split; assumption.
  - destruct E2 as (_ & s & p & E). exfalso.
    pose proof (proj1 (forallb_forall _ _) NF _ (nth_error_In M s E)) as G. discriminate G.
Qed.
Print Assumptions C60_same.

(** With final states too, as long as the run without hierarchy is defined. *)
Theorem C60_until_final :
  forall c M grd fuel istate iact d ars al ixn evs d2 rs,
  flat_machine M = true -> no_completion c M = true ->
  (1 <= sm_depth c)%nat -> (1 <= sm_segs c)%nat -> (2 <= fuel)%nat -> (istate < length M)%nat ->
  arrays_ok c ars -> length al = sm_segs c ->
  Forall (fun e => arrays_ok c (snd (fst e)) /\ length (fst (snd e)) = sm_segs c) evs ->
  flat_run c M (by_seen grd) istate iact d al ixn (map (fun e => (fst (fst e), snd e)) evs) = Ok (d2, rs) ->
  exists d1, hier_run c M (by_seen grd) fuel istate iact d ars (map fst evs) = Ok (d1, rs) /\
    d_st d1 = d_st d2 /\ seen (d_log d1) = seen (d_log d2).
Proof.
  intros c M grd fuel istate iact d ars al ixn evs d2 rs FM NC H1 H2 Hf Li Ha La F R.
  destruct fuel as [|[|f]]; [lia | lia|].
  destruct (run_both c M grd FM NC H1 H2 f istate iact d ars al ixn evs Li Ha La F) as (d1 & rs' & E1 & E2).
  rewrite R in E2. destruct E2 as [[A B] ->]. exists d1. repeat split; assumption.
Qed.
Print Assumptions C60_until_final.

(** Two lamps and a lock, run by both engines. *)
Definition fc : smcfg := mkSm true 2 2 255.
Definition fbs (t : list trn) : vertex := VBasic None None None t.
Definition fm : machine :=
  [ fbs [ mkT 1 None (Some 10) (Some 1); mkT 2 (Some 0) (Some 11) (Some 2); mkT 2 None (Some 12) None ];
    fbs [ mkT 1 None (Some 13) (Some 0); mkT 3 (Some 1) None (Some 1) ];
    fbs [ mkT 1 (Some 2) (Some 14) (Some 0) ] ].
(** Guard 0 and 1 look at the event, guard 2 counts what ran. *)
Definition fgrd (g : nat) (e : evt) (l : list xev) : bool :=
  match g with 2 => Nat.even (length l) | _ => N.testbit (ev_id e) (N.of_nat g) end%nat.
Definition fars : arrays := fun _ => (repeat 999%nat 2, repeat None 2).
Definition fal : list nat * nat := (repeat 7%nat 2, 5%nat).
Definition fblank : dyn := mkD None (fun _ => None) (fun _ => None) [].
Definition fevs (l : list (N * N)) : list (evt * arrays * (list nat * nat)) :=
  map (fun e => (mkEv (fst e) (snd e), fars, fal)) l.
Definition fhier (m : machine) (l : list (N * N)) := hier_run fc m (by_seen fgrd) 5 0 (Some 9%nat) fblank fars (map fst (fevs l)).
Definition fflat (m : machine) (l : list (N * N)) :=
  flat_run fc m (by_seen fgrd) 0 (Some 9%nat) fblank (fst fal) (snd fal) (map (fun e => (fst (fst e), snd e)) (fevs l)).
(** The state, the answers, and the actions that ran. *)
Definition fsays (r : res (dyn * list rcode)) : option (option nat * list rcode * list nat) :=
  match r with
  | Ok (d, rs) => Some (d_st d, rs, flat_map (fun e => match e with XEff a _ => [a] | _ => [] end) (d_log d))
  | Fault _ => None
  end.
Definition fplay : list (N * N) := [(1, 0); (3, 2); (3, 0); (1, 0); (2, 0); (2, 1); (1, 0); (1, 0); (7, 0); (253, 0)]%N.

Example C60_ex :
  flat_machine fm = true /\ no_completion fc fm = true /\ no_final fm = true /\
  fsays (fflat fm fplay) = fsays (fhier fm fplay) /\
  fsays (fflat fm fplay) =
    Some (Some 0%nat, [EVT_PROC; EVT_PROC; EVT_PROC; EVT_NFOUND; EVT_PROC; EVT_PROC; EVT_PROC; EVT_PROC; EVT_PROC; EVT_NFOUND; EVT_PROC],
          [9; 10; 13; 12; 11; 14; 10; 9]%nat) /\
  Forall (fun e => arrays_ok fc (snd (fst e)) /\ length (fst (snd e)) = sm_segs fc) (fevs fplay).
Proof.
  repeat (split; [vm_compute; reflexivity|]).
  repeat constructor.
Qed.

(** Completion transitions are not among the features that go with the hierarchy
    (rkhcfg.h: 272-276), but without it they are never taken. *)
Definition fcm : machine :=
  [ fbs [ mkT 1 None None (Some 1) ]; fbs [ mkT 254 None (Some 20) (Some 2) ]; fbs [] ].
Theorem C60_completion_refuted :
  exists M ev, flat_machine M = true /\ no_final M = true /\ no_completion fc M = false /\
    fsays (fhier M [ev]) = Some (Some 2%nat, [EVT_PROC; EVT_PROC], [9; 20]%nat) /\
    fsays (fflat M [ev]) = Some (Some 1%nat, [EVT_PROC; EVT_PROC], [9%nat]).
Proof. exists fcm, (1, 0)%N. repeat split; vm_compute; reflexivity. Qed.
Print Assumptions C60_completion_refuted.

(** A machine in its final state answers that an event is not found.  Without
    hierarchy the table of a final state is a null pointer. *)
Definition ffm : machine := [ fbs [ mkT 1 None None (Some 1) ]; VFinal None ].
Theorem C60_final_refuted :
  exists M l, flat_machine M = true /\ no_completion fc M = true /\
    fsays (fhier M l) = Some (Some 1%nat, [EVT_PROC; EVT_PROC; EVT_NFOUND], [9%nat]) /\
    fflat M l = Fault (FUB UB_null).
Proof. exists ffm, [(1, 0); (1, 0)]%N. repeat split; vm_compute; reflexivity. Qed.
Print Assumptions C60_final_refuted.

(** The machine of the last theorem before the second event. *)
Example C60_until_final_ex :
  flat_machine ffm = true /\ no_completion fc ffm = true /\
  fsays (fflat ffm [(3, 0); (1, 0)]%N) = Some (Some 1%nat, [EVT_PROC; EVT_NFOUND; EVT_PROC], [9%nat]).
Proof. repeat split; vm_compute; reflexivity. Qed.
