(** Theorems about the applications demo/80x86/ahsm and demo/80x86/subm. *)
From Verif Require Import Base L_Base M_Sm S_SmWf S_SmRun L_SmArr M_DemoSm S_DemoSm L_DemoSm.

(** Keys as they come from the terminal, all codes but one: '-' is 45. *)
Definition typed (cs : list (N * arrays)) : Prop :=
  Forall (fun x => (fst x < 256)%N /\ fst x <> 45%N /\ arrays_ok dcfg (snd x)) cs.

(** * C78 The ahsm demo does what its diagram says *)
(** Whatever keys are pressed, in any number and order, nothing stops the
    application; the active state, x and y, and the states its history points
    remember are those of the diagram [a_spec], and so are, for every key, whether
    it is processed, and the functions called, in order. *)
Theorem C78_ahsm :
  forall ars cs, arrays_ok dcfg ars -> typed cs ->
  exists o0 o outs, a_init ars = Ok (o0, EVT_PROC, [my_init; set_y_0; set_x_1]) /\ a_place o0 = Some a_first /\
    turns a_turn o0 cs = Ok (o, outs) /\ a_place o = Some (fst (keys a_spec a_first (map fst cs))) /\
    map tell outs = snd (keys a_spec a_first (map fst cs)).
Proof.
  intros ars cs Ha Hc. destruct (turns_spec a_place a_spec a_turn ast_dec aobj_dec a_all a_ars a_all_ok cs a_start a_first Hc) as (o & outs & H1 & _ & H2 & H3).
  - left. reflexivity.
  - reflexivity.
  - exists a_start, o, outs. split; [apply a_init_ok, Ha|]. auto.
Qed.
(** In S111, S112 and S12 x is 1, 2 and 3 and y is 0; elsewhere x is one of 1, 2, 3
    and y one of 0, 1, 2: the conditional C1 always has a branch, and C2 never takes
    its ELSE. *)
Theorem C78_data :
  forall ars cs, arrays_ok dcfg ars -> typed cs ->
  match a_init ars with
  | Ok (o0, _, _) => match turns a_turn o0 cs with
                     | Ok (o, _) => match a_place o with Some s => data_ok s | None => False end
                     | Fault _ => False
                     end
  | Fault _ => False
  end.
Proof.
  intros ars cs Ha Hc. rewrite (a_init_ok ars Ha).
  destruct (turns_spec a_place a_spec a_turn ast_dec aobj_dec a_all a_ars a_all_ok cs a_start a_first Hc (or_introl eq_refl) eq_refl) as (o & outs & H1 & H2 & H3 & _).
  rewrite H1, H3. exact (a_data o _ H2 H3).
Qed.
(** After "1", "4 4 3 2": by way of S12 and S2 to S32 and, y being 1, back into S11 through its
    history; then "4 2 3 2" ends, y being 2, in S12 through the deep history of S1. *)
Definition pressed (l : list N) : list (N * arrays) := map (fun c => (c, zars)) l.
Example C78_case :
  let cs := pressed [49; 52; 52; 51; 50; 52; 50; 51; 50]%N in
  arrays_ok dcfg zars /\ typed cs /\
  match turns a_turn a_start cs with
  | Ok (o, outs) => a_st o = Some S12 /\ a_mem o = mkMem 3 0 /\
      map snd outs = [[set_x_2]; [set_x_3]; [dummy_exit; set_y_1]; [dummy_act; dummy_act; dummy_act]; [set_y_0; set_x_2];
                      [set_x_3]; [dummy_exit; set_y_2]; [dummy_act; dummy_act; dummy_act]; [dummy_act; set_y_0; set_x_3]]
  | Fault _ => False
  end.
Proof.
  cbv zeta. split; [apply zars_ok|]. split; [| vm_compute; auto].
  repeat (constructor; [split; [reflexivity|]; split; [discriminate | apply zars_ok]|]). constructor.
Qed.

(** The key left out: '-' is 45, 45 - '0' as a signal of 8 bits is 253, and this is
    the event with which the framework creates a machine.  The machine starts
    again: from S12 its states are not left, S1 is entered a second time, and x
    and y are 0, then 1 and 0. *)
Theorem C78_minus_refuted :
  key_sig 45 = sig_creation dcfg /\
  match turns a_turn a_start (pressed [52; 45]%N) with
  | Ok (o, outs) => a_st o = Some S111 /\ map snd outs = [[set_x_3]; [my_init; set_y_0; set_x_1]] /\
      ~ In dummy_exit (concat (map snd outs))
  | Fault _ => False
  end.
Proof.
  split; [reflexivity|]. vm_compute. split; [reflexivity|]. split; [reflexivity|].
  intros H. repeat (destruct H as [H | H]; [discriminate|]). contradiction.
Qed.

(** * C79 The subm demo does what its diagram says *)
(** Likewise for the machine with a submachine in two places: which of the two it
    is in, and with it where the exit points lead, is never mixed up. *)
Theorem C79_subm :
  forall ars cs, arrays_ok dcfg ars -> typed cs ->
  exists o0 o outs, s_init_run ars = Ok (o0, EVT_PROC, [s_init]) /\ s_place o0 = Some P11 /\
    turns s_turn o0 cs = Ok (o, outs) /\ s_place o = Some (fst (keys s_spec P11 (map fst cs))) /\
    map tell outs = snd (keys s_spec P11 (map fst cs)).
Proof.
  intros ars cs Ha Hc. destruct (turns_spec s_place s_spec s_turn sst_dec sobj_dec s_all s_ars s_all_ok cs s_start P11 Hc) as (o & outs & H1 & _ & H2 & H3).
  - left. reflexivity.
  - reflexivity.
  - exists s_start, o, outs. split; [apply s_init_ok, Ha|]. auto.
Qed.
(** "3 4 5": into S2, out of it by its second exit; "1 1 5": into S12, out of it by
    its first. *)
Example C79_case :
  let cs := pressed [51; 52; 53; 49; 49; 53]%N in
  arrays_ok dcfg zars /\ typed cs /\
  match turns s_turn s_start cs with
  | Ok (o, outs) => s_st o = Some T13 /\ map snd outs = [[8]; []; [7; 4]; []; [5]; [6; 1]]%nat
  | Fault _ => False
  end.
Proof.
  cbv zeta. split; [apply zars_ok|]. split; [| vm_compute; auto].
  repeat (constructor; [split; [reflexivity|]; split; [discriminate | apply zars_ok]|]). constructor.
Qed.

Print Assumptions C78_ahsm.
Print Assumptions C78_data.
Print Assumptions C78_minus_refuted.
Print Assumptions C79_subm.
