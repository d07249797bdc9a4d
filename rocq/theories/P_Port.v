(** C63: the critical sections of the bare-metal ports.

    Whatever the task and the interrupt handlers do (any code made of ordinary
    instructions and nested sections, any interrupts at any instruction): two
    activities are never in a section at once, while one is in a section only
    handlers without sections are taken, and out of all sections exactly the
    interrupts are taken that would be if there were no sections. *)
From Verif Require Import Base L_Base M_Port S_Port L_Port.
Local Open Scope N_scope.

(** S08, sections nested at most eight deep.  The task may run with interrupts
    masked or not ([m0]). *)
Theorem C63_s08 : forall xs m0 main hs,
  sources_ok 1 8 xs -> (depth main <= 8)%nat ->
  exists c, crun s08 xs (conf0 s08 m0 main) hs = Ok c /\ safe s08 xs lvl c.
Proof. exact s08_safe. Qed.

(** Cortex-M ports that count; the handlers that use the framework have a
    level of at most [K]; the task itself masks nothing. *)
Theorem C63_cortex : forall K cap xs main hs,
  N.of_nat cap < 4294967296 -> sources_ok K cap xs -> (depth main <= cap)%nat ->
  exists c, crun (cm K) xs (conf0 (cm K) 0 main) hs = Ok c /\ safe (cm K) xs lvl c.
Proof. intros K cap xs main hs H. exact (cm_safe K cap H xs main hs). Qed.

(** The stm32 port: the same, and the task may have masked what it wants up to
    [K]; its mask is restored. *)
Theorem C63_stm32 : forall K m0 cap xs main hs,
  m0 <= K -> N.of_nat cap < 4294967296 -> sources_ok K cap xs -> (depth main <= cap)%nat ->
  exists c, crun (stm K) xs (conf0 (stm K) m0 main) hs = Ok c /\
    safe (stm K) xs (fun f => N.max m0 (lvl f)) c.
Proof. intros K m0 cap xs main hs H1 H2. exact (stm_safe K m0 H1 cap H2 xs main hs). Qed.

(** ColdFire V1, when all the handlers that use the framework have one level. *)
Theorem C63_coldfire_one_level : forall L m0 cap xs main hs,
  L <= 7 -> m0 <= 7 -> N.of_nat cap < 65534 ->
  (forall x, In x xs -> (has_sect (snd x) = true -> fst x = L) /\ (depth (snd x) <= cap)%nat) ->
  (depth main <= cap)%nat ->
  exists c, crun cfv1 xs (conf0 cfv1 m0 main) hs = Ok c /\ safe cfv1 xs lvl c.
Proof.
  intros L m0 cap xs main hs H1 H2 H3 H4. exact (cf_safe L m0 cap H3 H1 H2 xs H4 main hs).
Qed.

(** One section around one instruction. *)
Definition W : code := Sect (Work Nil) Nil.
Definition gos (n : nat) : list choice := repeat ChGo n.

(** With two levels the ColdFire port does not keep the sections apart: an
    interrupt that comes after the task has raised the counter and before it
    has set the mask finds the counter raised, and enters its section without
    setting the mask. *)
Definition cf_race : list choice :=
  gos 4 ++ [ChIrq 0] ++ gos 5 ++ [ChIrq 1] ++ gos 5.

Theorem C63_coldfire_refuted :
  exists xs main hs c f g,
    sources_ok 7 1 xs /\ depth main = 1%nat /\
    crun cfv1 xs (conf0 cfv1 0 main) hs = Ok c /\
    nth_error (fs c) 0 = Some f /\ inside f /\ nth_error (fs c) 1 = Some g /\ inside g.
Proof.
  exists [(1, W); (2, W)], W, cf_race.
  eexists _, _, _. split.
  { intros x [<-|[<-|[]]]; cbn; repeat split; auto; lia. }
  split; [reflexivity|]. split; [vm_compute; reflexivity|].
  cbn. repeat split; discriminate.
Qed.

(** A Cortex-M port that counts leaves every interrupt enabled after a section
    that was entered with some of them masked. *)
Theorem C63_cortex_restore_refuted :
  exists K m0 xs main hs c,
    0 < m0 /\ m0 <= K /\ sources_ok K 1 xs /\ depth main = 1%nat /\
    crun (cm K) xs (conf0 (cm K) m0 main) hs = Ok c /\
    accepts (cm K) (conf0 (cm K) m0 main) m0 = false /\ accepts (cm K) c m0 = true.
Proof.
  exists 4, 3, [(3, W)], W, (gos 14). eexists. split; [lia|]. split; [lia|]. split.
  { intros x [<-|[]]; cbn; repeat split; auto; lia. }
  split; [reflexivity|]. split; [vm_compute; reflexivity|]. split; reflexivity.
Qed.

(** * Cases *)

Definition W2 : code := Sect (Work (Sect (Work Nil) (Work Nil))) (Work Nil).

(** Interrupts of two levels during nested sections: they wait on the S08 ... *)
Example C63_ex_s08 :
  sources_ok 1 8 [(1, W2)] /\ depth W2 = 2%nat /\
  match crun s08 [(1, W2)] (conf0 s08 0 W2) (gos 7 ++ [ChIrq 0] ++ gos 2) with
  | Ok c => length (fs c) = 1%nat /\ map (fun f => length (opn f)) (fs c) = [1%nat]
            /\ accepts s08 c 1 = false
  | Fault _ => False
  end /\
  match crun s08 [(1, W2)] (conf0 s08 0 W2) (gos 40) with
  | Ok c => map ph (fs c) = [Run Nil] /\ accepts s08 c 1 = true
  | Fault _ => False
  end.
Proof.
  split. { intros x [<-|[]]; cbn; repeat split; auto; lia. }
  vm_compute. repeat split; reflexivity.
Qed.

(** ... and nine nested sections write behind the array. *)
Fixpoint nest (n : nat) : code := match n with O => Work Nil | S m => Sect (nest m) Nil end.

Example C63_ex_s08_deep :
  depth (nest 9) = 9%nat /\
  crun s08 [] (conf0 s08 0 (nest 9)) (gos 70) = Fault (FUB UB_bounds) /\
  is_ok (crun s08 [] (conf0 s08 0 (nest 8)) (gos 200)) = true.
Proof. vm_compute. repeat split; reflexivity. Qed.

(** On a Cortex-M a more urgent handler without sections is taken inside a
    section, one with sections is not. *)
Example C63_ex_cortex :
  sources_ok 4 2 [(3, W2); (5, Work Nil)] /\
  match crun (cm 4) [(3, W2); (5, Work Nil)] (conf0 (cm 4) 0 W2)
             (gos 7 ++ [ChIrq 0; ChIrq 1]) with
  | Ok c => map lvl (fs c) = [5; 0] /\ map (fun f => length (opn f)) (fs c) = [0%nat; 1%nat]
  | Fault _ => False
  end.
Proof.
  split. { intros x [<-|[<-|[]]]; cbn; repeat split; auto; try lia; discriminate. }
  vm_compute. repeat split; reflexivity.
Qed.

(** The stm32 port restores the task's own mask. *)
Example C63_ex_stm32 :
  sources_ok 4 2 [(3, W2)] /\
  match crun (stm 4) [(3, W2)] (conf0 (stm 4) 3 W2) (gos 40) with
  | Ok c => map ph (fs c) = [Run Nil] /\ accepts (stm 4) c 3 = false /\ accepts (stm 4) c 4 = true
  | Fault _ => False
  end.
Proof.
  split. { intros x [<-|[]]; cbn; repeat split; auto; lia. }
  vm_compute. repeat split; reflexivity.
Qed.

(** ColdFire, one level: the interrupt in the same place as in [cf_race] is
    taken, runs its section and returns, and the task goes on to set the mask. *)
Example C63_ex_coldfire :
  match crun cfv1 [(2, W2); (6, Work Nil)] (conf0 cfv1 0 W2)
             (gos 4 ++ [ChIrq 0] ++ gos 7) with
  | Ok c => map (fun f => length (opn f)) (fs c) = [1%nat; 0%nat]
            /\ accepts cfv1 c 2 = false /\ accepts cfv1 c 6 = true
  | Fault _ => False
  end /\
  match crun cfv1 [(2, W2); (6, Work Nil)] (conf0 cfv1 0 W2)
             (gos 4 ++ [ChIrq 0] ++ gos 26 ++ gos 6) with
  | Ok c => map (fun f => length (opn f)) (fs c) = [1%nat]
            /\ accepts cfv1 c 2 = false /\ accepts cfv1 c 6 = false
  | Fault _ => False
  end.
Proof. vm_compute. repeat split; reflexivity. Qed.

Print Assumptions C63_s08.
Print Assumptions C63_cortex.
Print Assumptions C63_stm32.
Print Assumptions C63_coldfire_one_level.
Print Assumptions C63_coldfire_refuted.
Print Assumptions C63_cortex_restore_refuted.
