(** Model of two demonstration applications: demo/80x86/ahsm/my.c, a machine with
    histories, a choice and two conditionals, and demo/80x86/subm/my.c, a machine
    that uses one submachine twice.  Each is a machine for [M_Sm] and the data
    that its functions read and write.  A turn is rkh_sm_dispatch with the event
    of a key.  The log of a turn begins empty; the history cells and the
    submachine's dynamic parent are carried from turn to turn as values.  The
    queue and the pool are not part of it, and terminate only appears in the log. *)
From Verif Require Import Base M_Sm S_SmRun.

(** demo/80x86/ahsm/my.h: 33-43 and demo/80x86/subm/my.h: 33-43. *)
Inductive key := ZERO | ONE | TWO | THREE | FOUR | FIVE | SIX | TERM.
(** my.h: 33-43 of both: the value of the enumerator. *)
Definition sig_of (k : key) : N :=
  match k with ZERO => 0 | ONE => 1 | TWO => 2 | THREE => 3 | FOUR => 4 | FIVE => 5 | SIX => 6 | TERM => 7 end.

(** demo/libbsp/platform/80x86/linux/bsp_ahsm.c: 66-67, 127-142, [bsp_keyParser]:
    the signal of the event for the key with code [c]; RKH_SIG_T has 8 bits. *)
Definition key_sig (c : N) : N := if (c =? 27)%N then 7 else ((c + 208) mod 256)%N.

(** demo/80x86/ahsm/rkhcfg.h: 48, 227, 236 and demo/80x86/subm/rkhcfg.h, the same
    lines: signals of 8 bits, depth 4, 4 segments. *)
Definition dcfg : smcfg := mkSm true 4 4 255.

(** sm/inc/rkhsm.h: 811, RKH_TRREG: event, guard, action, target. *)
Definition rg (k : key) (g a : option nat) (t : nat) : trn := mkT (sig_of k) g a (Some t).
(** sm/inc/rkhsm.h: 835, RKH_TRINT: event and action, no target. *)
Definition it (k : key) (a : nat) : trn := mkT (sig_of k) None (Some a) None.
(** sm/inc/rkhsm.h: 956, RKH_BRANCH: guard, action, target. *)
Definition br (g : nat) (a : option nat) (t : nat) : trn := mkT 0 (Some g) a (Some t).

(** * demo/80x86/ahsm *)
(** my.c: 26-31, the vertices. *)
Definition S1 := 0. Definition S11 := 1. Definition S111 := 2. Definition S112 := 3. Definition S12 := 4.
(** my.c: 26-27. *)
Definition S2 := 5. Definition S3 := 6. Definition S31 := 7. Definition S32 := 8.
(** my.c: 28-31. *)
Definition CH := 9. Definition C1 := 10. Definition C2 := 11. Definition vH := 12. Definition vDH := 13.
(** my.c: 34-59, the functions. *)
Definition my_init := 0. Definition set_x1 := 1. Definition set_y_2 := 2. Definition set_y_1 := 3. Definition dummy_act := 4.
(** my.c: 41-42. *)
Definition show_data := 5. Definition terminate := 6.
(** my.c: 45-51, entry and exit actions. *)
Definition set_x_1 := 11. Definition set_x_2 := 12. Definition set_x_3 := 13. Definition set_y_0 := 14. Definition dummy_exit := 15.
(** my.c: 54-58 and rkhsm.c: 772-779, the guards. *)
Definition g_y0 := 0. Definition g_y1 := 1. Definition g_y2 := 2. Definition g_x1 := 3. Definition g_x2_or_x3 := 4. Definition g_else := 5.

(** my.c: 61-140, in the order of the vertices above. *)
Definition ahsm : machine :=
  [ VComp (Some set_y_0) (Some dummy_exit) None                                         (* S1: 71-78 *)
      [ it SIX show_data; it TERM terminate; rg TWO None (Some set_y_2) S2; rg THREE None None S3; rg FIVE None None S12 ]
      (Some S11) None (Some vDH);
    VComp None None (Some S1)                                                           (* S11: 85-89 *)
      [ rg TWO None None S112; rg FOUR None None S12 ] (Some S111) None (Some vH);
    VBasic (Some set_x_1) None (Some S11) [ rg ONE None None S112 ];                    (* S111: 91-94 *)
    VBasic (Some set_x_2) None (Some S11)                                               (* S112: 96-101 *)
      [ rg ONE None None S111; rg TWO None None S11; rg THREE None (Some set_x1) CH ];
    VBasic (Some set_x_3) None (Some S1) [ rg FOUR None (Some set_y_1) S2 ];            (* S12: 80-83 *)
    VBasic None None None                                                               (* S2: 61-69 *)
      [ it FOUR dummy_act; it SIX show_data; it TERM terminate; rg ONE (Some g_x1) (Some dummy_act) S1;
        rg TWO None None S2; rg THREE None (Some dummy_act) C2 ];
    VComp None None None                                                                (* S3: 106-112 *)
      [ it SIX show_data; it TERM terminate; rg TWO None None C1; rg THREE None None S3 ] (Some S31) None None;
    VBasic None None (Some S3) [ rg ONE None None S32 ];                                (* S31: 114-117 *)
    VBasic None None (Some S3) [ rg ONE None None S31; rg THREE None None S2 ];         (* S32: 119-123 *)
    VChoice [ br g_x1 (Some dummy_act) S3; br g_else (Some dummy_act) S32 ];            (* CH: 125-129 *)
    VCond [ br g_y1 None vH; br g_y2 (Some dummy_act) vDH; br g_y0 None S1 ];           (* C1: 131-136 *)
    VCond [ br g_x1 (Some dummy_act) S3; br g_x2_or_x3 (Some dummy_act) CH; br g_else None S2 ];  (* C2: 138-143 *)
    VHist false (Some S11) (mkT 0 None None None);                                      (* H: 103 *)
    VHist true (Some S1) (mkT 0 None None None) ].                                      (* DH: 104 *)

(** my.c: 146-151, the members x and y; 163-273, what the functions do to them. *)
Record mem := mkMem { m_x : N; m_y : N }.
(** my.c: 163-273, the functions. *)
Definition run_fun (f : nat) (m : mem) : mem :=
  if f =? my_init then mkMem 0 0                                     (* 195 *)
  else if (f =? set_x1) || (f =? set_x_1) then mkMem 1 (m_y m)       (* 199-204, 243-247 *)
  else if f =? set_x_2 then mkMem 2 (m_y m)                          (* 249-253 *)
  else if f =? set_x_3 then mkMem 3 (m_y m)                          (* 255-259 *)
  else if f =? set_y_0 then mkMem (m_x m) 0                          (* 261-265 *)
  else if f =? set_y_1 then mkMem (m_x m) 1                          (* 213-218 *)
  else if f =? set_y_2 then mkMem (m_x m) 2                          (* 206-211 *)
  else m.                                                            (* 220-240, 268-272 *)
(** my.c: 275-309, the guards; rkhsm.c: 772-779, [rkh_sm_else]. *)
Definition ask (g : nat) (m : mem) : bool :=
  if g =? g_y0 then (m_y m =? 0)%N
  else if g =? g_y1 then (m_y m =? 1)%N
  else if g =? g_y2 then (m_y m =? 2)%N
  else if g =? g_x1 then (m_x m =? 1)%N
  else if g =? g_x2_or_x3 then (m_x m =? 2)%N || (m_x m =? 3)%N
  else true.

(** The functions called, in order.  rkhsm.c: 149-154, 218 and 250. *)
Definition called (x : xev) : list nat :=
  match x with
  | XEff a _ => [a]
  | XEntry _ (Some a) | XExit _ (Some a) => [a]
  | _ => []
  end.
(** The functions called at the places of a log; no C counterpart.
    The calls are those of rkhsm.c: 149-154, 218 and 250. *)
Definition calls (l : list xev) : list nat := flat_map called l.
(** my.c: 163-273: what the functions called do to x and y. *)
Definition after_calls (m : mem) (l : list xev) : mem := fold_left (fun m f => run_fun f m) (calls l) m.

(** The active object between two events: its state, the two history cells, x and y.
    ahsm/my.c: 146-151, 103-104. *)
Record aobj := mkA { a_st : option nat; a_h : option nat; a_dh : option nat; a_mem : mem }.
(** my.c: 146-151, 103-104: the object as RAM of [M_Sm]. *)
Definition a_dyn (o : aobj) : dyn :=
  mkD (a_st o) (fun v => if v =? vH then a_h o else if v =? vDH then a_dh o else None) (fun _ => None) [].
(** rkhsm.c: 389-760, [rkh_sm_dispatch] of the object. *)
Definition a_run (ars : arrays) (o : aobj) (pe : evt) : res (aobj * rcode * list nat) :=
  do (d, r) <- dispatch dcfg ahsm (fun g _ l => ask g (after_calls (a_mem o) l)) 20 S1 (Some my_init) (a_dyn o) pe ars;
  Ok (mkA (d_st d) (d_hist d vH) (d_hist d vDH) (after_calls (a_mem o) (d_log d)), r, calls (d_log d)).
(** my.c: 153; the object's memory is zero at the start (static storage). *)
Definition a_zero : aobj := mkA None None None (mkMem 0 0).
(** rkhsm.c: 375-379, [rkh_sm_init] of the object. *)
Definition a_init (ars : arrays) : res (aobj * rcode * list nat) := a_run ars a_zero (evCreation dcfg).
(** rkhsm.c: 389-760 with the event of a key, bsp_ahsm.c: 127-142. *)
Definition a_turn (ars : arrays) (o : aobj) (c : N) : res (aobj * rcode * list nat) := a_run ars o (mkEv (key_sig c) 0).

(** * demo/80x86/subm *)
(** my.c: 26-32, the vertices. *)
Definition T1 := 0. Definition T11 := 1. Definition T12 := 2. Definition T13 := 3. Definition T2 := 4. Definition T3 := 5.
(** my.c: 27 and 29. *)
Definition SB := 6. Definition SB1 := 7. Definition SB2 := 8.
(** my.c: 30-32. *)
Definition EXPNT1 := 9. Definition EXPNT2 := 10. Definition ENS12 := 11. Definition ENS2 := 12.
(** my.c: 35-46, the functions: 1 to 8 are act1 to act8. *)
Definition s_init := 0. Definition s_terminate := 9.

(** my.c: 52-129, in the order of the vertices above. *)
Definition subm : machine :=
  [ VComp None None None [ it TERM s_terminate; rg THREE None None ENS2 ] (Some T11) None None;            (* S1: 52-56 *)
    VBasic None None (Some T1)                                                                            (* S11: 58-63 *)
      [ rg ONE None (Some 5) T12; rg TWO None None ENS12; rg FOUR None None T11 ];
    VSubm None None (Some T1) [ it TERM s_terminate; rg THREE None None T1 ]                               (* S12: 100-110 *)
      [ (Some 1, Some T13); (Some 2, Some T3) ] SB;
    VBasic None None (Some T1) [ rg ONE None None T1 ];                                                   (* S13: 65-68 *)
    VSubm None None None [ it TERM s_terminate ] [ (Some 3, Some T1); (Some 4, Some T3) ] SB;               (* S2: 117-126 *)
    VBasic None None None [ it TERM s_terminate; rg ONE None None T1 ];                                   (* S3: 70-74 *)
    VRsm (Some SB1) None;                                                                                 (* SB: 79 *)
    VBasic None None (Some SB) [ rg FOUR None None SB2; rg FIVE None (Some 6) EXPNT1 ];                   (* SB1: 81-85 *)
    VBasic None None (Some SB) [ rg FOUR None None SB1; rg FIVE None (Some 7) EXPNT2 ];                   (* SB2: 87-91 *)
    VExp 0 SB;                                                                                            (* 93 *)
    VExp 1 SB;                                                                                            (* 94 *)
    VEnp (Some 8) (Some SB1) T12;                                                                         (* 95, 112 *)
    VEnp (Some 8) (Some SB1) T2 ].                                                                        (* 95, 128 *)

(** The active object between two events: its state and the submachine's dynamic
    parent.  Its x and y are not used.  subm/my.c: 79, 131-138. *)
Record sobj := mkS { s_st : option nat; s_dyp : option nat }.
(** my.c: 79, 131-138: the object as RAM of [M_Sm]. *)
Definition s_dyn (o : sobj) : dyn := mkD (s_st o) (fun _ => None) (fun v => if v =? SB then s_dyp o else None) [].
(** rkhsm.c: 389-760, [rkh_sm_dispatch] of the object. *)
Definition s_run (ars : arrays) (o : sobj) (pe : evt) : res (sobj * rcode * list nat) :=
  do (d, r) <- dispatch dcfg subm (fun _ _ _ => true) 20 T1 (Some s_init) (s_dyn o) pe ars;
  Ok (mkS (d_st d) (d_dyp d SB), r, calls (d_log d)).
(** my.c: 138; the memory is zero at the start. *)
Definition s_zero : sobj := mkS None None.
(** rkhsm.c: 375-379, [rkh_sm_init] of the object. *)
Definition s_init_run (ars : arrays) : res (sobj * rcode * list nat) := s_run ars s_zero (evCreation dcfg).
(** rkhsm.c: 389-760 with the event of a key. *)
Definition s_turn (ars : arrays) (o : sobj) (c : N) : res (sobj * rcode * list nat) := s_run ars o (mkEv (key_sig c) 0).
