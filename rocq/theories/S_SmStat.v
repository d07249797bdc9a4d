(** An application whose state machines share the static variables of
    rkh_sm_dispatch: calls one after another, each for one of the machines. *)
From Verif Require Import Base M_Sm S_SmWf S_SmRun M_SmStat.

(** A machine object: its vertices, its guards, its initial vertex and action. *)
Record mobj := mkObj { o_m : machine; o_grd : nat -> evt -> list xev -> bool; o_ist : nat; o_iact : option nat }.
(** [rkh_sm_init] or [rkh_sm_dispatch] of an event. *)
Inductive cop := CInit | CDisp (pe : evt).
Definition put {A} (f : nat -> A) (i : nat) (x : A) : nat -> A := fun j => if Nat.eqb j i then x else f j.
(** No action changes the static variables. *)
Definition keep : nat -> loc -> res loc := fun _ l => Ok l.
Definition stepS (c : smcfg) (call : nat -> nat -> loc -> res loc) (fuel : nat) (os : nat -> mobj) (s : loc * (nat -> dyn)) (op : nat * cop)
  : res (loc * (nat -> dyn)) :=
  let (l, ds) := s in
  let (i, o) := op in
  let m := os i in
  match o with
  | CInit => do (l, d, _) <- sm_initS c (o_m m) (o_grd m) (call i) fuel (o_ist m) (o_iact m) l (ds i); Ok (l, put ds i d)
  | CDisp pe =>
    match d_st (ds i) with
    | None => Ok (l, ds)
    | Some _ => do (l, d, _) <- dispatchS c (o_m m) (o_grd m) (call i) fuel (o_ist m) (o_iact m) l (ds i) pe; Ok (l, put ds i d)
    end
  end.
Fixpoint runS (c : smcfg) (call : nat -> nat -> loc -> res loc) (fuel : nat) (os : nat -> mobj) (s : loc * (nat -> dyn)) (ops : list (nat * cop))
  : res (loc * (nat -> dyn)) :=
  match ops with [] => Ok s | op :: r => do s1 <- stepS c call fuel os s op; runS c call fuel os s1 r end.

(** The calls for machine [i], each with some contents of the work arrays. *)
Definition same_call (o : cop) (op : smop) : Prop :=
  match o, op with
  | CInit, OInit _ => True
  | CDisp pe, ODisp pe' _ => pe = pe'
  | _, _ => False
  end.
Definition calls_of (i : nat) (ops : list (nat * cop)) : list cop := map snd (filter (fun o => Nat.eqb (fst o) i) ops).

(** The static variables at some moment: any values, arrays of the right size. *)
Definition statics_ok (c : smcfg) (l : loc) : Prop := length (l_al l) = sm_segs c /\ length (l_se l) = sm_depth c.
(** The limits of the configuration (rkhitl.h: 566-586) fit in a byte. *)
Definition bytes_ok (c : smcfg) : Prop := sm_segs c <= 255 /\ sm_depth c <= 255.
