(** Machines without hierarchy, run by either configuration of the engine. *)
From Verif Require Import Base M_Sm M_SmFlat S_SmRun.

(** All vertices are basic or final states of the root region, without entry or
    exit action; targets exist. *)
Definition flat_trn (n : nat) (t : trn) : bool := match t_tgt t with Some v => v <? n | None => true end.
Definition flat_vertex (n : nat) (x : vertex) : bool :=
  match x with
  | VBasic None None None tbl => forallb (flat_trn n) tbl
  | VFinal None => true
  | _ => false
  end.
Definition flat_machine (M : machine) : bool := forallb (flat_vertex (length M)) M.
Definition no_completion (c : smcfg) (M : machine) : bool :=
  forallb (fun x => match x with VBasic _ _ _ tbl => forallb (fun t => negb (t_evt t =? sig_completion c)%N) tbl | _ => true end) M.
Definition no_final (M : machine) : bool := forallb (fun x => match x with VFinal _ => false | _ => true end) M.

(** What of a log does not come from entering or leaving a state without action:
    the calls of the application, the transitions and the new states. *)
Definition seen (l : list xev) : list xev :=
  filter (fun e => match e with XExit _ None | XEntry _ None => false | _ => true end) l.
(** A guard whose answer depends on its event and on what ran before. *)
Definition by_seen (grd : nat -> evt -> list xev -> bool) : nat -> evt -> list xev -> bool :=
  fun g e l => grd g e (seen l).

(** [rkh_sm_init] and then the events, with what the calls return. *)
Definition hier_run (c : smcfg) (M : machine) (grd : nat -> evt -> list xev -> bool) (fuel istate : nat) (iact : option nat)
    (d : dyn) (ars : arrays) (evs : list (evt * arrays)) : res (dyn * list rcode) :=
  do (d1, r) <- sm_init c M grd fuel istate iact d ars;
  do (d2, rs) <- feed c M grd fuel istate iact d1 evs;
  Ok (d2, r :: rs).
Fixpoint flat_feed (c : smcfg) (M : machine) (grd : nat -> evt -> list xev -> bool) (istate : nat) (iact : option nat)
    (d : dyn) (evs : list (evt * (list nat * nat))) : res (dyn * list rcode) :=
  match evs with
  | [] => Ok (d, [])
  | (pe, (al, ixn)) :: l =>
    do (d1, e) <- flat_dispatch c M grd istate iact d pe al ixn;
    do (d2, es) <- flat_feed c M grd istate iact d1 l;
    Ok (d2, e :: es)
  end.
Definition flat_run (c : smcfg) (M : machine) (grd : nat -> evt -> list xev -> bool) (istate : nat) (iact : option nat)
    (d : dyn) (al : list nat) (ixn : nat) (evs : list (evt * (list nat * nat))) : res (dyn * list rcode) :=
  do (d1, r) <- flat_init c M grd istate iact d al ixn;
  do (d2, rs) <- flat_feed c M grd istate iact d1 evs;
  Ok (d2, r :: rs).
