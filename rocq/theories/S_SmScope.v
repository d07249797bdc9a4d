(** Which states a transition leaves and enters by the UML rules, for the two
    kinds of transitions that may leave a state. *)
From Verif Require Import Base M_Sm S_Sm.
Local Open Scope nat_scope.

(** In state [cs] the transition [t] of [src] is taken; [d1]: RAM and log when
    its path has come to the state [ts], [acts]: its actions not run yet; [lc] and
    [lt]: the active state and the target with the states they are in, innermost
    first. *)
Definition taken (c : smcfg) (M : machine) (grd : nat -> evt -> list xev -> bool) (d : dyn) (pe : evt) (cs src : nat) (t : trn)
    (d1 : dyn) (ts : nat) (acts lc lt : list nat) : Prop :=
  exists l d0 v b,
    d_st d = Some cs /\ chain M (d_dyp d) (Some cs) l /\ selected M grd pe d l src t d0 /\ t_tgt t = Some v /\ room c [] /\
    segs c M grd pe (mkP (say d0 [XTrn src (Some v)]) v (act1 (t_act t)) src) (mkP d1 ts acts b) /\ is_target M ts = true /\
    chain M (d_dyp d1) (Some cs) lc /\ chain M (d_dyp d1) (Some ts) lt.

(** From there: exits [out], the actions, entries [inn], and whatever follows. *)
Definition moved (M : machine) (d1 d' : dyn) (pe : evt) (out acts inn : list nat) : Prop :=
  exists rest, d_log d' = d_log d1 ++ map (fun s => XExit s (exit_of M s)) out ++ map (fun a => XEff a pe) acts ++
                          map (fun s => XEntry s (entry_of M s)) inn ++ rest.

(** External transition, source with the states [anc] around it, target with
    the states [tl lt] around it: only the states around both stay active. *)
Definition around (anc lt : list nat) (s : nat) : bool := mem s anc && mem s (tl lt).
Definition ext_exits (lc anc lt : list nat) : list nat := filter (fun s => negb (around anc lt s)) lc.
Definition ext_entries (anc lt : list nat) : list nat := rev (filter (fun s => negb (around anc lt s)) lt).

(** Local transition, target in the source or the source itself: the active
    states in the source are left, the source is not. *)
Fixpoint before (s : nat) (l : list nat) : list nat :=
  match l with
  | [] => []
  | x :: r => if (x =? s)%nat then [] else x :: before s r
  end.
Definition loc_exits (src : nat) (lc : list nat) : list nat := before src lc.
Definition loc_entries (src : nat) (lt : list nat) : list nat := rev (before src lt).
