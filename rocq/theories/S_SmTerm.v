(** When a dispatch ends: what the paths of compound transitions and the default
    transitions must not do, and chains of completion events. *)
From Verif Require Import Base M_Sm S_Sm S_SmWf.

Section Term.
Context (c : smcfg) (M : machine) (grd : nat -> evt -> list xev -> bool).

(** The vertices a path can go on to from a vertex it does not end in: branches,
    the state a shallow history may have stored if that is a submachine state,
    the default of a history, of a submachine, of an entry point, and what the
    submachine states connect an exit point to. *)
Definition some1 (o : option nat) : list nat := match o with Some t => [t] | None => [] end.
Definition onward (v : nat) : list nat :=
  match nth_error M v with
  | Some (VCond tbl) | Some (VChoice tbl) => flat_map (fun t => some1 (t_tgt t)) tbl
  | Some (VHist deep (Some q) dft) =>
    some1 (t_tgt dft) ++
    (if deep then []
     else filter (fun m => match nth_error M m with Some (VSubm _ _ (Some p) _ _ _) => (p =? q)%nat | _ => false end)
                 (seq 0 (length M)))
  | Some (VSubm _ _ _ _ _ r) => match nth_error M r with Some (VRsm dc _) => some1 dc | _ => [] end
  | Some (VEnp _ t _) => some1 t
  | Some (VExp ix r) =>
    flat_map (fun x => match x with
                       | VSubm _ _ _ _ expcn r' => if (r' =? r)%nat then match nth_error expcn ix with Some (_, t) => some1 t | None => [] end else []
                       | _ => []
                       end) M
  | _ => []
  end.
(** Paths are not circular: [order] decreases along them. *)
Definition paths_end (order : nat -> nat) : bool :=
  forallb (fun v => (order v <? length M)%nat && forallb (fun w => is_target M w || (order w <? order v)%nat) (onward v))
          (seq 0 (length M)).

(** The default transition of a composite state leads into it: not back to the
    composite state itself, which a history with nothing stored and without
    default transition does. *)
Fixpoint leads_in (n : nat) (q v : nat) : bool :=
  match n with
  | O => false
  | S n =>
    match nth_error M v with
    | Some (VBasic _ _ _ _) | Some (VComp _ _ _ _ _ _ _) | Some (VFinal _) => negb (v =? q)%nat
    | Some (VCond tbl) | Some (VChoice tbl) =>
      forallb (fun t => match t_tgt t with None => true | Some w => leads_in n q w end) tbl
    | Some (VHist _ _ dft) => match t_tgt dft with None => false | Some w => leads_in n q w end
    | _ => true
    end
  end.
Definition defaults_enter : bool :=
  forallb (fun q => match nth_error M q with Some (VComp _ _ _ _ (Some w) _ _) => leads_in (length M) q w | _ => true end)
          (seq 0 (length M)).

(** Turns of any one loop of a dispatch. *)
Definition turns : nat := length M + 4 * sm_depth c + 6.

(** [n] completion events in a row, from an outcome that asks for one. *)
Inductive completions : nat -> result -> Prop :=
| comps_none d : completions 0 (Chained d)
| comps_more n d r : step c M grd (mkEv (sm_any c - 1) 0) d r -> completions n r -> completions (S n) (Chained d).

(** * A check that completion events cannot follow one another for ever *)
Definition every (f : nat -> bool) : list nat := filter f (seq 0 (length M)).
(** The states in which a state may be, through any submachine state that uses
    the submachine it belongs to. *)
Definition users (r : nat) : list nat :=
  every (fun m => match nth_error M m with Some (VSubm _ _ _ _ _ r') => (r' =? r)%nat | _ => false end).
Fixpoint around (n : nat) (s : nat) : list nat :=
  s :: match n with
       | O => []
       | S n => match parent_of M s with
                | Some (Some p) => if is_rsm M p then flat_map (around n) (users p) else around n p
                | _ => []
                end
       end.
(** Where a vertex leads: also by default entry, and to what its history may
    have stored. *)
Definition leads (v : nat) : list nat :=
  onward v ++
  match nth_error M v with
  | Some (VComp _ _ _ _ dc _ _) => some1 dc
  | Some (VHist deep (Some q) dft) =>
    (match t_tgt dft with None => [q] | Some _ => [] end) ++
    every (fun s => if deep then is_leaf M s && (negb (plain c M q) || within M (sm_depth c) q s)
                    else match parent_of M s with Some (Some p) => (p =? q)%nat | _ => false end)
  | _ => []
  end.
(** [mu] does not increase along the way, and decreases with every completion
    transition that may be taken from a state left by a completion event. *)
Definition completions_end (mu : nat -> nat) : bool :=
  forallb (fun v => forallb (fun w => mu w <=? mu v)%nat (leads v)) (seq 0 (length M)) &&
  forallb (fun s => negb (completes c M s) ||
      forallb (fun a => forallb (fun t => match t_tgt t with None => true | Some v => (mu v <? mu s)%nat end)
                                (triggered M (sm_any c - 1) a)) (around (sm_depth c) s))
          (seq 0 (length M)).
Definition highest (mu : nat -> nat) : nat := list_max (map mu (seq 0 (length M))).
End Term.
