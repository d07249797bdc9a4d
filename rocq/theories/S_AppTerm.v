(** Specification vocabulary: a state machine whose active object is terminated and
    activated again. *)
From Verif Require Import Base M_RdyGrp M_Queue M_MemPool M_Kernel M_Sm S_SmWf S_SmRun S_Kernel M_App S_App.
Local Open Scope N_scope.

(** What happened to the machine of object [o]: [None] started, [Some g] handled
    signal [g]. *)
Definition story (o : nat) (w : list obs) : list (option (option N)) :=
  concat (map (fun x => match x with
                        | Started o' => if Nat.eqb o o' then [None] else []
                        | Handled o' g => if Nat.eqb o o' then [Some g] else []
                        | Sent _ _ _ => []
                        end) w).
(** A machine on its own, started and given signals; [k] counts the calls. *)
Fixpoint lives (ob : smobj) (k : nat) (r : res dyn) (l : list (option (option N))) : res dyn :=
  match l with
  | [] => r
  | None :: t =>
      lives ob (S k) (do d <- r; do (d', _) <- sm_init (ob_c ob) (ob_M ob) (ob_grd ob) (ob_fuel ob) (ob_ist ob) (ob_iact ob) d (ob_ars ob k); Ok d') t
  | Some g :: t =>
      lives ob (S k) (do d <- r; do (d', _) <- dispatch (ob_c ob) (ob_M ob) (ob_grd ob) (ob_fuel ob) (ob_ist ob) (ob_iact ob) d
                                                 (mkEv (match g with Some v => v | None => 0 end)
                                                       (2 + match g with Some v => v | None => 0 end)) (ob_ars ob k); Ok d') t
  end.
(** The same as calls of the state machine's functions (S_SmRun). *)
Fixpoint life_calls (ob : smobj) (k : nat) (l : list (option (option N))) : list smop :=
  match l with
  | [] => []
  | None :: t => OInit (ob_ars ob k) :: life_calls ob (S k) t
  | Some g :: t => ODisp (mkEv (match g with Some v => v | None => 0 end) (2 + match g with Some v => v | None => 0 end)) (ob_ars ob k)
                   :: life_calls ob (S k) t
  end.

(** *** The next life of a machine *)
(** Guards that do not look at what the machine did before. *)
Definition blind (grd : nat -> evt -> list xev -> bool) : Prop := forall g e l1 l2, grd g e l1 = grd g e l2.
(** The same histories, and the same submachine states recorded as entered. *)
Definition same_ram (d1 d2 : dyn) : Prop := (forall h, d_hist d1 h = d_hist d2 h) /\ (forall r, d_dyp d1 r = d_dyp d2 r).
(** The same fault, or: the same state and RAM, and the same was done since [d1] and [d2]. *)
Definition same_life (d1 d2 : dyn) (r1 r2 : res dyn) : Prop :=
  match r1, r2 with
  | Ok a, Ok b => d_st a = d_st b /\ same_ram a b /\ exists x, d_log a = d_log d1 ++ x /\ d_log b = d_log d2 ++ x
  | Fault f, Fault g => f = g
  | _, _ => False
  end.
