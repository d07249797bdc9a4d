(** What should arrive on the other side of the line. *)
From Verif Require Import Base M_TrcStream S_TrcStream M_TrcRecord S_TrcRecord M_Flush S_Flush M_Link.

(** The records written and the bytes sent. *)
Definition recs_of (xs : list kout) : list rec := flat_map (fun x => match x with KORec r => [r] | _ => [] end) xs.
Definition line_of (xs : list kout) : list N := flat_map (fun x => match x with KOStep (OSent b) => [b] | _ => [] end) xs.
(** The stream is not overrun: never more than [n] bytes are written and not yet
    sent; [i] records written and [m] bytes unsent so far. *)
Fixpoint keeps_up (c : rccfg) (n i m : nat) (xs : list kout) : Prop :=
  match xs with
  | [] => True
  | KORec r :: xs => m + cost c i r <= n /\ keeps_up c n (S i) (m + cost c i r) xs
  | KOStep (OSent _) :: xs => keeps_up c n i (m - 1) xs
  | KOStep _ :: xs => keeps_up c n i m xs
  end.
Definition kop_ok (o : kop) : Prop := match o with KRec r => rec_ok r | KStep => True end.
(** From start-up. *)
Definition fresh (c : rccfg) (buf : list N) (k : link) : Prop := exists t, trc_init c buf = Ok t /\ k = mkLink t FTake.
