(** What one may expect of rkh_trc_flush. *)
From Verif Require Import Base M_TrcStream S_TrcStream M_Flush.

Fixpoint runs {S O R : Type} (step : S -> O -> res (S * R)) (s : S) (ops : list O) : res (S * list R) :=
  match ops with
  | [] => Ok (s, [])
  | o :: ops => do (s, x) <- step s o; do (s, xs) <- runs step s ops; Ok (s, x :: xs)
  end.
(** The bytes put and the bytes sent. *)
Definition put_of (x : fout) : list N := match x with OPut b => [b] | _ => [] end.
Definition sent_of (x : fout) : list N := match x with OSent b => [b] | _ => [] end.
Definition bytes_put (xs : list fout) : list N := flat_map put_of xs.
Definition bytes_sent (xs : list fout) : list N := flat_map sent_of xs.
(** At no time more than [n] bytes are put and not yet sent; [m] at the start. *)
Fixpoint fits (n m : nat) (xs : list fout) : Prop :=
  match xs with
  | [] => True
  | OPut _ :: xs => m + 1 <= n /\ fits n (m + 1) xs
  | OSent _ :: xs => fits n (m - 1) xs
  | _ :: xs => fits n m xs
  end.
Definition prefix {A} (a b : list A) : Prop := exists t, b = a ++ t.
Definition suffix {A} (a b : list A) : Prop := exists t, b = t ++ a.
(** [a] is [b] with some elements left out. *)
Inductive subseq {A} : list A -> list A -> Prop :=
| SubNil : subseq [] []
| SubSkip x a b : subseq a b -> subseq a (x :: b)
| SubTake x a b : subseq a b -> subseq (x :: a) (x :: b).
Definition reader_ok (c : stcfg) (r : reader) : Prop := match r with ByBlock n => 0 < n < qmod c | ByByte => True end.
Definition resting (f : fst_) : Prop := match f_pc f with FSend _ _ _ => False | _ => True end.
