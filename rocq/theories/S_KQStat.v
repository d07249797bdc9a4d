(** Specification vocabulary for the statistics of the queues of an application. *)
From Verif Require Import Base M_Queue M_Kernel S_Kernel M_KTrc.

(** Events put into and taken out of a queue by the steps of a log. *)
Definition is_in (q : qname) (x : entry) : bool :=
  match q, x with
  | QAo o, EL (KPut _ o' _) => Nat.eqb o o'
  | QDq d, EL (KDefer d' _) => Nat.eqb d d'
  | _, _ => false
  end.
Definition is_out (q : qname) (x : entry) : bool :=
  match q, x with
  | QAo o, EL (KGet o' _) => Nat.eqb o o'
  | QDq d, EL (KUndefer d' _) => Nat.eqb d d'
  | _, _ => false
  end.
Definition ins (q : qname) (log : list entry) : nat := length (filter (is_in q) log).
Definition outs (q : qname) (log : list entry) : nat := length (filter (is_out q) log).
(** The log since the queue was initialised last: at the activation of its object, or
    at the start for deferral queues. *)
Definition inits (q : qname) (x : entry) : bool :=
  match q, x with QAo o, EL (KInit o') => Nat.eqb o o' | _, _ => false end.
Definition since_init (q : qname) (log : list entry) : list entry :=
  fold_left (fun l x => if inits q x then [] else l ++ [x]) log [].
(** The queue, and what waits in it. *)
Definition the_queue (s : kst) (q : qname) : option (queue N) :=
  match q with
  | QAo o => option_map ao_q (nth_error (k_ao s) o)
  | QDq d => nth_error (k_dq s) d
  end.
Definition waiting (s : kst) (q : qname) : list N := match q with QAo o => ao_view s o | QDq d => dq_view s d end.
