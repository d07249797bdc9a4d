(** Specification vocabulary for the reader of the trace: frames, escaping and sums are
    those of S_TrcRecord. *)
From Coq Require Import String Ascii.
From Verif Require Import Base S_TrcRecord M_TzParse.
Local Open Scope N_scope.

(** What follows the last flag. *)
Fixpoint rest_ (acc l : list N) : list N :=
  match l with [] => rev acc | b :: l => if b =? 0x7E then rest_ [] l else rest_ (b :: acc) l end.
Definition rest (l : list N) : list N := rest_ [] l.
(** All pieces between flags, the last one incomplete. *)
Definition pieces (l : list N) : list (list N) := frames l ++ [rest l].
(** The bytes in a piece, without the escaping; an escape at its end is no byte. *)
Definition bytes_of (f : list N) : list N :=
  match unescape f with
  | Some d => d
  | None => match unescape (removelast f) with Some d => d | None => [] end
  end.

(** What should be reported for a frame: nothing for an empty or broken one, a record if
    the sum is right. *)
Definition verdict (d : list N) : list tz_call :=
  match d with [] => [] | _ => [if sum d mod 256 =? 0 then CallParser d else CallProcFail] end.
Definition verdicts (f : list N) : list tz_call := match unescape f with Some d => verdict d | None => [] end.
(** What is reported, for frames of any length: only so many bytes are looked at. *)
Definition seen (d : list N) : list N := firstn (length d mod 256) d.
Definition verdicts_seen (f : list N) : list tz_call := match unescape f with Some d => verdict (seen d) | None => [] end.

(** The characters of a string. *)
Definition text (s : string) : list N := map N_of_ascii (list_ascii_of_string s).
(** The answer of the test harness after a report. *)
Definition padded (s : list N) : list N := s ++ repeat 0 (UT_SIZEOF_MSG - length s).
Definition effect (o : ut_out) (x : tz_call) : ut_out :=
  match x with
  | CallProcFail => mkOut UtFail (padded (text "Trace stream checksum Error"%string)) 0
  | CallParser d =>
    match d with
    | id :: d =>
      if id =? 233 then mkOut UtFail (padded (removelast (cstr (skipn 4 d)))) (unle (firstn 4 d))
      else if id =? 232 then mkOut UtSuccess (u_msg o) (u_line o) else o
    | [] => o
    end
  end.
(** A frame that reports a failed test has a line number and a message of less than 16
    characters. *)
Definition fail_ok (f : list N) : Prop := forall d, unescape f = Some d -> sum (seen d) mod 256 = 0 ->
  nth_error (seen d) 0 = Some 233 -> (length d <= 255)%nat /\ In 0 (firstn 16 (skipn 5 d)).

(** The reader is in order: arrays of the right size. *)
Definition tz_good (z : tz) : Prop := length (z_tr z) = 512%nat /\ length (z_sym z) = 16%nat.
(** The records written, with their checksum. *)
Fixpoint datas (c : M_TrcRecord.rccfg) (i : nat) (l : list rec) : list (list N) :=
  match l with [] => [] | r :: l => with_chk c (rec_data c i r) :: datas c (S i) l end.
(** The bytes sent for a frame with content [d]. *)
Definition stuffed (d : list N) : list N :=
  flat_map (fun b => if special b then [0x7D; N.lxor b 0x20] else [b]) d ++ [0x7E].
