(** Specification vocabulary: the publish/subscribe calls of an execution in the
    order in which they take effect, with interrupts and nested calls. *)
From Verif Require Import Base M_RdyGrp M_Queue M_MemPool M_Kernel S_Kernel.
Local Open Scope N_scope.

(** A subscription call, or a publication with what it put in which queue, in
    order. *)
Inductive hev := HSub (op : kop) | HPub (ch e : N) (sender : option nat) (puts : list (nat * N)).
Definition is_ps (op : kop) : bool :=
  match op with OSub _ _ | OUnsub _ _ | OUnsubAll _ | OPublish _ _ _ => true | _ => false end.
Definition puts (labs : list klab) : list (nat * N) :=
  concat (map (fun x => match x with KPut _ o e => [(o, e)] | _ => [] end) labs).
Definition note (op : kop) (labs : list klab) : hev :=
  match op with OPublish ch e sn => HPub ch e sn (puts labs) | _ => HSub op end.
(** The subscription calls of a history; the call an entry stands for. *)
Definition subs (h : list hev) : list kop := concat (map (fun x => match x with HSub op => [op] | HPub _ _ _ _ => [] end) h).
Definition hop (x : hev) : kop := match x with HSub op => op | HPub ch e sn _ => OPublish ch e sn end.

(** A configuration with what an observer notes: the publish/subscribe calls made
    so far, those among the running calls that have not taken effect yet (one
    entry for each frame), and the history. *)
Record hconf := mkH { h_c : conf; h_made : list kop; h_run : list (option kop); h_hist : list hev }.
Definition waiting (r : list (option kop)) : list kop := concat (map (fun o => match o with Some op => [op] | None => [] end) r).

Section H.
Context (c : kcfg) (statics : list (N * N)).
(** The labels of the atom that runs, if the step takes place. *)
Definition taken (x : conf) : option (list klab) :=
  match c_stk x with
  | top :: stk =>
    match f_p top with
    | Atom f => match f (c_s x) with
                | Ok (s', labs, _) =>
                    if over statics s' (fold_left led_step labs (f_led top) ++ concat (map f_led stk) ++ c_led x) || stranded s'
                    then None else Some labs
                | Fault _ => None
                end
    | _ => None
    end
  | [] => None
  end.
Definition hstep (x : hconf) (ch : choice) : res hconf :=
  do y <- cstep c statics (h_c x) ch;
  match ch, c_stk (h_c x) with
  | ChIrq, _ => Ok (mkH y (h_made x) (None :: h_run x) (h_hist x))
  | ChCall op, stk =>
      if (length stk <? length (c_stk y))%nat
      then if is_ps op then Ok (mkH y (h_made x ++ [op]) (Some op :: h_run x) (h_hist x))
           else Ok (mkH y (h_made x) (None :: h_run x) (h_hist x))
      else Ok (mkH y (h_made x) (h_run x) (h_hist x))
  | ChGo, top :: stk =>
      match f_p top with
      | User _ _ => Ok (mkH y (h_made x) (h_run x) (h_hist x))
      | Ret _ => Ok (mkH y (h_made x) (match stk with [] => [None] | _ => tl (h_run x) end) (h_hist x))
      | Atom _ =>
        match taken (h_c x), h_run x with
        | Some labs, Some op :: r => Ok (mkH y (h_made x) (None :: r) (h_hist x ++ [note op labs]))
        | _, _ => Ok (mkH y (h_made x) (h_run x) (h_hist x))
        end
      end
  | ChGo, [] => Ok (mkH y (h_made x) (h_run x) (h_hist x))
  end.
Fixpoint hrun (x : hconf) (chs : list choice) : res hconf :=
  match chs with [] => Ok x | ch :: t => do x' <- hstep x ch; hrun x' t end.
Definition hconf0 (s : kst) : hconf := mkH (conf0 s) [] [None] [].
End H.

(** The priorities a history leaves subscribed to a channel, in ascending order. *)
Definition members (max : N) (prios : list N) (h : list hev) (ch : N) : list N :=
  filter (subscribed prios (subs h) ch) (map N.of_nat (seq 0 (N.to_nat max))).
