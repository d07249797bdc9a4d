(** Properties C36 to C39: trace records. *)
From Verif Require Import Base L_Base M_TrcStream S_TrcStream M_TrcRecord S_TrcRecord L_TrcRecord.
Local Open Scope N_scope.

(** Sample configuration and records, with flag and escape bytes in every
    field. *)
Definition C36_cfg : rccfg := mkRcCfg (mkStCfg 64 256) 1 true 2 true 4 1.
Definition C36_recs : list rec :=
  [ mkRec 126 0x7E7D [IWidth 1 125; IWidth 2 0x7D7E; IWidth 4 0x01020304];
    mkRec 33 7 [IStr [104; 126; 0; 9]; IFmtMem [126; 125; 1; 2] 3];
    mkRec 125 0x1FFFF [IFmtU16 1 0x7E00; IFmtStr [0]] ].
Lemma C36_cfg_ok : rc_cfg_ok C36_cfg.
Proof. repeat split; cbn; unfold width_ok; auto; lia. Qed.
Lemma C36_recs_ok : Forall rec_ok C36_recs.
Proof. repeat constructor; cbn; unfold width_ok, byte; auto 10; lia. Qed.

(** C36: records that fit in the stream are recovered exactly by the receiver,
    whatever bytes their fields hold. *)
Theorem C36_round_trip : forall c buf rs,
  rc_cfg_ok c -> length buf = sz (rc_st c) -> Forall rec_ok rs ->
  (1 + costs c 0 rs <= sz (rc_st c))%nat ->
  exists t0 t w, trc_init c buf = Ok t0 /\ do_recs c t0 rs = Ok t /\ readout c t = Ok w /\
    decode c w = sents c 0 rs.
Proof. exact round_trip. Qed.
Print Assumptions C36_round_trip.

Example C36_ex :
  costs C36_cfg 0 C36_recs = 49%nat /\
  sents C36_cfg 0 C36_recs =
    [Some (mkPrec 126 (Some 0) (Some 0x7E7D) [125; 126; 125; 4; 3; 2; 1]);
     Some (mkPrec 33 (Some 1) (Some 7) [104; 126; 0; 8; 3; 126; 125; 1]);
     Some (mkPrec 125 (Some 2) (Some 0xFFFF) [1; 0; 126; 7; 0])] /\
  match trc_init C36_cfg (repeat 0 64) with
  | Ok t0 => match do_recs C36_cfg t0 C36_recs with
             | Ok t => match readout C36_cfg t with
                       | Ok w => decode C36_cfg w = sents C36_cfg 0 C36_recs /\ length w = 50%nat
                       | _ => False end
             | _ => False end
  | _ => False end.
Proof. split; [|split]; [vm_compute; reflexivity|vm_compute; reflexivity|vm_compute; auto]. Qed.

(** C36: the same when reads take place between the records, as long as the
    stream is not overrun. *)
Theorem C36_read_in_turns : forall c buf ph,
  rc_cfg_ok c -> length buf = sz (rc_st c) ->
  Forall (fun p => Forall rec_ok (fst p)) ph -> no_overrun c 0 1 ph ->
  exists t0 t log w, trc_init c buf = Ok t0 /\ phases c t0 [] ph = Ok (t, log) /\ readout c t = Ok w /\
    decode c (log ++ w) = sents c 0 (flat_map fst ph).
Proof. exact in_turns. Qed.
Print Assumptions C36_read_in_turns.

Example C36_turns_ex :
  let ph := [(C36_recs, 20%nat); (firstn 1 C36_recs, 60%nat); (C36_recs, 13%nat)] in
  Forall (fun p => Forall rec_ok (fst p)) ph /\ no_overrun C36_cfg 0 1 ph /\
  (sz (rc_st C36_cfg) < costs C36_cfg 0 (flat_map fst ph))%nat.
Proof.
  cbn zeta. split; [|split].
  - pose proof C36_recs_ok as H. constructor; [exact H|]. constructor; [|constructor; [exact H|constructor]].
    inversion H; subst. constructor; [assumption|constructor].
  - vm_compute. repeat split; lia.
  - vm_compute. lia.
Qed.

(** C36: when the stream overruns, the receiver still gets a suffix of the
    records, and the longest one that fits together with a leading flag. *)
Theorem C36_overrun : forall c buf rs,
  rc_cfg_ok c -> length buf = sz (rc_st c) -> Forall rec_ok rs ->
  exists t0 t w j, trc_init c buf = Ok t0 /\ do_recs c t0 rs = Ok t /\ readout c t = Ok w /\
    decode c w = sents c j (skipn j rs) /\
    forall j', (j' <= length rs)%nat -> (1 + costs c j' (skipn j' rs) <= sz (rc_st c))%nat -> (j <= j')%nat.
Proof. exact overflow. Qed.
Print Assumptions C36_overrun.

Example C36_overrun_ex :
  let rs := C36_recs ++ C36_recs in
  (sz (rc_st C36_cfg) < 1 + costs C36_cfg 0 rs)%nat /\
  (1 + costs C36_cfg 2 (skipn 2 rs) <= sz (rc_st C36_cfg))%nat /\
  match trc_init C36_cfg (repeat 0 64) with
  | Ok t0 => match do_recs C36_cfg t0 rs with
             | Ok t => match readout C36_cfg t with
                       | Ok w => decode C36_cfg w = sents C36_cfg 2 (skipn 2 rs)
                       | _ => False end
             | _ => False end
  | _ => False end.
Proof. cbn zeta. split; [vm_compute; lia|]. split; [vm_compute; lia|]. vm_compute. reflexivity. Qed.

(** C37: the unescaped bytes of every frame read back add up to zero modulo
    256, and no single changed byte leaves the sum at zero. *)
Theorem C37_checksum : forall c buf rs,
  rc_cfg_ok c -> rc_chk c = true -> length buf = sz (rc_st c) -> Forall rec_ok rs ->
  exists t0 t w, trc_init c buf = Ok t0 /\ do_recs c t0 rs = Ok t /\ readout c t = Ok w /\
    forall f, In f (tl (frames w)) -> exists l, unescape f = Some l /\ sum l mod 256 = 0 /\
      forall i b v, nth_error l i = Some b -> byte v -> v <> b -> sum (upd l i v) mod 256 <> 0.
Proof. exact checksum. Qed.
Print Assumptions C37_checksum.

(** C37: consequently the receiver rejects every frame in which one byte was
    changed. *)
Theorem C37_single_change_rejected : forall l i b v,
  Forall byte l -> unchk true l <> None -> nth_error l i = Some b -> byte v -> v <> b ->
  unchk true (upd l i v) = None.
Proof. exact single_rejected. Qed.
Print Assumptions C37_single_change_rejected.

Example C37_ex :
  match trc_init C36_cfg (repeat 0 64) with
  | Ok t0 => match do_recs C36_cfg t0 C36_recs with
             | Ok t => match readout C36_cfg t with
                       | Ok w => map unescape (tl (frames w)) =
                         [Some [126; 0; 125; 126; 125; 126; 125; 4; 3; 2; 1; 5];
                          Some [33; 1; 7; 0; 104; 126; 0; 8; 3; 126; 125; 1; 234];
                          Some [125; 2; 255; 255; 1; 0; 126; 7; 0; 253]]
                       | _ => False end
             | _ => False end
  | _ => False end /\
  unchk true [33; 1; 7; 0; 104; 126; 0; 8; 3; 126; 125; 1; 234] <> None /\
  unchk true [33; 1; 7; 0; 105; 126; 0; 8; 3; 126; 125; 1; 234] = None.
Proof. split; [vm_compute; reflexivity|]. split; [vm_compute; discriminate|reflexivity]. Qed.

(** C38: the records received carry consecutive numbers modulo 256, and the
    first one tells how many were lost (modulo 256). *)
Theorem C38_sequence : forall c buf rs,
  rc_cfg_ok c -> rc_nseq c = true -> length buf = sz (rc_st c) -> Forall rec_ok rs ->
  exists t0 t w lost, trc_init c buf = Ok t0 /\ do_recs c t0 rs = Ok t /\ readout c t = Ok w /\
    (length (decode c w) = length rs - lost)%nat /\
    forall k x, nth_error (decode c w) k = Some x ->
      exists p r, x = Some p /\ nth_error rs (lost + k) = Some r /\
        p_seq p = Some (N.of_nat (lost + k) mod 256) /\ p_pay p = flat_map item_bytes (r_items r).
Proof. exact sequence. Qed.
Print Assumptions C38_sequence.

(** C38: numbers keep running across reads, so a loss of 1 to 255 records
    between two received ones is seen as a gap. *)
Theorem C38_across_reads : forall c buf ph rs,
  rc_cfg_ok c -> rc_nseq c = true -> length buf = sz (rc_st c) ->
  Forall (fun p => Forall rec_ok (fst p)) ph -> no_overrun c 0 1 ph -> Forall rec_ok rs ->
  exists t0 t log t' w j, trc_init c buf = Ok t0 /\ phases c t0 [] ph = Ok (t, log) /\
    do_recs c t rs = Ok t' /\ readout c t' = Ok w /\
    decode c w = sents c j (skipn j (flat_map fst ph ++ rs)) /\
    forall n k x p, N.of_nat n < 256 -> (0 < n)%nat ->
      (* the record before the gap was number [k]; [n] were lost *)
      (j = S k + n)%nat -> hd_error (decode c w) = Some x -> x = Some p ->
      exists q, p_seq p = Some q /\ q <> (N.of_nat k + 1) mod 256.
Proof. exact across_reads. Qed.
Print Assumptions C38_across_reads.

Example C38_ex :
  let rs := C36_recs ++ C36_recs in
  match trc_init C36_cfg (repeat 0 64) with
  | Ok t0 => match do_recs C36_cfg t0 rs with
             | Ok t => match readout C36_cfg t with
                       | Ok w => map (option_map p_seq) (decode C36_cfg w) =
                                 [Some (Some 2); Some (Some 3); Some (Some 4); Some (Some 5)]
                       | _ => False end
             | _ => False end
  | _ => False end.
Proof. vm_compute. reflexivity. Qed.

(** C39: a field of [w] bytes is least significant byte first and loses
    nothing but the bits above the width. *)
Theorem C39_fields_lossless : forall w d, unle (le w d) = d mod 256 ^ N.of_nat w /\ length (le w d) = w /\ Forall byte (le w d).
Proof. intros. split; [apply unle_le|]. split; [apply le_len|apply le_bytes]. Qed.
Print Assumptions C39_fields_lossless.

(** C39: a record with one arbitrary field, alone in the stream: the payload
    recovered is the field's representation. *)
Theorem C39_field_bytes : forall c buf id ts i,
  rc_cfg_ok c -> length buf = sz (rc_st c) -> item_ok i ->
  (1 + costs c 0 [mkRec id ts [i]] <= sz (rc_st c))%nat ->
  exists t0 t1 t2 t w p, trc_init c buf = Ok t0 /\ trc_begin c t0 id ts = Ok t1 /\
    do_item c t1 i = Ok t2 /\ trc_end c t2 = Ok t /\ readout c t = Ok w /\
    decode c w = [Some p] /\ p_pay p = item_bytes i /\
    p_id p = id mod 256 ^ N.of_nat (rc_idw c).
Proof. exact field_bytes. Qed.
Print Assumptions C39_field_bytes.

Example C39_ex :
  item_bytes (IWidth 4 0x12345678) = [0x78; 0x56; 0x34; 0x12] /\
  item_bytes (IFmtU32 3 0x7E) = [3; 0x7E; 0; 0; 0] /\
  item_bytes (IFmtStr [97; 98; 0; 99]) = [7; 97; 98; 0] /\
  item_bytes (IFmtMem [1; 2; 3] 2) = [8; 2; 1; 2] /\
  (1 + costs C36_cfg 0 [mkRec 5 9 [IFmtU32 3 0x7E]] <= 64)%nat.
Proof. repeat split; try reflexivity. vm_compute. lia. Qed.

(** C39: the records of objects, signals and states (used for the names of the
    symbols) are those of the corresponding fields. *)
Theorem C39_symbol_records : forall c t id ts a b nm,
  trc_obj c t id ts a nm = do_rec c t (mkRec id ts [IWidth (rc_ptrw c) a; IStr nm]) /\
  trc_sig c t id ts b nm = do_rec c t (mkRec id ts [IWidth (rc_sigw c) b; IStr nm]) /\
  trc_state c t id ts a b nm = do_rec c t (mkRec id ts [IWidth (rc_ptrw c) a; IWidth (rc_ptrw c) b; IStr nm]).
Proof. exact symbol_records. Qed.
Print Assumptions C39_symbol_records.

(** C36: a default record (no number, no time stamp) among ordinary ones is
    recovered too, and does not disturb the numbering of the others. *)
Theorem C36_default_record : forall c buf rs1 id items rs2,
  rc_cfg_ok c -> length buf = sz (rc_st c) -> Forall rec_ok rs1 -> Forall item_ok items -> Forall rec_ok rs2 ->
  (1 + costs c 0 rs1 + cost (dft_cfg c) 0 (mkRec id 0 items) + costs c (length rs1) rs2 <= sz (rc_st c))%nat ->
  exists t0 t1 t2 t w F1 f F2, trc_init c buf = Ok t0 /\ do_recs c t0 rs1 = Ok t1 /\
    do_dft c t1 id items = Ok t2 /\ do_recs c t2 rs2 = Ok t /\ readout c t = Ok w /\
    tl (frames w) = F1 ++ f :: F2 /\
    map (decode_frame c) F1 = sents c 0 rs1 /\
    decode_frame (dft_cfg c) f =
      Some (mkPrec (id mod 256 ^ N.of_nat (rc_idw c)) None None (flat_map item_bytes items)) /\
    map (decode_frame c) F2 = sents c (length rs1) rs2.
Proof. exact default_record. Qed.
Print Assumptions C36_default_record.

Example C36_default_ex :
  (1 + costs C36_cfg 0 (firstn 1 C36_recs) + cost (dft_cfg C36_cfg) 0 (mkRec 126 0 [IWidth 2 0x0701; IWidth 4 125]) +
   costs C36_cfg 1 (skipn 2 C36_recs) <= sz (rc_st C36_cfg))%nat.
Proof. vm_compute. lia. Qed.
