(** C73: the reader of the trace in the test harness. *)
From Coq Require Import String.
From Verif Require Import Base L_Base M_TrcStream S_TrcStream M_TrcRecord S_TrcRecord M_TzParse S_TzParse L_TzParse P_TrcRecord.
Local Open Scope N_scope.

(** Any bytes at all, in frames of up to 255: each frame is reported as it should be, in
    order, and nothing else; the answer is that of the reports; no access outside of an
    array. *)
Theorem C73_reads : forall z o l, tz_good z -> Forall byte l ->
  Forall (fun f => (length (bytes_of f) <= 255)%nat) (pieces l) -> Forall fail_ok (frames l) ->
  exists z', trazer_run (trazer_init z) o l =
    Ok (z', fold_left effect (flat_map verdicts (frames l)) o, flat_map verdicts (frames l)) /\ tz_good z'.
Proof. exact reads. Qed.
Print Assumptions C73_reads.

(** Frames of up to 512 bytes: still no access outside of an array, but only the first
    (length mod 256) bytes count. *)
Theorem C73_exact : forall z o l, tz_good z -> Forall byte l ->
  Forall (fun f => (length (bytes_of f) <= 512)%nat) (pieces l) -> Forall fail_ok (frames l) ->
  exists z', trazer_run (trazer_init z) o l =
    Ok (z', fold_left effect (flat_map verdicts_seen (frames l)) o, flat_map verdicts_seen (frames l)) /\ tz_good z'.
Proof. exact exact_. Qed.
Print Assumptions C73_exact.

(** A stream with a good record, a broken one, an empty frame, one that ends in an escape,
    a failure report, and an unfinished frame. *)
Definition C73_stream : list N :=
  [3; 5; 248; 126; 3; 5; 249; 126; 126; 9; 125; 126; 125; 93; 125; 94; 5; 126;
   233; 44; 1; 0; 0; 111; 107; 0; 16; 126; 7; 7].
Example C73_ex :
  Forall byte C73_stream /\ Forall (fun f => (length (bytes_of f) <= 255)%nat) (pieces C73_stream) /\ Forall fail_ok (frames C73_stream) /\
  flat_map verdicts (frames C73_stream) =
    [CallParser [3; 5; 248]; CallProcFail; CallParser [125; 126; 5]; CallParser [233; 44; 1; 0; 0; 111; 107; 0; 16]] /\
  (exists z', trazer_run (trazer_init tz0) out0 C73_stream =
     Ok (z', mkOut UtFail (padded [111; 107]) 300,
       [CallParser [3; 5; 248]; CallProcFail; CallParser [125; 126; 5]; CallParser [233; 44; 1; 0; 0; 111; 107; 0; 16]]) /\ z_trix z' = 2).
Proof.
  split; [|split; [|split; [|split]]].
  - repeat constructor.
  - let x := eval vm_compute in (pieces C73_stream) in change (pieces C73_stream) with x.
    repeat (apply Forall_cons; [vm_compute; lia|]). apply Forall_nil.
  - let x := eval vm_compute in (frames C73_stream) in change (frames C73_stream) with x.
    repeat (apply Forall_cons); [..|apply Forall_nil]; intros d Hd; vm_compute in Hd; try discriminate; injection Hd as <-; intros _ H; try discriminate; vm_compute; intuition lia.
  - reflexivity.
  - eexists. split; vm_compute; reflexivity.
Qed.

(** From start-up, or whenever it waits for a flag, the reader skips to the next flag and
    goes on as after [trazer_init]. *)
Theorem C73_synchronises : forall z o g l, z_state z = WFlag -> ~ In 0x7E g ->
  trazer_run z o (g ++ 0x7E :: l) = trazer_run (trazer_init z) o l.
Proof. intros z o g l H Hg. now apply skip_to_flag. Qed.
Print Assumptions C73_synchronises.

Example C73_synchronises_ex : z_state tz0 = WFlag /\ ~ In 0x7E [1; 125; 3] /\
  exists z', trazer_run tz0 out0 ([1; 125; 3] ++ 0x7E :: [3; 5; 248; 126]) = Ok (z', out0, [CallParser [3; 5; 248]]).
Proof. split; [reflexivity|]. split; [cbn; lia|]. eexists. vm_compute. reflexivity. Qed.

(** The records that RKH writes into its stream, with checksums, are those reported. *)
Theorem C73_reads_records : forall c z o buf rs, rc_chk c = true -> rc_cfg_ok c -> length buf = sz (rc_st c) -> Forall rec_ok rs ->
  Forall (fun d => (length d <= 255)%nat) (datas c 0 rs) -> Forall (fun r => r_id r mod 256 <> 233) rs ->
  (1 + costs c 0 rs <= sz (rc_st c))%nat -> tz_good z ->
  exists t0 t w z', trc_init c buf = Ok t0 /\ do_recs c t0 rs = Ok t /\ readout c t = Ok w /\
    trazer_run (trazer_init z) o w = Ok (z', fold_left effect (map CallParser (datas c 0 rs)) o, map CallParser (datas c 0 rs)).
Proof. intros c z o buf rs Hk. now apply reads_recorder_init. Qed.
Print Assumptions C73_reads_records.

(** If the stream was overrun, the reader that waits for a flag reports a suffix of the
    records, at least those that fit. *)
Theorem C73_reads_after_overrun : forall c z o buf rs, rc_chk c = true -> rc_cfg_ok c -> length buf = sz (rc_st c) -> Forall rec_ok rs ->
  Forall (fun d => (length d <= 255)%nat) (datas c 0 rs) -> Forall (fun r => r_id r mod 256 <> 233) rs ->
  tz_good z -> z_state z = WFlag ->
  exists t0 t w z' j, trc_init c buf = Ok t0 /\ do_recs c t0 rs = Ok t /\ readout c t = Ok w /\
    trazer_run z o w = Ok (z', fold_left effect (map CallParser (datas c j (skipn j rs))) o, map CallParser (datas c j (skipn j rs))) /\
    forall j', (j' <= length rs)%nat -> (1 + costs c j' (skipn j' rs) <= sz (rc_st c))%nat -> (j <= j')%nat.
Proof. intros c z o buf rs Hk. now apply reads_recorder. Qed.
Print Assumptions C73_reads_after_overrun.

Definition C73_w (rs : list rec) : list N :=
  ok_or [] (do t <- trc_init C36_cfg (repeat 0 64); do t <- do_recs C36_cfg t rs; readout C36_cfg t).
Example C73_records_ex :
  rc_chk C36_cfg = true /\ rc_cfg_ok C36_cfg /\ Forall (fun d => (length d <= 255)%nat) (datas C36_cfg 0 C36_recs) /\
  Forall (fun r => r_id r mod 256 <> 233) C36_recs /\ (1 + costs C36_cfg 0 C36_recs <= sz (rc_st C36_cfg))%nat /\
  tz_good tz0 /\ z_state tz0 = WFlag /\
  (match trazer_run (trazer_init tz0) out0 (C73_w C36_recs) with Ok (_, o, l) => Some (o, l) | Fault _ => None end) =
    Some (out0, map CallParser (datas C36_cfg 0 C36_recs)) /\
  (match trazer_run tz0 out0 (C73_w (C36_recs ++ C36_recs)) with Ok (_, o, l) => Some (o, l) | Fault _ => None end) =
    Some (out0, map CallParser (datas C36_cfg 2 (skipn 2 (C36_recs ++ C36_recs)))).
Proof.
  split; [reflexivity|]. split; [exact C36_cfg_ok|]. split.
  { let x := eval vm_compute in (datas C36_cfg 0 C36_recs) in change (datas C36_cfg 0 C36_recs) with x.
    repeat (apply Forall_cons; [cbn; lia|]). apply Forall_nil. }
  split; [repeat constructor; vm_compute; discriminate|]. split; [vm_compute; lia|].
  split; [split; reflexivity|]. split; [reflexivity|]. split; vm_compute; reflexivity.
Qed.

(** A failure reported by the trace analyser arrives with its line and its message. *)
Theorem C73_failure_arrives : forall z o line m, tz_good z -> Forall byte m -> ~ In 0 m -> (length m <= 15)%nat ->
  let d := 233 :: le 4 line ++ m ++ [0] in let k := (256 - sum d mod 256) mod 256 in
  exists z', trazer_run (trazer_init z) o (stuffed (d ++ [k])) = Ok (z', mkOut UtFail (padded m) (line mod 2 ^ 32), [CallParser (d ++ [k])]) /\ tz_good z'.
Proof. exact fail_report. Qed.
Print Assumptions C73_failure_arrives.

Example C73_failure_ex :
  let m := [126; 125; 101; 120; 112; 101; 99; 116; 101; 100; 32; 49; 50; 51; 33] in
  Forall byte m /\ ~ In 0 m /\ (length m <= 15)%nat /\
  exists z', trazer_run (trazer_init tz0) out0 (stuffed ((233 :: le 4 70000 ++ m ++ [0]) ++ [113])) =
    Ok (z', mkOut UtFail (padded m) 70000, [CallParser ((233 :: le 4 70000 ++ m ++ [0]) ++ [113])]).
Proof. cbn zeta. split; [repeat constructor|]. split; [cbn; lia|]. split; [cbn; lia|]. eexists. vm_compute. reflexivity. Qed.

(** The limit of 512 bytes is tested with a counter of 8 bits, so it is never seen: 513
    bytes without a flag are written past the end of the buffer. *)
Theorem C73_overrun_refuted :
  Forall byte (repeat 1 513) /\ trazer_run (trazer_init tz0) out0 (repeat 1 513) = Fault (FUB UB_bounds).
Proof. split; [now apply Forall_forall; intros x Hx; apply repeat_spec in Hx; subst|]. vm_compute. reflexivity. Qed.
Print Assumptions C73_overrun_refuted.

(** A correct record of exactly 256 bytes is passed over in silence. *)
Theorem C73_256_bytes_lost_refuted : forall d, Forall byte d -> length d = 256%nat ->
  exists z', trazer_run (trazer_init tz0) out0 (stuffed d) = Ok (z', out0, []).
Proof. exact lost256. Qed.
Print Assumptions C73_256_bytes_lost_refuted.

Example C73_256_ex : let d := repeat 1 256 in Forall byte d /\ length d = 256%nat /\ sum d mod 256 = 0.
Proof. split; [|split; reflexivity]. now apply Forall_forall; intros x Hx; apply repeat_spec in Hx; subst. Qed.

(** A longer record with a wrong sum may be taken for a good one, and with a right sum for
    a bad one. *)
Theorem C73_long_frames_refuted :
  let bad := 0 :: repeat 1 255 ++ [200] in let good := 1 :: repeat 1 255 ++ [0] in
  sum bad mod 256 <> 0 /\ (exists z', trazer_run (trazer_init tz0) out0 (stuffed bad) = Ok (z', out0, [CallParser [0]])) /\
  sum good mod 256 = 0 /\
  (exists z', trazer_run (trazer_init tz0) out0 (stuffed good) = Ok (z', mkOut UtFail (padded (text "Trace stream checksum Error"%string)) 0, [CallProcFail])).
Proof.
  cbn zeta. split; [vm_compute; discriminate|]. split; [eexists; vm_compute; reflexivity|]. split; [reflexivity|].
  eexists. vm_compute. reflexivity.
Qed.
Print Assumptions C73_long_frames_refuted.

(** A message of 16 characters is written past the end of the array for it. *)
Theorem C73_long_message_refuted :
  let d := 233 :: le 4 10 ++ repeat 97 16 ++ [0] in
  trazer_run (trazer_init tz0) out0 (stuffed (d ++ [(256 - sum d mod 256) mod 256])) = Fault (FUB UB_bounds).
Proof. vm_compute. reflexivity. Qed.
Print Assumptions C73_long_message_refuted.

(** Right after [trazer_init] the reader does not wait for a flag: what is left of a record
    after an overrun is reported as an error. *)
Theorem C73_init_overrun_refuted :
  (match trazer_run (trazer_init tz0) out0 (C73_w (C36_recs ++ C36_recs)) with Ok (_, o, l) => Some (u_status o, l) | Fault _ => None end) =
    Some (UtFail, CallProcFail :: map CallParser (datas C36_cfg 2 (skipn 2 (C36_recs ++ C36_recs)))).
Proof. vm_compute. reflexivity. Qed.
Print Assumptions C73_init_overrun_refuted.
