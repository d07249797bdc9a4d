(** Proofs: trace records of timers. *)
From Verif Require Import Base L_Base M_Tmr S_Tmr L_Tmr M_TmrTrc S_TmrTrc.
Local Open Scope N_scope.

(** ** Records change nothing *)
Lemma sar_t fuel s t l : path (ts_heap s) (ts_head s) l -> (length l <= fuel)%nat ->
  search_and_remove_t fuel s t = do s' <- search_and_remove fuel s t; Ok (s', if in_dec N.eq_dec t l then [RRem t] else []).
Proof.
  intros Hp Hl. unfold search_and_remove, search_and_remove_t, rem_from_list_t.
  destruct (tm_search_spec s t l [] fuel) as [[Hi [q Hq]] | (p1 & p2 & Hl1 & Hq)]; auto; cbn [lasto] in Hq;
  rewrite <- (path_hdo _ _ _ Hp) in Hq; rewrite Hq; cbn [bind].
  - now destruct (in_dec N.eq_dec t l).
  - destruct (in_dec N.eq_dec t l) as [_|H]; [reflexivity|]. exfalso. apply H. rewrite Hl1. apply in_or_app. right. now left.
Qed.
Lemma posts_app a b : posts_of (a ++ b) = posts_of a ++ posts_of b.
Proof. apply flat_map_app. Qed.
Lemma loop_erase c : forall fuel s ps tp t s' ps' w, tm_loop c no_hook tm_post fuel s ps tp t = Ok (s', ps') -> posts_of w = ps ->
  exists w', tm_loop_t c fuel s w tp t = Ok (s', w') /\ posts_of w' = ps'.
Proof.
  induction fuel as [|k IH]; intros s ps tp [x|] s' ps' w E Hw; cbn [tm_loop tm_loop_t] in *; try discriminate.
  1, 3: injection E as <- <-; eauto.
  destruct (tm_used (ts_heap s x)).
  - destruct (_ =? 0) in *.
    + destruct (tm_period _ =? 0).
      * unfold rem_from_list_t. destruct (rem_from_list _ x tp) as [s1|f]; cbn [bind no_hook tm_post] in *; [|discriminate].
        apply (IH _ _ _ _ _ _ _ E). rewrite !posts_app, Hw. cbn. now rewrite !app_nil_r.
      * cbn [bind no_hook tm_post] in *. apply (IH _ _ _ _ _ _ _ E). rewrite !posts_app, Hw. cbn. now rewrite !app_nil_r.
    + apply (IH _ _ _ _ _ _ _ E Hw).
  - unfold rem_from_list_t. destruct (rem_from_list s x tp) as [s1|f]; cbn [bind] in *; [|discriminate].
    apply (IH _ _ _ _ _ _ _ E). rewrite posts_app, Hw. cbn. now rewrite app_nil_r.
Qed.

(** ** The records of a tick *)
Definition rec_of (s : tmst) (x : N) : list trec :=
  if tm_ntick (ts_heap s x) =? 1 then RTout x :: (if tm_period (ts_heap s x) =? 0 then [RRem x] else []) ++ [RPost x] else [].
Lemma rec_of_ext s s' l : (forall x, In x l -> ts_heap s' x = ts_heap s x) -> flat_map (rec_of s') l = flat_map (rec_of s) l.
Proof.
  intros H. induction l as [|x l IH]; [reflexivity|]. cbn [flat_map]. rewrite IH by (intros y Hy; apply H; now right).
  f_equal. unfold rec_of. now rewrite (H x (or_introl eq_refl)).
Qed.
Lemma rem_frame s x tp s1 y : rem_from_list s x tp = Ok s1 -> y <> x -> tp <> Some y -> ts_heap s1 y = ts_heap s y.
Proof.
  unfold rem_from_list. intros E Hy Ht. apply N.eqb_neq in Hy. destruct (ptr_eqb (ts_head s) x); [|destruct tp as [p|]]; cbn [bind] in E; try discriminate;
  injection E as <-; cbn; rewrite Hy; [reflexivity|]. destruct (N.eqb_spec y p); [congruence|reflexivity].
Qed.
Lemma rem_next s x tp s1 : rem_from_list s x tp = Ok s1 -> tp <> Some x -> tm_next (ts_heap s1 x) = tm_next (ts_heap s x).
Proof.
  unfold rem_from_list. intros E Ht. destruct (ptr_eqb (ts_head s) x); [|destruct tp as [p|]]; cbn [bind] in E; try discriminate;
  injection E as <-; cbn; rewrite N.eqb_refl; [reflexivity|]. cbn. destruct (N.eqb_spec x p); [congruence|reflexivity].
Qed.
Lemma loop_recs c : forall l fuel s w tp s' w', tm_loop_t c fuel s w tp (hdo l) = Ok (s', w') ->
  path (ts_heap s) (hdo l) l -> NoDup l -> (forall p, tp = Some p -> ~ In p l) ->
  (forall x, In x l -> tm_used (ts_heap s x) = true /\ rok c (ts_heap s x)) ->
  w' = w ++ flat_map (rec_of s) l.
Proof.
  induction l as [|x l IH]; intros fuel s w tp s' w' E Hp Hn Ht Hu.
  - destruct fuel; cbn in E; injection E as <- <-; cbn; now rewrite app_nil_r.
  - destruct fuel as [|k]; cbn [tm_loop_t hdo] in E; [discriminate|].
    apply NoDup_cons_iff in Hn as [Hx Hn]. destruct (Hu x (or_introl eq_refl)) as [Hux [Hr1 Hr2]]. rewrite Hux in E.
    set (n := (tm_ntick (ts_heap s x) + tnt_mod c - 1) mod tnt_mod c) in E.
    assert (Hn0 : n = tm_ntick (ts_heap s x) - 1).
    { unfold n. replace (tm_ntick (ts_heap s x) + tnt_mod c - 1) with (tm_ntick (ts_heap s x) - 1 + 1 * tnt_mod c) by lia.
      rewrite N.mod_add by lia. apply N.mod_small. lia. }
    cbn [path hdo] in Hp. destruct Hp as [_ Hp].
    assert (Hxt : tp <> Some x) by (intros ->; apply (Ht x eq_refl); now left).
    assert (Htl : forall p, tp = Some p -> ~ In p l) by (intros p Hq Hi; apply (Ht p Hq); now right).
    assert (Hul : forall y, In y l -> tm_used (ts_heap s y) = true /\ rok c (ts_heap s y)) by (intros y Hy; apply Hu; now right).
    (* whatever the step did, if it left the rest alone *)
    assert (next : forall s1 w1 tp1, tm_loop_t c k s1 w1 tp1 (tm_next (ts_heap s1 x)) = Ok (s', w') ->
      tm_next (ts_heap s1 x) = tm_next (ts_heap s x) -> (forall y, In y l -> ts_heap s1 y = ts_heap s y) -> (forall p, tp1 = Some p -> ~ In p l) ->
      w' = w1 ++ flat_map (rec_of s) l).
    { intros s1 w1 tp1 E1 Hnx He Ht1. rewrite Hnx, (path_hdo _ _ _ Hp) in E1. rewrite <- (rec_of_ext s s1 l He).
      apply (IH k s1 w1 tp1 s' w' E1); auto.
      - rewrite <- (path_hdo _ _ _ Hp). eapply path_ext; [exact Hp|]. intros y Hy. now rewrite He.
      - intros y Hy. rewrite He; auto. }
    assert (Hne : forall y, In y l -> (y =? x) = false) by (intros y Hy; apply N.eqb_neq; intros ->; auto).
    cbn [flat_map]. unfold rec_of at 1. rewrite set_ntick_period in E.
    destruct (N.eqb_spec n 0) as [Hz|Hz].
    + replace (tm_ntick (ts_heap s x) =? 1) with true by lia.
      destruct (tm_period (ts_heap s x) =? 0).
      * unfold rem_from_list_t in E. destruct (rem_from_list (set_ntick s x n) x tp) as [s1|f] eqn:Er; cbn [bind] in E; [|discriminate].
        apply next in E; auto.
        -- rewrite E, <- !app_assoc. reflexivity.
        -- rewrite (rem_next _ _ _ _ Er Hxt). apply set_ntick_next.
        -- intros y Hy. rewrite (rem_frame _ _ _ _ y Er); [cbn; now rewrite Hne| |].
           ++ intros ->. auto.
           ++ intros Hq. apply (Htl y Hq Hy).
      * cbn [bind] in E. apply next in E.
        -- rewrite E, <- !app_assoc. reflexivity.
        -- now rewrite !set_ntick_next.
        -- intros y Hy. cbn. now rewrite Hne.
        -- intros p Hq. injection Hq as <-. exact Hx.
    + replace (tm_ntick (ts_heap s x) =? 1) with false by lia. apply next in E.
      * exact E.
      * apply set_ntick_next.
      * intros y Hy. cbn. now rewrite Hne.
      * intros p Hq. injection Hq as <-. exact Hx.
Qed.
Lemma tick_lk c s led l s1 P Q : tm_inv c s led l -> tick_post c no_hook s s1 [] l P Q ->
  lkl s1 (filter Q l) = concat (map (fun x => if lk_left x =? 1
      then if lk_per x =? 0 then [] else [mkLk (lk_id x) (lk_per x) (lk_per x)]
      else [mkLk (lk_id x) (lk_left x - 1) (lk_per x)]) (lkl s l)) /\
  filter Q l = filter (fun x => negb ((tm_ntick (ts_heap s x) =? 1) && (tm_period (ts_heap s x) =? 0))) l.
Proof.
  intros Hi (_ & _ & _ & _ & H5).
  assert (G : forall x, In x l ->
        Q x = negb ((tm_ntick (ts_heap s x) =? 1) && (tm_period (ts_heap s x) =? 0)) /\
        tm_period (ts_heap s1 x) = tm_period (ts_heap s x) /\
        tm_ntick (ts_heap s1 x) = (if tm_ntick (ts_heap s x) =? 1 then tm_period (ts_heap s x)
                                   else tm_ntick (ts_heap s x) - 1))
        by (intros x Hx; apply (H5 x (no_hook_spares x)); auto).
  clear - G. induction l as [|a l IHl]; [split; reflexivity|].
  destruct IHl as [I2 I3]; [intros; apply G; now right|].
  destruct (G a (or_introl eq_refl)) as (G2 & G3 & G4).
  cbn [filter]. rewrite (lkl_cons s). cbn [filter map lk_left lk_per lk_id concat]. rewrite G2.
  destruct (N.eqb_spec (tm_ntick (ts_heap s a)) 1) as [Hn|Hn].
  - destruct (N.eqb_spec (tm_period (ts_heap s a)) 0) as [Hp|Hp]; cbn [andb negb app].
    + split; [exact I2|]. rewrite I3. cbn. reflexivity.
    + split; [rewrite lkl_cons, I2, G3, G4; reflexivity|]. now rewrite I3.
  - cbn [andb negb app]. split; [rewrite lkl_cons, I2, G3, G4; reflexivity|]. now rewrite I3.
Qed.
Lemma del_notin t (l : list N) : ~ In t l -> filter (fun y => negb (y =? t)) l = l.
Proof.
  induction l as [|a l IH]; simpl; auto. intros Hi. destruct (N.eqb_spec a t); [subst; exfalso; apply Hi; now left|]. simpl. f_equal.
  apply IH. intros H; apply Hi; now right.
Qed.
Lemma tick_replay s : forall l pre, NoDup (pre ++ l) ->
  fold_left seen_run (flat_map (rec_of s) l) (pre ++ l) =
    pre ++ filter (fun x => negb ((tm_ntick (ts_heap s x) =? 1) && (tm_period (ts_heap s x) =? 0))) l /\
  sound (pre ++ l) (flat_map (rec_of s) l).
Proof.
  induction l as [|x l IH]; intros pre Hn; [split; [reflexivity|exact I]|]. cbn [flat_map filter]. unfold rec_of at 1 3.
  assert (Hx : In x (pre ++ x :: l)) by (apply in_or_app; right; now left).
  assert (keep : fold_left seen_run (flat_map (rec_of s) l) (pre ++ x :: l) =
    pre ++ x :: filter (fun x => negb ((tm_ntick (ts_heap s x) =? 1) && (tm_period (ts_heap s x) =? 0))) l /\ sound (pre ++ x :: l) (flat_map (rec_of s) l)).
  { change (x :: l) with ([x] ++ l) in *. rewrite app_assoc in *. destruct (IH (pre ++ [x]) Hn) as [F1 F2]. split; [rewrite F1, <- app_assoc; reflexivity|exact F2]. }
  destruct (_ =? 1); [|exact keep]. destruct (_ =? 0).
  - cbn [app fold_left sound seen_run andb negb].
    assert (D : filter (fun y => negb (y =? x)) (pre ++ x :: l) = pre ++ l).
    { apply NoDup_remove_2 in Hn as Hn2. rewrite filter_app. cbn [filter]. rewrite N.eqb_refl. cbn [negb].
      rewrite !del_notin; auto; intros H; apply Hn2; apply in_or_app; auto. }
    rewrite D. apply NoDup_remove_1 in Hn. destruct (IH pre Hn) as [F1 F2]. split; [exact F1|]. auto.
  - cbn [app fold_left sound seen_run andb negb]. destruct keep as [K1 K2]. auto.
Qed.
Lemma lkl_find s l t : lk_find t (lkl s l) =
  if in_dec N.eq_dec t l then Some (mkLk t (tm_ntick (ts_heap s t)) (tm_period (ts_heap s t))) else None.
Proof.
  unfold lk_find. induction l as [|a l IH]; [reflexivity|]. cbn [lkl map find lk_id]. destruct (N.eqb_spec a t) as [->|Hne].
  - destruct (in_dec N.eq_dec t (t :: l)) as [|H]; [reflexivity|]. exfalso. apply H. now left.
  - unfold lkl in IH. rewrite IH. destruct (in_dec N.eq_dec t l), (in_dec N.eq_dec t (a :: l)); cbn in *; try reflexivity; exfalso; tauto.
Qed.
Lemma rec_lkl s l : flat_map (rec_of s) l =
  flat_map (fun x => if lk_left x =? 1 then RTout (lk_id x) :: (if lk_per x =? 0 then [RRem (lk_id x)] else []) ++ [RPost (lk_id x)] else []) (lkl s l).
Proof. induction l as [|x l IH]; [reflexivity|]. cbn [flat_map lkl map]. unfold lkl in IH. now rewrite IH. Qed.

(** ** One call *)
Lemma step_t c s led l o : tm_inv c s led l -> tmop_ok c o ->
  exists s' led' l' rs out, tm_step_t c (s, led) o = Ok ((s', led'), rs) /\ tm_step c no_hook (s, led) o = Ok ((s', led'), out) /\
    tm_inv c s' led' l' /\ recs_ok (lkl s l, led) o rs /\ fst (lk_step (lkl s l, led) o) = (lkl s' l', led') /\
    fold_left seen_run rs l = l' /\ sound l rs /\ posts_of rs = match out with TOTick ps => ps | _ => [] end.
Proof.
  intros Hi Ho. pose proof (inv_len _ _ _ _ Hi) as HL. destruct o as [t|t n p|t|]; cbn [tm_step_t tm_step lk_step fst recs_ok].
  - destruct (tm_step_init c s led l t Hi) as (s1 & E & Hi1 & Hx). rewrite E. cbn [bind]. destruct Hi.
    exists s1, (if existsb (N.eqb t) led then led else t :: led), (filter (fun y => negb (y =? t)) l).
    exists (if in_dec N.eq_dec t l then [RRem t; RInit t] else [RInit t]), TOUnit.
    split; [|split; [reflexivity|split; [exact Hi1|]]].
    + unfold tm_init_t. unfold tm_init_ in E. destruct (in_dec N.eq_dec t l) as [Hin|Hin].
      * destruct (ti_in t Hin) as [Hu _]. rewrite Hu in *. rewrite (sar_t _ _ _ l) by auto.
        destruct (search_and_remove (length led) s t) as [s2|f]; cbn [bind] in *; [|discriminate]. injection E as <-.
        destruct (in_dec N.eq_dec t l); [reflexivity|tauto].
      * destruct (tm_used (ts_heap s t)).
        -- rewrite (sar_t _ _ _ l) by auto.
           destruct (search_and_remove (length led) s t) as [s2|f]; cbn [bind] in *; [|discriminate]. injection E as <-.
           destruct (in_dec N.eq_dec t l); [tauto|reflexivity].
        -- cbn [bind] in *. injection E as <-. reflexivity.
    + split; [|split; [|split; [|split]]].
      * rewrite lkl_find. now destruct (in_dec N.eq_dec t l).
      * rewrite <- (lkl_del s), (lkl_ext s s1); [reflexivity|]. intros x Hxi. apply in_del in Hxi as [_ Hne]. auto.
      * destruct (in_dec N.eq_dec t l) as [Hin|Hin]; cbn; [reflexivity|]. now rewrite del_notin.
      * destruct (in_dec N.eq_dec t l); cbn; auto.
      * now destruct (in_dec N.eq_dec t l).
  - destruct (existsb (N.eqb t) led) eqn:Ek.
    + apply known_spec in Ek. destruct Ho as [Ho1 Ho2].
      destruct (tm_step_start c s led l t n p Hi Ek Ho1 Ho2) as (s1 & E & Hi1 & [Hn Hp] & Hx).
      unfold tm_start_t. rewrite E. cbn [bind]. exists s1, led, (if in_dec N.eq_dec t l then l else t :: l), [RStart t n p], TOUnit.
      rewrite Hp. split; [reflexivity|]. split; [reflexivity|]. split; [exact Hi1|]. split; [reflexivity|]. split; [|split; [|split; [cbn; auto|reflexivity]]].
      * rewrite lkl_mem. destruct (in_dec N.eq_dec t l) as [Hin|Hin].
        -- replace (map _ (lkl s l)) with (lkl s1 l); [reflexivity|]. unfold lkl. rewrite map_map.
           apply map_ext. intros x. simpl. destruct (N.eqb_spec x t) as [->|Hne]; [congruence|]. now rewrite Hx by auto.
        -- replace (mkLk t n p :: lkl s l) with (lkl s1 (t :: l)); [reflexivity|]. simpl. rewrite Hn, Hp. f_equal.
           apply lkl_ext. intros x Hxl. rewrite Hx; auto. intros ->; auto.
      * cbn. destruct (existsb (N.eqb t) l) eqn:El; destruct (in_dec N.eq_dec t l) as [Hin|Hin]; auto.
        -- apply known_spec in El. tauto.
        -- apply known_spec in Hin. congruence.
    + exists s, led, l, [], TOSkip. do 2 (split; [reflexivity|]); split; [exact Hi|]; cbn; auto 10.
  - destruct (existsb (N.eqb t) led) eqn:Ek.
    + apply known_spec in Ek. destruct (tm_step_stop c s led l t Hi Ek) as (s1 & E & Hi1 & Hx). rewrite E. cbn [bind]. destruct Hi.
      exists s1, led, (filter (fun y => negb (y =? t)) l).
      exists (RStop t (tm_ntick (ts_heap s t)) (tm_period (ts_heap s t)) :: (if in_dec N.eq_dec t l then [RRem t] else [])).
      eexists. split; [|split; [reflexivity|split; [exact Hi1|]]].
      * unfold tm_stop_t. unfold tm_stop in E. destruct (in_dec N.eq_dec t l) as [Hin|Hin].
        -- destruct (ti_in t Hin) as [Hu [Hr1 Hr2]]. replace (tm_ntick (ts_heap s t) =? 0) with false in * by lia.
           assert (Hp1 : path (ts_heap (set_ntick s t 0)) (ts_head (set_ntick s t 0)) l).
           { eapply path_ext; [exact ti_path|]. intros; apply set_ntick_next. }
           rewrite (sar_t _ _ _ l Hp1 HL). destruct (search_and_remove (length led) (set_ntick s t 0) t) as [s2|f]; cbn [bind] in *; [|discriminate].
           injection E as <-. destruct (in_dec N.eq_dec t l); [reflexivity|tauto].
        -- destruct (ti_out t Ek Hin) as [_ Hz]. rewrite Hz in *. cbn [N.eqb] in *. injection E as <-. reflexivity.
      * split; [|split; [|split; [|split]]].
        -- rewrite lkl_find. destruct (in_dec N.eq_dec t l) as [Hin|Hin]; [reflexivity|]. destruct (ti_out t Ek Hin) as [_ ->]. eauto.
        -- rewrite <- (lkl_del s), (lkl_ext s s1); [reflexivity|]. intros x Hxi. apply in_del in Hxi as [_ Hne]. auto.
        -- destruct (in_dec N.eq_dec t l) as [Hin|Hin]; cbn; [reflexivity|]. now rewrite del_notin.
        -- destruct (in_dec N.eq_dec t l); cbn; auto.
        -- now destruct (in_dec N.eq_dec t l).
    + exists s, led, l, [], TOSkip. do 2 (split; [reflexivity|]); split; [exact Hi|]; cbn; auto 10.
  - destruct (tm_step_tick c no_hook (no_hook_ok c) s led l Hi) as (s1 & P & Q & E & Hi1 & HT). unfold tm_tick_t. unfold tm_tick in *.
    destruct (loop_erase c _ _ _ _ _ _ _ [] E eq_refl) as (w & Ew & Hw). rewrite E, Ew. cbn [bind].
    destruct (tick_lk c s led l s1 P Q Hi HT) as [K1 K2]. destruct Hi.
    assert (Hrec : w = flat_map (rec_of s) l).
    { rewrite (path_hdo _ _ _ ti_path) in Ew. refine (loop_recs c l _ s [] None s1 w Ew _ ti_nd _ ti_in); [rewrite <- (path_hdo _ _ _ ti_path); exact ti_path|discriminate]. }
    destruct (tick_replay s l [] ti_nd) as [R1 R2]. cbn [app] in R1, R2.
    exists s1, led, (filter Q l), w, (TOTick (filter P l)). subst w. split; [reflexivity|]. split; [reflexivity|]. split; [exact Hi1|].
    split; [apply rec_lkl|]. split; [now rewrite K1|]. split; [now rewrite K2|]. split; [exact R2|exact Hw].
Qed.
(** ** Histories *)
Lemma sound_app l a b : sound l (a ++ b) <-> sound l a /\ sound (fold_left seen_run a l) b.
Proof. revert l. induction a as [|r a IH]; intros l; cbn; [tauto|]. rewrite IH. tauto. Qed.
Lemma hist_t c : forall ops s led l, tm_inv c s led l -> Forall (tmop_ok c) ops ->
  exists s' led' l' rss outs, run (tm_step_t c) (s, led) ops = Ok ((s', led'), rss) /\ run (tm_step c no_hook) (s, led) ops = Ok ((s', led'), outs) /\
    tm_inv c s' led' l' /\ trace_ok (lkl s l, led) ops rss /\ fold_left seen_run (concat rss) l = l' /\ sound l (concat rss) /\
    map posts_of rss = map (fun out => match out with TOTick ps => ps | _ => [] end) outs.
Proof.
  induction ops as [|o ops IH]; intros s led l Hi Hf; cbn [run trace_ok].
  - exists s, led, l, [], []. cbn. auto 10.
  - inversion Hf as [|? ? Ho Hf']; subst. destruct (step_t c s led l o Hi Ho) as (s1 & led1 & l1 & rs & out & E1 & E2 & Hi1 & R & L & Rp & So & Po).
    rewrite E1, E2. cbn [bind]. destruct (IH s1 led1 l1 Hi1 Hf') as (s2 & led2 & l2 & rss & outs & F1 & F2 & Hi2 & T & Rp2 & So2 & Po2).
    rewrite F1, F2. cbn [bind]. exists s2, led2, l2, (rs :: rss), (out :: outs). rewrite L. cbn [concat map].
    rewrite fold_left_app, sound_app, Rp, Po, Po2. auto 10.
Qed.
