(** * Shadow stakes among three contracts: proofs *)
From Verif Require Import Base BaseLemmas SimplePool SimplePoolProofs SpecSimple SimplePoolInv StableMath StablePool
  SpecStable StablePoolProofs StablePoolInv Rates Echo Twap Account Pool Exchange SpecExchange AccountProofs PoolFacts
  ExchangeProofs ExchangeInv ExchangeEffect ExchangeFrames SpecWorld WorldProofs SpecSwap SwapProofs SpecHistory HistoryProofs SpecShadow.

(** ** Which promises are requests *)
Definition silent (p : Promise) : Prop := asks (Leaving p) = None.
Lemma ex_send_silent c r t x s : silent (ex_send c r t x s).
Proof. unfold ex_send. destruct (bool_decide _ && _); [done|]. destruct s; try done. Qed.
Lemma check_storage_silent e ps : check_storage e = Some ps -> Forall silent ps.
Proof. unfold check_storage. intros H. bnd H r Hr. injection H as <-. destruct (0 <? r); [apply Forall_cons; split; [done|]|]; apply Forall_nil; exact I. Qed.
Lemma refund_silent a x : Forall silent (refund_to a x).
Proof. unfold refund_to. destruct (0 <? x); [apply Forall_cons; split; [done|]|]; apply Forall_nil; exact I. Qed.
Ltac ssing := repeat (apply Forall_cons; split; [first [apply ex_send_silent|reflexivity]|]); apply Forall_nil; exact I.
Lemma ex_call_silent c e x c' ps : touches_shadow x = false -> ex_call c e x = Some (c', ps) -> Forall silent ps.
Proof.
  intros Ht H. destruct (is_retrieve x) eqn:Er.
  { destruct x; try discriminate Er. cbn [ex_call] in H. apply ex_retrieve_inv in H as (_ & _ & _ & ->). ssing. }
  destruct (is_settings x) eqn:Es; [apply settings_promises in H as ->; auto; ssing|].
  destruct x; try discriminate Es; try discriminate Ht; clear Es Er Ht; cbn [ex_call] in H;
    try (apply quiet_inv in H as [H ->]; apply Forall_nil; exact I); try (apply quiet2_inv in H as (res & H & ->); apply Forall_nil; exact I); try (apply keep2_inv in H as (res & H)).
  - apply ex_add_simple_pool_inv in H as (p & _ & _ & _ & H). apply ex_add_pool_inv in H as (p' & v & _ & _ & _ & H). eapply check_storage_silent; eauto.
  - apply ex_add_stable_pool_inv in H as (p & _ & _ & _ & _ & H). apply ex_add_pool_inv in H as (p' & v & _ & _ & _ & H). eapply check_storage_silent; eauto.
  - apply ex_add_liquidity_inv in H as (tw & p & p' & taken & acc & acc' & _ & _ & _ & _ & _ & _ & _ & _ & _ & H & _). eapply check_storage_silent; eauto.
  - apply ex_add_stable_liquidity_inv in H as (tw & p & p' & acc & acc' & _ & _ & _ & _ & _ & _ & _ & _ & _ & H & _). eapply check_storage_silent; eauto.
  - apply ex_withdraw_inv in H as (acc & x & acc1 & acc2 & _ & _ & _ & _ & _ & _ & _ & _ & _ & _ & ->). ssing.
  - apply ex_claim_inv in H as (x & _ & _ & _ & _ & _ & _ & ->). ssing.
  - apply ex_mft_register_inv in H as (pid & p & p' & _ & _ & _ & _ & H & _). eapply check_storage_silent; eauto.
  - apply ex_mft_unregister_inv in H as (pid & p & p' & _ & _ & _ & _ & _ & -> & _). apply refund_silent.
  - apply ex_mft_transfer_call_inv in H as (x & _ & _ & _ & ->). ssing.
  - apply ex_donate_share_inv in H as (p & x & p1 & p2 & _ & _ & _ & _ & _ & _ & _ & [(_ & [->| ->])|(acc & -> & _)]); ssing.
  - apply ex_storage_deposit_inv in H as (_ & _ & [(_ & _ & _ & ->)|[(_ & _ & _ & _ & ->)|(_ & _ & ->)]]); [apply refund_silent|apply refund_silent|ssing].
  - apply ex_storage_withdraw_inv in H as (acc & y & _ & _ & _ & _ & _ & _ & _ & _ & _ & ->). ssing.
  - apply ex_storage_unregister_inv in H as (_ & _ & [(_ & _ & ->)|(acc & _ & _ & _ & _ & _ & ->)]); ssing.
  - apply ex_withdraw_owner_inv in H as (acc & acc' & _ & _ & _ & _ & _ & _ & ->). ssing.
Qed.
Lemma ex_ft_on_transfer_silent c e s x m c' ps : ex_ft_on_transfer c e s x m = Some (c', ps) -> Forall silent ps.
Proof.
  intros H. unfold ex_ft_on_transfer in H. cbv zeta in H. grd H. grd H. destruct m as [|r l echo su rc skip|r l infos skip].
  - grd H. bnd H c1 H1. injection H as <- <-. constructor.
  - grd H. grd H. bnd H u Hu. bnd H d Hd. destruct d as [c1 outs]. grd H. injection H as <- <-.
    apply Forall_fmap, Forall_forall. intros [t y] _. unfold compose. cbn [fst snd]. destruct echo; [done|]. apply ex_send_silent.
  - bnd H c1 H1. injection H as <- <-. constructor.
Qed.
Lemma ex_ft_on_transfer_shadow c e s x m c' ps : ex_ft_on_transfer c e s x m = Some (c', ps) -> shadow_frame c c'.
Proof.
  intros H. unfold ex_ft_on_transfer in H. cbv zeta in H. grd H. grd H. destruct m as [|r l echo su rc skip|r l infos skip].
  - grd H. bnd H c1 H1. injection H as <- <-. apply ex_deposit_inv in H1 as (acc & acc' & Ha & _ & Hdp & _ & ->). apply ac_deposit_shadow in Hdp.
    eapply shadow_put_same; [exact Ha|done|now apply shadow_accounts].
  - grd H. grd H. bnd H u Hu. bnd H d Hdd. destruct d as [c1 outs]. grd H. injection H as <- <-. apply ex_direct_frame in Hdd as (_ & _ & A & _). now apply shadow_accounts.
  - bnd H c1 H1. injection H as <- <-. apply ex_hot_zap_inv in H1 as (acc & ts & c2 & outs & m & c3 & m' & acc' & _ & _ & Ha & _ & _ & _ & Hdd & _ & Hz & _ & Hdl & _ & ->).
    apply ex_direct_frame in Hdd as (_ & _ & A & _). apply ex_zap_loop_frame in Hz as (_ & _ & B & _). apply ac_deposit_list_shadow in Hdl.
    eapply shadow_put_same; [exact Ha|exact Hdl|apply shadow_accounts; congruence].
Qed.
Lemma recredit_shadow now c e s t x c' : ex_wf now c -> recredit c e s t x c' -> shadow_frame c c'.
Proof.
  intros Hwf H. destruct H as [acc acc' Ha Hdp|m Hdp Hsp Hm|acc Hdp Hsp Hdep].
  - pose proof (ex_wf_account _ _ _ _ Hwf Ha) as Hdj.
    apply (ac_check_deposit_spec _ _ _ _ _ Hdj) in Hdp as (Hf & _). eapply shadow_put_same; [exact Ha|apply Hf|now apply shadow_accounts].
  - now apply shadow_accounts.
  - intros q b. rewrite shadow_put. apply ac_deposit_shadow in Hdep. rewrite Hdep. destruct (String.eqb_spec (cf_owner (ex_cfg c)) b) as [E|]; [subst b|done].
    unfold shadow_at, ex_account_or_new. now destruct (ex_account c (cf_owner (ex_cfg c))).
Qed.
Lemma ex_mft_resolve_shadow c id s r x ret c' : ex_mft_resolve c id s r x ret = Some c' -> shadow_frame c c'.
Proof.
  intros H. apply ex_mft_resolve_inv in H as [[-> _]|(bal & _ & _ & _ & H)]; [done|].
  apply ex_mft_transfer_inv in H as (Hne & _ & H). destruct (mft_pool_of id).
  - destruct H as (p & p' & _ & _ & _ & _ & ->). now apply shadow_accounts.
  - destruct H as (sa & sa' & ra & ra' & Hsa & Hra & Hw & Hdp & _ & _ & ->). apply ac_withdraw_shadow in Hw. apply ac_deposit_shadow in Hdp.
    do 2 (eapply shadow_put_same; [eassumption|congruence|]). now apply shadow_accounts.
Qed.

(** ** Requests in the queue *)
Lemma requests_lookup w i : requests w !! i = w_flights w !! i ≫= asks.
Proof. unfold requests. apply lookup_omap. Qed.
Lemma enqueue_app a : forall m n b, enqueue m n (a ++ b) = let '(m', n') := enqueue m n a in enqueue m' n' b.
Proof. induction a as [|p a IH]; intros m n b; cbn [enqueue app]; [done|]. apply IH. Qed.
Lemma omap_quiet (m : gmap N Flight) i f : asks f = None -> m !! i ≫= asks = None -> omap asks (<[i := f]> m) = omap asks m.
Proof.
  intros Hf Hi. apply map_eq. intros j. rewrite !lookup_omap. destruct (decide (i = j)) as [<-|]; [|now rewrite lookup_insert_ne].
  rewrite lookup_insert, Hi. exact Hf.
Qed.
Lemma omap_delete_quiet (m : gmap N Flight) i : m !! i ≫= asks = None -> omap asks (delete i m) = omap asks m.
Proof.
  intros Hi. apply map_eq. intros j. rewrite !lookup_omap. destruct (decide (i = j)) as [<-|]; [|now rewrite lookup_delete_ne].
  rewrite lookup_delete, Hi. done.
Qed.
Lemma enqueue_silent ps : forall m n, ids_below m n -> Forall silent ps -> omap asks (enqueue m n ps).1 = omap asks m.
Proof.
  induction ps as [|p ps IH]; intros m n Hb H; cbn [enqueue]; [done|]. apply Forall_cons in H as [Hp H].
  rewrite IH; [|now apply ids_below_fresh|done]. apply omap_quiet; [exact Hp|]. now rewrite (ids_below_None _ _ Hb).
Qed.
Lemma queue_flights w c h m ps now : w_flights (w_queue w c h m ps now) = (enqueue m (w_next w) ps).1 /\ w_next (w_queue w c h m ps now) = (enqueue m (w_next w) ps).2
  /\ w_ex (w_queue w c h m ps now) = c.
Proof. unfold w_queue. now destruct (enqueue m (w_next w) ps). Qed.
Lemma enqueue_next ps m n : ids_below m n -> n <= (enqueue m n ps).2 /\ ids_below (enqueue m n ps).1 (enqueue m n ps).2.
Proof. intros Hb. destruct (enqueue m n ps) as [m' n'] eqn:E. apply enqueue_spec in E as (A & B & _); [|done]. done. Qed.

(** Events that neither request nor report leave shadows and requests as they are. *)
Definition shadow_event (ev : Event) : bool :=
  match ev with EvCall _ x => touches_shadow x | EvShadowCallback _ _ _ => true | _ => false end.
Lemma w_step_quiet w ev w' : w_ok w -> w_step w ev = Some w' -> shadow_event ev = false ->
  shadow_frame (w_ex w) (w_ex w') /\ requests w' = requests w /\ w_next w <= w_next w'.
Proof.
  intros [Hwf Hids] H Hq. unfold w_step in H. cbv zeta in H. unfold requests.
  assert (Hpass : forall h m n now, omap asks m = omap asks (w_flights w) -> w_next w <= n -> w' = mkWorld (w_ex w) h m n now ->
    shadow_frame (w_ex w) (w_ex w') /\ omap asks (w_flights w') = omap asks (w_flights w) /\ w_next w <= w_next w').
  { intros h m n now Hm Hn ->. cbn [w_ex w_flights w_next]. done. }
  destruct ev; cbn [shadow_event] in Hq; try discriminate Hq.
  - bnd H u Hu. bnd H u' Hu'. bnd H q Hq'. destruct q as [c' ps]. injection H as <-.
    destruct (queue_flights w c' (w_hold w) (w_flights w) ps (e_now e)) as (-> & -> & ->). split; [eapply ex_call_shadow; eauto|].
    split; [apply enqueue_silent; [done|]; eapply ex_call_silent; eauto|]. now apply enqueue_next.
  - bnd H u Hu. injection H as <-. eapply Hpass; [| |reflexivity]; [|lia]. apply omap_quiet; [done|]. now rewrite (ids_below_None _ _ Hids).
  - bnd H u Hu. bnd H f Hf. destruct f as [t' s x msg| |]; try discriminate H. bnd H u' Hu'.
    assert (Hd : omap asks (delete id (w_flights w)) = omap asks (w_flights w)) by (apply omap_delete_quiet; now rewrite Hf).
    destruct (ex_ft_on_transfer _ _ _ _ _) as [[c' ps]|] eqn:E.
    + injection H as <-. destruct (queue_flights w c' (w_hold w) (delete id (w_flights w)) ps (e_now e)) as (-> & -> & ->).
      assert (Hb : ids_below (delete id (w_flights w)) (w_next w)) by now apply ids_below_delete.
      split; [eapply ex_ft_on_transfer_shadow; eauto|]. split; [|now apply enqueue_next].
      rewrite enqueue_silent; [done|done|]. eapply ex_ft_on_transfer_silent; eauto.
    + injection H as <-. eapply Hpass; [| |reflexivity]; [done|lia].
  - bnd H u Hu. injection H as <-. eapply Hpass; [| |reflexivity]; [done|lia].
  - bnd H f Hf. destruct f as [|p|]; try discriminate H.
    destruct p as [t' r x|t' r x|t' r x|t' r x| | | |]; try discriminate H; bnd H u Hu; injection H as <-;
      (eapply Hpass; [| |reflexivity]; [|lia]);
      first [apply omap_quiet; [done|]; now rewrite Hf|apply omap_delete_quiet; now rewrite Hf].
  - bnd H u Hu. apply next_time_inv in Hu as [Hn HW]. bnd H f Hf. destruct f as [| |p ok]; try discriminate H.
    assert (Hd : omap asks (delete id (w_flights w)) = omap asks (w_flights w)) by (apply omap_delete_quiet; now rewrite Hf).
    destruct p; try discriminate H; injection H as <-; cbn [w_ex w_flights w_next]; (split; [|split; [done|lia]]).
    + destruct (ex_callback_withdraw _ _ _ _ _ _) eqn:E; cbn [default from_option Datatypes.id]; [|done]. unfold ex_callback_withdraw in E.
      destruct ok; [injection E as <-; done|]. apply ex_handle_fail_inv in E. eapply recredit_shadow; eauto.
    + destruct (ex_callback_withdraw _ _ _ _ _ _) eqn:E; cbn [default from_option Datatypes.id]; [|done]. unfold ex_callback_withdraw in E.
      destruct ok; [injection E as <-; done|]. apply ex_handle_fail_inv in E. eapply recredit_shadow; eauto.
    + destruct (ex_callback_near _ _ _ _ _) as [q|] eqn:E; cbn [fmap option_fmap option_map default from_option Datatypes.id]; [|done]. unfold ex_callback_near in E.
      destruct ok; [injection E as <-; done|]. bnd E t Ht. bnd E c1 H1. injection E as <-. cbn [fst]. apply ex_handle_fail_inv in H1. eapply recredit_shadow; eauto.
  - bnd H u Hu. bnd H f Hf. destruct f as [|p|]; try discriminate H. destruct p; try discriminate H. injection H as <-.
    cbn [w_ex w_flights w_next]. split; [|split; [apply omap_delete_quiet; now rewrite Hf|lia]].
    destruct (ex_mft_resolve _ _ _ _ _ _) eqn:E; cbn [default from_option Datatypes.id]; [|done]. eapply ex_mft_resolve_shadow; eauto.
  - bnd H u Hu. bnd H c' Hc'. injection H as <-. cbn [w_ex w_flights w_next]. split; [|split; [done|lia]].
    unfold ex_oracle in Hc'. bnd Hc' r Hr. injection Hc' as <-. now apply shadow_accounts.
  - bnd H u Hu. bnd H q Hq'. destruct q as [c' ps]. injection H as <-.
    destruct (queue_flights w c' (w_hold w) (w_flights w) ps (e_now e)) as (-> & -> & ->). split; [eapply ex_ft_on_transfer_shadow; eauto|].
    split; [apply enqueue_silent; [done|]; eapply ex_ft_on_transfer_silent; eauto|]. now apply enqueue_next.
  - injection H as <-. eapply Hpass; [| |reflexivity]; [done|lia].
Qed.

(** ** What is under way *)
Lemma under_way_split s sd a pid id r : requests (s_world s) !! id = Some r ->
  under_way s sd a pid = waits sd a pid (s_answers s !! id) r + msum (fun i q => waits sd a pid (s_answers s !! i) q) (delete id (requests (s_world s))).
Proof. intros H. unfold under_way. now rewrite (msum_delete _ _ _ _ H). Qed.
Lemma answers_elsewhere (ans ans' : gmap N bool) sd a pid id (m : gmap N Request) :
  (forall i, i <> id -> ans' !! i = ans !! i) ->
  msum (fun i q => waits sd a pid (ans' !! i) q) (delete id m) = msum (fun i q => waits sd a pid (ans !! i) q) (delete id m).
Proof.
  intros H. apply msum_ext. intros k v Hk. rewrite H; [done|]. intros ->. now rewrite lookup_delete in Hk.
Qed.
Lemma same_place_spec sd sd' a a' pid pid' : same_place sd sd' a a' pid pid' = true <-> sd = sd' /\ a = a' /\ pid = pid'.
Proof.
  unfold same_place. rewrite !andb_true_iff, String.eqb_eq, N.eqb_eq. destruct sd, sd'; intuition congruence.
Qed.

(** A change of one record on one side. *)
Lemma update_staked c s acc pid act x acc' near : ex_account c s = Some acc -> ac_update_shadow acc pid act x = Some acc' ->
  (is_cast act = false -> x <= staked (side_of act) c pid s) /\
  forall sd q a, staked sd (ex_put c s (ac_set_near acc' near)) q a =
    if same_place (side_of act) sd s a pid q then (if is_cast act then staked sd c q a + x else staked sd c q a - x) else staked sd c q a.
Proof.
  intros Ha Hu. apply ac_update_shadow_spec in Hu as (r & Hr & H1 & H2 & _).
  assert (Hs : shadow_at c pid s = default (mkShadow 0 0) (ac_shadow acc !! pid)) by (unfold shadow_at; now rewrite Ha).
  rewrite <- Hs in Hr. split.
  - intros Hc. destruct act; try discriminate Hc; cbn [sh_update] in Hr; bnd Hr y Hy; apply csub_Some in Hy as [-> Hy]; exact Hy.
  - intros sd q a. unfold staked, farm_at, burrow_at. rewrite shadow_put. cbn [ac_set_near ac_shadow].
    destruct (String.eqb_spec s a) as [E|Hne]; [subst a|].
    2: { destruct (same_place (side_of act) sd s a pid q) eqn:E; [|done]. apply same_place_spec in E as (_ & E & _). done. }
    destruct (decide (q = pid)) as [->|Hq].
    2: { rewrite H2 by done. destruct (same_place (side_of act) sd s s pid q) eqn:E; [apply same_place_spec in E as (_ & _ & E); congruence|].
         unfold shadow_at. now rewrite Ha. }
    rewrite H1. unfold same_place. rewrite String.eqb_refl, N.eqb_refl, !andb_true_r.
    destruct act; cbn [sh_update] in Hr; bnd Hr y Hy; injection Hr as <-; (apply cadd_Some in Hy as [-> _] || apply csub_Some in Hy as [-> _]);
      destruct sd; reflexivity.
Qed.
Lemma update_shadow_defined c s acc pid act x : ex_account c s = Some acc -> is_cast act = false -> x <= staked (side_of act) c pid s ->
  is_Some (ac_update_shadow acc pid act x).
Proof.
  intros Ha Hc Hx. unfold ac_update_shadow, staked, farm_at, burrow_at, shadow_at in *. rewrite Ha in Hx.
  destruct act; try discriminate Hc; cbn [sh_update side_of] in *; (rewrite csub_intro by exact Hx); cbn [mbind option_bind]; eauto.
Qed.
Lemma staked_frame c c' sd pid a : shadow_frame c c' -> staked sd c' pid a = staked sd c pid a.
Proof. intros H. unfold staked, farm_at, burrow_at. now rewrite H. Qed.
Lemma staked_account sd c pid a : 0 < staked sd c pid a -> is_Some (ex_account c a).
Proof. unfold staked, farm_at, burrow_at, shadow_at. destruct (ex_account c a); [eauto|]. destruct sd; cbn [sh_farm sh_burrow]; lia. Qed.

(** ** The invariant *)
(** For one account and pool: [d] is what the exchange records beyond the book and what is under way. *)
Record s_inv (sd : Side) (a : AccountId) (pid d : N) (s : Shadows) : Prop := mkInv {
  si_ok : w_ok (s_world s);
  si_ids : forall id b, s_answers s !! id = Some b -> id < w_next (s_world s);
  si_plain : sd = Farming -> forall id r, requests (s_world s) !! id = Some r -> rq_final r = true -> is_Some (s_answers s !! id);
  si_pos : forall id r, requests (s_world s) !! id = Some r -> 0 < rq_amount r;
  si_agree : staked sd (w_ex (s_world s)) pid a = s_book s sd a pid + under_way s sd a pid + d }.
Lemma requests_final w id r : requests w !! id = Some r -> rq_final r = true -> rq_act r = FromFarming.
Proof.
  rewrite requests_lookup. intros H. apply bind_Some in H as (f & _ & H). destruct f as [|p|]; try discriminate H.
  destruct p; try discriminate H; injection H as <-; cbn [rq_final rq_act]; done.
Qed.

Lemma s_inv_start sd a pid s : s_start s -> s_inv sd a pid 0 s.
Proof.
  intros (Hwf & Hf & Hr & Ha & Hb). split.
  - split; [done|]. intros id f H. now apply Hf in H.
  - intros id b H. rewrite Ha in H. now rewrite lookup_empty in H.
  - intros _ id r H. rewrite Hr in H. now rewrite lookup_empty in H.
  - intros id r H. rewrite Hr in H. now rewrite lookup_empty in H.
  - unfold under_way. rewrite Hr, msum_empty, Hb. lia.
Qed.

Lemma s_inv_answer sd a pid d s id r (ok : bool) : s_inv sd a pid d s -> requests (s_world s) !! id = Some r -> s_answers s !! id = None ->
  (ok = true -> is_cast (rq_act r) = false -> rq_amount r <= s_book s (side_of (rq_act r)) (rq_from r) (rq_pool r)) ->
  s_inv sd a pid d (mkShadows (s_world s) (if ok then accept (s_book s) r else s_book s) (<[id := ok]> (s_answers s))).
Proof.
  intros [Hok Hids Hpl Hpos Hag] Hr Hn Hb. split; cbn [s_world s_answers s_book]; try done.
  - intros j b Hj. destruct (decide (id = j)) as [->|]; [|rewrite lookup_insert_ne in Hj by done; eauto].
    rewrite requests_lookup in Hr. apply bind_Some in Hr as (f & Hf & _). destruct Hok as [_ Hi]. now apply Hi in Hf.
  - intros Hsd j r' Hj Hfin. destruct (decide (id = j)) as [->|]; [rewrite lookup_insert; eauto|rewrite lookup_insert_ne by done; eauto].
  - rewrite Hag. rewrite (under_way_split _ _ _ _ _ _ Hr), Hn.
    rewrite (under_way_split _ sd a pid id r) by exact Hr. cbn [s_world s_answers]. rewrite lookup_insert.
    rewrite (answers_elsewhere (s_answers s) (<[id:=ok]> (s_answers s))) by (intros i Hi; apply lookup_insert_ne; congruence).
    rewrite !N.add_assoc. f_equal. f_equal. unfold waits.
    destruct (same_place (side_of (rq_act r)) sd (rq_from r) a (rq_pool r) pid) eqn:E; cbn [andb].
    2: { destruct ok; [|done]. unfold accept, book_add, book_sub. now destruct (is_cast (rq_act r)); rewrite E. }
    pose proof E as E'. apply same_place_spec in E' as (<- & <- & <-).
    assert (Hfin : rq_final r = false).
    { destruct (rq_final r) eqn:Ef; [|done]. pose proof (Hpl (f_equal side_of (requests_final _ _ _ Hr Ef)) _ _ Hr Ef) as [b Hb']. congruence. }
    rewrite Hfin. cbn [negb]. destruct ok.
    + unfold accept, book_add, book_sub. destruct (is_cast (rq_act r)) eqn:Ec; rewrite E; [lia|]. specialize (Hb eq_refl eq_refl). lia.
    + destruct (is_cast (rq_act r)); lia.
Qed.

Lemma requests_delete w c h n now id : requests (mkWorld c h (delete id (w_flights w)) n now) = delete id (requests w).
Proof.
  unfold requests. cbn [w_flights]. apply map_eq. intros j. rewrite lookup_omap. destruct (decide (id = j)) as [<-|].
  - now rewrite !lookup_delete.
  - rewrite !lookup_delete_ne by done. now rewrite lookup_omap.
Qed.

(** ** The callback *)
Lemma callback_runs sd a q d s id e ok w' r :
  s_inv sd a q d s -> w_step (s_world s) (EvShadowCallback id e ok) = Some w' -> fair sd s (EvShadowCallback id e ok) w' ->
  requests (s_world s) !! id = Some r -> same_place (side_of (rq_act r)) sd (rq_from r) a (rq_pool r) q = true -> (is_cast (rq_act r) = false -> ok = true) ->
  exists fee, w_flights (s_world s) !! id = Some (Leaving (PShadow (rq_act r) (rq_from r) (rq_pool r) (rq_amount r) fee)) /\
    is_Some (ex_callback_shadow (w_ex (s_world s)) e (rq_act r) (rq_from r) (rq_pool r) (rq_amount r) fee ok).
Proof.
  intros [Hok Hids Hpl Hpos Hag] H [Hans Hsv] Hr Hsd Hc. specialize (Hsv _ Hr).
  pose proof Hr as Hr0. rewrite requests_lookup in Hr. apply bind_Some in Hr as (f & Hf & Hr).
  unfold w_step in H. cbv zeta in H. bnd H u Hu. rewrite Hf in H. cbn [mbind option_bind] in H.
  destruct f as [|p|]; try discriminate H. destruct p as [| | | | | |act from pid x fee|]; try discriminate H. injection H as <-. injection Hr as <-.
  cbn [rq_act rq_from rq_pool rq_amount] in *. exists fee. split; [done|].
  assert (Hst : is_cast act && ok = false -> x <= staked sd (w_ex (s_world s)) pid from).
  { intros Hco. apply same_place_spec in Hsd as (Hsd & <- & <-). rewrite Hag, (under_way_split _ _ _ _ _ _ Hr0). unfold waits. cbn [rq_act rq_from rq_pool rq_amount rq_final]. rewrite Hans.
    rewrite (proj2 (same_place_spec _ _ _ _ _ _) (conj Hsd (conj eq_refl eq_refl))). cbn [andb negb].
    destruct (is_cast act), ok; try discriminate Hco; try lia. }
  apply same_place_spec in Hsd as (Hsd & <- & <-). unfold ex_callback_shadow. destruct ok.
  - destruct (is_cast act) eqn:Ec; [eauto|]. specialize (Hst eq_refl).
    destruct (staked_account sd (w_ex (s_world s)) pid from) as [acc Hacc]; [specialize (Hpos _ _ Hr0); cbn [rq_amount] in Hpos; lia|].
    rewrite Hacc. cbn [mbind option_bind]. unfold saves in Hsv. rewrite Hacc in Hsv. subst sd.
    destruct (update_shadow_defined _ _ _ _ act x Hacc Ec Hst) as [acc1 Hu1]. rewrite Hu1. cbn [mbind option_bind].
    apply ac_update_shadow_spec in Hu1 as (_ & _ & _ & _ & ->). cbn [ac_set_shadow ac_near ac_legacy ac_tokens] in *.
    rewrite cadd_intro by apply Hsv. cbn [mbind option_bind]. unfold ex_save. rewrite ensure_intro; [cbn [mbind option_bind]; eauto|].
    apply N.leb_le. unfold ac_storage_usage in *. cbn [ac_set_shadow ac_set_near ac_near ac_legacy ac_tokens] in *. lia.
  - assert (Ec : is_cast act = true) by (destruct (is_cast act); [done|]; now specialize (Hc eq_refl)). rewrite Ec in Hst. specialize (Hst eq_refl).
    destruct (staked_account sd (w_ex (s_world s)) pid from) as [acc Hacc]; [specialize (Hpos _ _ Hr0); cbn [rq_amount] in Hpos; lia|].
    rewrite Hacc. cbn [mbind option_bind]. unfold saves in Hsv. rewrite Hacc in Hsv. subst sd.
    assert (Hd : exists acc1, (match act with
            | ToFarming => ac_update_shadow acc pid FromFarming x
            | ToBurrowland => ac_update_shadow acc pid FromBurrowland x
            | _ => Some acc
            end) = Some acc1 /\ ac_storage_usage acc1 <= ac_near acc1).
    { destruct act; try discriminate Ec;
      [destruct (update_shadow_defined _ _ _ pid FromFarming x Hacc eq_refl Hst) as [acc1 Hu1]
      |destruct (update_shadow_defined _ _ _ pid FromBurrowland x Hacc eq_refl Hst) as [acc1 Hu1]]; exists acc1; (split; [done|]);
      apply ac_update_shadow_spec in Hu1 as (_ & _ & _ & _ & ->); apply Hsv. }
    destruct Hd as (acc1 & -> & Hcov). cbn [mbind option_bind]. unfold ex_save. rewrite ensure_intro; [cbn [mbind option_bind]; eauto|]. now apply N.leb_le.
Qed.
Lemma put_near_same acc : acc = ac_set_near acc (ac_near acc).
Proof. now destruct acc. Qed.
Lemma s_inv_callback sd a q d s id e ok w' : s_inv sd a q d s -> w_step (s_world s) (EvShadowCallback id e ok) = Some w' ->
  fair sd s (EvShadowCallback id e ok) w' -> s_inv sd a q d (mkShadows w' (s_book s) (delete id (s_answers s))).
Proof.
  intros Hi H Hfair. pose proof Hi as [Hok Hids Hpl Hpos Hag]. pose proof (w_step_any _ _ _ Hok H) as (Hok' & _ & _).
  pose proof H as H0. pose proof Hfair as [Hans _].
  unfold w_step in H. cbv zeta in H. bnd H u Hu. bnd H f Hf. destruct f as [|p|]; try discriminate H.
  destruct p as [| | | | | |act from pid x fee|]; try discriminate H. injection H as <-.
  set (c' := default (w_ex (s_world s)) (fst <$> ex_callback_shadow (w_ex (s_world s)) e act from pid x fee ok)) in *.
  assert (Hr : requests (s_world s) !! id = Some (mkRequest act from pid x false)) by (rewrite requests_lookup, Hf; reflexivity).
  assert (Hd : forall h now, requests (mkWorld c' h (delete id (w_flights (s_world s))) (w_next (s_world s)) now) = delete id (requests (s_world s))).
  { intros h now. unfold requests. cbn [w_flights]. apply map_eq. intros j. rewrite lookup_omap. destruct (decide (id = j)) as [<-|].
    - now rewrite !lookup_delete.
    - rewrite !lookup_delete_ne by done. now rewrite lookup_omap. }
  split; cbn [s_world s_answers s_book]; rewrite ?Hd.
  - done.
  - intros j b Hj. cbn [w_next]. destruct (decide (id = j)) as [<-|]; [now rewrite lookup_delete in Hj|]. rewrite lookup_delete_ne in Hj by done. eauto.
  - intros Hsd j r Hj Hfin. destruct (decide (id = j)) as [<-|]; [now rewrite lookup_delete in Hj|]. rewrite lookup_delete_ne in Hj by done. rewrite lookup_delete_ne by done. eauto.
  - intros j r Hj. destruct (decide (id = j)) as [<-|]; [now rewrite lookup_delete in Hj|]. rewrite lookup_delete_ne in Hj by done. eauto.
  - cbn [w_ex]. unfold under_way. cbn [s_world s_answers]. rewrite Hd.
    rewrite (answers_elsewhere (s_answers s) (delete id (s_answers s))) by (intros i Hne; apply lookup_delete_ne; congruence).
    pose proof Hag as Hagq. rewrite (under_way_split _ _ _ _ _ _ Hr), Hans in Hagq.
    set (m := msum _ (delete id (requests (s_world s)))) in *. clearbody m.
    assert (Hc' : staked sd c' q a + waits sd a q (Some ok) (mkRequest act from pid x false) = staked sd (w_ex (s_world s)) q a); [|lia].
    unfold waits. cbn [rq_act rq_from rq_pool rq_amount rq_final]. rewrite andb_true_r.
    destruct (is_cast act) eqn:Ec, ok.
    + subst c'. unfold ex_callback_shadow. rewrite Ec. cbn [fmap option_fmap option_map fst default from_option Datatypes.id]. destruct (same_place _ _ _ _ _ _); lia.
    + destruct (same_place (side_of act) sd from a pid q) eqn:E.
      * pose proof (callback_runs sd _ _ d s id e false _ _ Hi H0 Hfair Hr E) as Hrun. apply same_place_spec in E as (Hsd & <- & <-).
        destruct Hrun as (fee' & Hf' & [[c2 ps] Hcb]); cbn [rq_act rq_from rq_pool rq_amount] in *; [congruence|].
        assert (fee' = fee) as -> by congruence. subst c'. rewrite Hcb. cbn [fmap option_fmap option_map fst default from_option Datatypes.id].
        apply ex_callback_shadow_inv in Hcb as [(? & _)|[(? & _)|(_ & acc & acc1 & Hacc & Hu1 & _ & -> & _)]]; try discriminate.
        rewrite (put_near_same acc1).
        destruct act; try discriminate Ec; destruct (update_staked _ _ _ _ _ _ _ (ac_near acc1) Hacc Hu1) as [Hle Hst]; specialize (Hle eq_refl); rewrite Hst; subst sd; cbn [side_of is_cast] in *;
          (rewrite (proj2 (same_place_spec _ _ _ _ _ _)) by done); lia.
      * rewrite N.add_0_r. subst c'. destruct (ex_callback_shadow _ _ _ _ _ _ _ _) as [[c2 ps]|] eqn:Hcb; cbn [fmap option_fmap option_map fst default from_option Datatypes.id]; [|done].
        apply ex_callback_shadow_inv in Hcb as [(? & _)|[(? & _)|(_ & acc & acc1 & Hacc & Hu1 & _ & -> & _)]]; try discriminate.
        rewrite (put_near_same acc1).
        destruct act; try discriminate Ec; destruct (update_staked _ _ _ _ _ _ _ (ac_near acc1) Hacc Hu1) as [Hle Hst]; rewrite Hst; cbn [side_of] in *; now rewrite E.
    + destruct (same_place (side_of act) sd from a pid q) eqn:E.
      * pose proof (callback_runs sd _ _ d s id e true _ _ Hi H0 Hfair Hr E) as Hrun. apply same_place_spec in E as (Hsd & <- & <-).
        destruct Hrun as (fee' & Hf' & [[c2 ps] Hcb]); cbn [rq_act rq_from rq_pool rq_amount] in *; [done|].
        assert (fee' = fee) as -> by congruence. subst c'. rewrite Hcb. cbn [fmap option_fmap option_map fst default from_option Datatypes.id].
        apply ex_callback_shadow_inv in Hcb as [(_ & ? & _)|[(_ & _ & _ & acc & acc1 & Hacc & Hu1 & _ & ->)|(? & _)]]; try congruence.
        destruct (update_staked _ _ _ _ _ _ _ (ac_near acc1 + e_freed e) Hacc Hu1) as [Hle Hst]. specialize (Hle Ec). rewrite Hst, Ec. subst sd.
        rewrite (proj2 (same_place_spec _ _ _ _ _ _)) by done. lia.
      * rewrite N.add_0_r. subst c'. destruct (ex_callback_shadow _ _ _ _ _ _ _ _) as [[c2 ps]|] eqn:Hcb; cbn [fmap option_fmap option_map fst default from_option Datatypes.id]; [|done].
        apply ex_callback_shadow_inv in Hcb as [(_ & ? & _)|[(_ & _ & _ & acc & acc1 & Hacc & Hu1 & _ & ->)|(? & _)]]; try congruence.
        destruct (update_staked _ _ _ _ _ _ _ (ac_near acc1 + e_freed e) Hacc Hu1) as [Hle Hst]. now rewrite Hst, E.
    + transitivity (staked sd c' q a); [destruct (same_place _ _ _ _ _ _); lia|]. subst c'.
      destruct (ex_callback_shadow _ _ _ _ _ _ _ _) as [[c2 ps]|] eqn:Hcb; cbn [fmap option_fmap option_map fst default from_option Datatypes.id]; [|done].
      apply ex_callback_shadow_inv in Hcb as [(? & _)|[(? & _)|(_ & acc & acc1 & Hacc & Hu1 & _ & -> & _)]]; try discriminate.
      destruct act; try discriminate Ec; injection Hu1 as <-; apply staked_frame; (eapply shadow_put_same; [exact Hacc|done|now apply shadow_accounts]).
Qed.

(** ** Requests *)
Lemma omap_new (m : gmap N Flight) i f r : m !! i = None -> asks f = Some r -> omap asks (<[i := f]> m) = <[i := r]> (omap asks m).
Proof.
  intros Hi Hf. apply map_eq. intros j. rewrite lookup_omap. destruct (decide (i = j)) as [<-|].
  - rewrite !lookup_insert. exact Hf.
  - rewrite !lookup_insert_ne by done. now rewrite lookup_omap.
Qed.
Lemma request_queued w c h ps p r now : w_ok w -> Forall silent ps -> asks (Leaving p) = Some r ->
  exists i, w_next w <= i /\ requests (w_queue w c h (w_flights w) (ps ++ [p]) now) = <[i := r]> (requests w) /\ requests w !! i = None /\
    i < w_next (w_queue w c h (w_flights w) (ps ++ [p]) now).
Proof.
  intros [_ Hids] Hs Hp. destruct (queue_flights w c h (w_flights w) (ps ++ [p]) now) as (E1 & E2 & _). unfold requests. rewrite E1, E2.
  rewrite enqueue_app. pose proof (enqueue_next ps _ _ Hids) as [Hle Hb]. pose proof (enqueue_silent ps _ _ Hids Hs) as Hq.
  destruct (enqueue (w_flights w) (w_next w) ps) as [m n]. cbn [fst snd] in *. cbn [enqueue fst snd].
  exists n. assert (Hn : m !! n = None) by now apply ids_below_None. split; [done|]. split; [|split; [|lia]].
  - rewrite (omap_new _ _ _ r) by done. now rewrite Hq.
  - rewrite <- Hq, lookup_omap, Hn. done.
Qed.
Lemma s_inv_cast sd a q d s e act pid am w' : s_inv sd a q d s -> w_step (s_world s) (EvCall e (CShadow act pid am)) = Some w' ->
  s_inv sd a q d (mkShadows w' (s_book s) (s_answers s)).
Proof.
  intros [Hok Hids Hpl Hpos Hag] H. pose proof (w_step_any _ _ _ Hok H) as (Hok' & _ & _).
  unfold w_step in H. cbv zeta in H. bnd H u Hu. bnd H u' Hu'. bnd H z Hq. destruct z as [c' ps]. injection H as <-. cbn [ex_call] in Hq.
  apply ex_shadow_action_inv in Hq as (acc & p & mx & x & _ & Ha & _ & _ & _ & Hx & _ & Hc).
  assert (Hps : exists qs fee, ps = qs ++ [PShadow act (e_caller e) pid x fee] /\ Forall silent qs).
  { destruct Hc as [(_ & acc' & qs & _ & _ & Hq & _ & ->)|(_ & _ & ->)].
    - exists qs, (e_grow e). split; [done|]. eapply check_storage_silent; eauto.
    - exists [], 0. split; [done|]. apply Forall_nil; exact I. }
  destruct Hps as (qs & fee & -> & Hqs). set (r := mkRequest act (e_caller e) pid x false).
  destruct (request_queued (s_world s) c' (w_hold (s_world s)) qs (PShadow act (e_caller e) pid x fee) r (e_now e) Hok Hqs eq_refl) as (i & Hi & Hreq & Hnew & Hlt).
  destruct (queue_flights (s_world s) c' (w_hold (s_world s)) (w_flights (s_world s)) (qs ++ [PShadow act (e_caller e) pid x fee]) (e_now e)) as (_ & _ & Hex).
  set (w' := w_queue _ _ _ _ _ _) in *. clearbody w'. split; cbn [s_world s_answers s_book]; rewrite ?Hreq; try done.
  - intros j b Hj. specialize (Hids _ _ Hj). lia.
  - intros Hsd j z Hj Hfin. destruct (decide (i = j)) as [<-|]; [rewrite lookup_insert in Hj; injection Hj as <-; done|]. rewrite lookup_insert_ne in Hj by done. eauto.
  - intros j z Hj. destruct (decide (i = j)) as [<-|]; [rewrite lookup_insert in Hj; injection Hj as <-; done|]. rewrite lookup_insert_ne in Hj by done. eauto.
  - rewrite Hex. unfold under_way. cbn [s_world s_answers]. rewrite Hreq, msum_insert_None by done.
    assert (Hno : s_answers s !! i = None). { destruct (s_answers s !! i) as [b|] eqn:E; [|done]. apply Hids in E. lia. }
    rewrite Hno. unfold under_way in Hag. set (m := msum _ _) in *. clearbody m.
    assert (E : staked sd c' q a = staked sd (w_ex (s_world s)) q a + waits sd a q None r); [|lia].
    unfold waits, r. cbn [rq_act rq_from rq_pool rq_amount rq_final]. rewrite andb_true_r.
    destruct Hc as [(Hc & acc' & qs' & Hu1 & _ & _ & -> & _)|(Hc & -> & _)]; rewrite Hc.
    + rewrite (put_near_same acc'). destruct (update_staked _ _ _ _ _ _ _ (ac_near acc') Ha Hu1) as [_ Hst]. rewrite Hst, Hc. destruct (same_place _ _ _ _ _ _); lia.
    + destruct (same_place _ _ _ _ _ _); lia.
Qed.
Lemma s_inv_liquidation sd a q d s e liq vic sid x mins w' : s_inv sd a q d s -> w_step (s_world s) (EvCall e (CLiquidation liq vic sid x mins)) = Some w' ->
  fair sd s (EvCall e (CLiquidation liq vic sid x mins)) w' ->
  s_inv sd a q d (mkShadows w' (settle (s_book s) (EvCall e (CLiquidation liq vic sid x mins))) (s_answers s)).
Proof.
  intros [Hok Hids Hpl Hpos Hag] H Hfair. pose proof (w_step_any _ _ _ Hok H) as (Hok' & _ & _).
  unfold w_step in H. cbv zeta in H. bnd H u Hu. apply next_time_inv in Hu as [Hn HW]. bnd H u' Hu'. bnd H z Hq. destruct z as [c' ps]. injection H as <-. cbn [ex_call] in Hq.
  assert (Hwf : ex_wf (e_now e) (w_ex (s_world s))) by (destruct Hok as [Hwf _]; eapply ex_wf_mono; eauto).
  apply liquidation_shadows in Hq as (pid & Hid & _ & _ & Hxb & _ & Hbw & _ & (back & Hback & Hps) & _); [|done].
  destruct (queue_flights (s_world s) c' (w_hold (s_world s)) (w_flights (s_world s)) ps (e_now e)) as (_ & Hnx & Hex).
  cbn [fair settle] in *. rewrite Hid in *.
  assert (Hrq : exists i, w_next (s_world s) <= i /\ requests (s_world s) !! i = None /\
    let rs := requests (w_queue (s_world s) c' (w_hold (s_world s)) (w_flights (s_world s)) ps (e_now e)) in
    (rs = requests (s_world s) \/ (0 < back /\ rs = <[i := mkRequest FromFarming vic pid back true]> (requests (s_world s))))).
  { destruct (0 <? back) eqn:Eb; subst ps.
    - destruct (request_queued (s_world s) c' (w_hold (s_world s)) [] (PRemoveShadow vic pid back) (mkRequest FromFarming vic pid back true) (e_now e) Hok) as (i & Hi & Hreq & Hnew & _);
        [apply Forall_nil; exact I|reflexivity|]. exists i. split; [done|]. split; [done|]. right. split; [now apply N.ltb_lt|]. exact Hreq.
    - exists (w_next (s_world s)). split; [lia|]. split; [|left; reflexivity]. rewrite requests_lookup. destruct Hok as [_ Hb]. now rewrite (ids_below_None _ _ Hb). }
  destruct Hrq as (i & Hi & Hnew & Hrs). cbv zeta in Hrs.
  assert (Hle : w_next (s_world s) <= w_next (w_queue (s_world s) c' (w_hold (s_world s)) (w_flights (s_world s)) ps (e_now e))).
  { rewrite Hnx. apply enqueue_next. apply Hok. }
  set (w' := w_queue _ _ _ _ _ _) in *. clearbody w'. split; cbn [s_world s_answers s_book].
  - done.
  - intros j b Hj. specialize (Hids _ _ Hj). lia.
  - intros -> j r Hj Hfin. destruct Hrs as [Hrs|[Hb _]]; [rewrite Hrs in Hj; eauto|]. specialize (Hfair pid vic). rewrite Hex in Hfair. lia.
  - intros j r Hj. destruct Hrs as [Hrs|[Hb Hrs]]; rewrite Hrs in Hj; [eauto|].
    destruct (decide (i = j)) as [<-|]; [rewrite lookup_insert in Hj; injection Hj as <-; done|]. rewrite lookup_insert_ne in Hj by done. eauto.
  - rewrite Hex. assert (Hway : under_way (mkShadows w' (book_sub (s_book s) Lending vic pid x) (s_answers s)) sd a q = under_way s sd a q).
    { unfold under_way. cbn [s_world s_answers]. destruct Hrs as [->|[_ ->]]; [done|]. rewrite msum_insert_None by done. unfold waits at 1. cbn [rq_act rq_from rq_pool rq_amount rq_final negb].
      now rewrite andb_false_r. }
    rewrite Hway. unfold book_sub. destruct sd.
    + replace (same_place Lending Farming vic a pid q) with false by done. rewrite <- Hag. specialize (Hfair q a). rewrite Hex in Hfair. exact Hfair.
    + specialize (Hfair pid eq_refl). specialize (Hbw q a). unfold staked in *. destruct (same_place Lending Lending vic a pid q) eqn:E.
      * apply same_place_spec in E as (_ & <- & <-). rewrite N.eqb_refl in Hbw. unfold only in Hbw. rewrite String.eqb_refl in Hbw. lia.
      * replace (if q =? pid then only vic a x else 0) with 0 in Hbw; [lia|]. unfold same_place in E. cbn [andb] in E. rewrite N.eqb_sym in E. unfold only.
        destruct (q =? pid); [|done]. rewrite andb_true_r in E. now rewrite E.
Qed.
Lemma s_inv_step sd a q d s s' : s_inv sd a q d s -> s_step sd s s' -> s_inv sd a q d s'.
Proof.
  intros Hi H. destruct H as [ev w' Hev Hfair|id r ok Hr Hn Hb]; [|now apply s_inv_answer].
  destruct (shadow_event ev) eqn:Es.
  - destruct ev; try discriminate Es; [|eapply s_inv_callback; eauto].
    match goal with x : Call |- _ => destruct x; try discriminate Es end.
    + eapply s_inv_cast; eauto.
    + eapply s_inv_liquidation; eauto.
  - pose proof Hi as [Hok Hids Hpl Hpos Hag]. pose proof (w_step_any _ _ _ Hok Hev) as (Hok' & _ & _). destruct (w_step_quiet _ _ _ Hok Hev Es) as (Hfr & Hrq & Hle).
    assert (E1 : settle (s_book s) ev = s_book s) by (destruct ev; try done; match goal with x : Call |- _ => now destruct x end).
    assert (E2 : after_callback (s_answers s) ev = s_answers s) by now destruct ev. rewrite E1, E2.
    split; cbn [s_world s_answers s_book]; rewrite ?Hrq; try done.
    + intros j b Hj. specialize (Hids _ _ Hj). lia.
    + rewrite (staked_frame (w_ex (s_world s))) by done. unfold under_way. cbn [s_world s_answers]. rewrite Hrq. apply Hag.
Qed.
Lemma s_inv_reach sd a q d s0 s : s_inv sd a q d s0 -> s_reach sd s0 s -> s_inv sd a q d s.
Proof. intros H0 H. induction H; [done|]. eapply s_inv_step; eauto. Qed.
