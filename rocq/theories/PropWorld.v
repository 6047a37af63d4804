(** * C01 solvency, C24 failed transfers, C25 lost-and-found: all executions *)
From Verif Require Import Base BaseLemmas SimplePool SimplePoolProofs SpecSimple SimplePoolInv StableMath StablePool
  SpecStable StablePoolProofs StablePoolInv Rates Echo Twap Account Pool Exchange SpecExchange AccountProofs PoolFacts
  ExchangeProofs ExchangeInv ExchangeEffect ExchangeFrames SpecWorld WorldProofs ExExample.

(** ** C01 *)
Lemma w_start_sound t w : w_start w -> w_sound t 0 w.
Proof.
  intros (Hwf & Hf & Hh). unfold w_sound, w_ok, unwraps_current, covers, total_in_flight. rewrite Hf. split_and!.
  - done.
  - intros i f Hi. now rewrite lookup_empty in Hi.
  - intros i f u Hi. now rewrite lookup_empty in Hi.
  - apply Hh.
  - rewrite msum_empty. specialize (Hh t). lia.
Qed.
Lemma w_rounds_sound t w0 d w : w_start w0 -> w_rounds t w0 d w -> w_sound t d w.
Proof. intros Hs H. induction H as [|d w ev w' _ IH Hh Hc H]; [now apply w_start_sound|]. eapply w_step_sound; eauto. Qed.
(** Every execution with a standard token and a careful owner has such an amount; it is zero when every
    pool keeps the token with enough precision. *)
Lemma exact_rounding c x t : exact_token c t -> call_rounding c x t = 0.
Proof.
  intros He. destruct x; try done. cbn [call_rounding]. unfold rounding_at. destruct (ex_pool c pid) as [p|] eqn:Hp; [|done].
  pose proof (Forall_lookup_1 _ _ _ _ He Hp) as Hx. destruct p as [q|q]; [done|]. cbn [pl_exact pl_rounding] in *.
  rewrite (proj2 (N.sub_0_le _ _) Hx). change (10 ^ 0) with 1. apply N.mod_1_r.
Qed.
Lemma w_backed_rounds t w0 w : w_start w0 -> w_backed t w0 w -> exists d, w_rounds t w0 d w /\ (exact_token (w_ex w) t -> d = 0).
Proof.
  intros Hs H. induction H as [|w ev w' _ (d & IH & Hd) Hh Hc H]; [exists 0; split; [constructor|done]|].
  exists (d + rounded t w ev). split; [econstructor; eauto|]. intros Hx.
  destruct (w_rounds_sound _ _ _ _ Hs IH) as (Hok & _). apply w_step_any in H as (_ & _ & _ & Hpe & _); [|done].
  apply (exact_token_back _ _ _ Hpe) in Hx. rewrite (Hd Hx). destruct ev; cbn [rounded]; auto. now rewrite exact_rounding.
Qed.
Lemma w_backed_sound t w0 w : w_start w0 -> w_backed t w0 w ->
  w_ok w /\ unwraps_current w /\ w_hold w t < W128 /\ (exact_token (w_ex w) t -> owed (w_ex w) t + total_in_flight w t <= w_hold w t).
Proof.
  intros Hs H. destruct (w_backed_rounds _ _ _ Hs H) as (d & Hr & Hd). destruct (w_rounds_sound _ _ _ _ Hs Hr) as (A & B & C & D).
  split_and!; auto. intros Hx. rewrite (Hd Hx) in D. lia.
Qed.
Lemma w_reach_ok w0 w : w_ok w0 -> w_reach w0 w -> w_ok w.
Proof. intros Hs H. induction H as [|w ev w' _ IH H]; [done|]. now apply w_step_any in H as (A & _). Qed.
Lemma w_start_ok w : w_start w -> w_ok w.
Proof. intros H. now apply (w_start_sound ""%string). Qed.

(** For every standard token, however many decimals it has: the exchange holds what it owes and what is on
    its way out, up to the parts of withdrawals below the precision of the pools. *)
Theorem C01_solvent_rounding t w0 d w :
  w_start w0 -> w_rounds t w0 d w -> owed (w_ex w) t + total_in_flight w t <= w_hold w t + d.
Proof. intros Hs Hb. now destruct (w_rounds_sound _ _ _ _ Hs Hb) as (_ & _ & _ & H). Qed.
Print Assumptions C01_solvent_rounding.
(** Each withdrawal of chosen amounts loses less than one unit of the pool's precision, no other event
    loses anything, and every execution with a standard token has such a [d]. *)
Theorem C01_rounding_small t w ev :
  rounded t w ev = 0 \/
  exists e pid am mx q, ev = EvCall e (CRemoveByTokens pid am mx) /\ ex_pool (w_ex w) pid = Some (PStable q) /\ kept_decimals (st_kind q) < st_dec q t /\ rounded t w ev < 10 ^ (st_dec q t - kept_decimals (st_kind q)).
Proof.
  destruct ev as [e x| | | | | | | | | |]; try (left; reflexivity). cbn [rounded].
  destruct x; try (left; reflexivity). cbn [call_rounding]. unfold rounding_at.
  destruct (ex_pool (w_ex w) pid) as [[q|q]|] eqn:Hp; [left; reflexivity| |left; reflexivity]. cbn [pl_rounding].
  destruct (N.le_gt_cases (st_dec q t) (kept_decimals (st_kind q))) as [Hx|Hx].
  - left. rewrite (proj2 (N.sub_0_le _ _) Hx). change (10 ^ 0) with 1. apply N.mod_1_r.
  - right. eexists _, _, _, _, q. split_and!; [reflexivity|exact Hp|exact Hx|]. apply N.mod_lt, N.pow_nonzero. done.
Qed.
Print Assumptions C01_rounding_small.
Theorem C01_rounding_exists t w0 w :
  w_start w0 -> w_backed t w0 w -> exists d, w_rounds t w0 d w /\ (exact_token (w_ex w) t -> d = 0).
Proof. apply w_backed_rounds. Qed.
Print Assumptions C01_rounding_exists.
(** The exchange holds what it owes and what is on its way out, for every standard token that all pools
    keep with enough precision. *)
Theorem C01_solvent_partial t w0 w :
  w_start w0 -> w_backed t w0 w -> exact_token (w_ex w) t ->
  owed (w_ex w) t + total_in_flight w t <= w_hold w t.
Proof. intros Hs Hb Hx. destruct (w_backed_sound _ _ _ Hs Hb) as (_ & _ & _ & H). auto. Qed.

(** A freshly deployed exchange may start. *)
Theorem C01_deployed_starts self owner farm burrow f r c now :
  ex_new self owner farm burrow f r = Some c -> w_start (mkWorld c (fun _ => 0) ∅ 0 now).
Proof.
  unfold ex_new. intros H. bnd H fee Hfee. injection H as <-. unfold w_start. cbn [w_ex w_now w_flights w_hold]. split_and!; auto.
  - split; [apply Forall_nil; exact I|]. intros a v Ha. ex_cbn. cbn [ex_accounts] in Ha. now rewrite lookup_empty in Ha.
  - intros t. unfold owed, total_deposits, total_reserves, total_lost. cbn [ex_accounts ex_pools ex_lost fmap list_fmap lsum].
    rewrite !msum_empty. split; [lia|]. pose proof W128_pos. lia.
Qed.
Lemma w_fresh_start : w_start w_fresh.
Proof. eapply (C01_deployed_starts "ref" "own" "farm" "bur" 20 5). reflexivity. Qed.

Example C01_ex :
  w_start w_fresh /\ w_backed "a" w_fresh w_live /\ exact_token (w_ex w_live) "a" /\
  owed (w_ex w_live) "a" = 1050000 /\ w_hold w_live "a" = 1050000.
Proof.
  split; [apply w_fresh_start|]. split; [|split; [apply simple_exact; vm_compute; reflexivity|split; vm_compute; reflexivity]].
  eapply w_run_backed; [|constructor|exact w_live_runs]. reflexivity.
Qed.

(** The care asked of the owner is needed: retrieving tokens that are owed breaks solvency, and so
    does changing the wrapped-NEAR token while an unwrapping is under way (its failure is then
    credited in the new token). *)
Definition retrieve_events : list Event := [EvCall (env 110 "own" 1) (CRetrieve "a" 1000); EvRemote 5 true 0].
Definition rewrap_events : list Event :=
  [ EvCall (env 110 "own" 1) (CModifyWnear "a"); EvCall (env 111 "bo" 1) (CWithdraw "a" 50000 false (Some false));
    EvCall (env 112 "own" 1) (CModifyWnear "b"); EvRemote 5 false 0; EvCallback 5 (env 113 "ref" 0) ].
Theorem C01_careless_owner_refuted :
  (exists w, w_reach w_fresh w /\ w_run w_live retrieve_events = Some w /\ w_hold w "a" < owed (w_ex w) "a") /\
  (exists w, w_reach w_fresh w /\ w_run w_live rewrap_events = Some w /\ w_hold w "b" < owed (w_ex w) "b").
Proof.
  assert (Hl : w_reach w_fresh w_live) by (eapply w_run_reach; [constructor|exact w_live_runs]). split.
  - assert (H : w_run w_live retrieve_events = Some (default w_live (w_run w_live retrieve_events))) by (apply run_default; vm_compute; reflexivity).
    exists (default w_live (w_run w_live retrieve_events)). split; [eapply w_run_reach; eauto|]. split; [exact H|]. vm_compute. reflexivity.
  - assert (H : w_run w_live rewrap_events = Some (default w_live (w_run w_live rewrap_events))) by (apply run_default; vm_compute; reflexivity).
    exists (default w_live (w_run w_live rewrap_events)). split; [eapply w_run_reach; eauto|]. split; [exact H|]. vm_compute. reflexivity.
Qed.

(** Neither does it hold for a token with more than 18 decimals in a stable pool: what is taken out token by token is paid
    exactly, but subtracted from the reserves rounded down. *)
Definition decimals_events : list Event :=
  [ EvCall (env 110 "own" 1) (CExtendWhitelist ["d"; "e"]);
    EvCall (env 112 "own" 1) (CAddStablePool KStable ["d"; "e"] [24; 24] 25 240);
    EvArrive "d" "al" (10 ^ 24) MsgDeposit; EvNotify 6 (env 114 "d" 0);
    EvArrive "e" "al" (10 ^ 24) MsgDeposit; EvNotify 7 (env 115 "e" 0);
    EvCall (env 116 "al" 1) (CAddStableLiquidity 1 [10 ^ 24; 10 ^ 24] 0);
    EvCall (env 117 "al" 1) (CRemoveByTokens 1 [10 ^ 23 + 999999; 0] (10 ^ 24)) ].
Theorem C01_decimals_refuted :
  exists w, w_start w_fresh /\ w_backed "d" w_fresh w /\ w_run w_live decimals_events = Some w /\ total_in_flight w "d" = 0 /\
    owed (w_ex w) "d" = w_hold w "d" + 999999.
Proof.
  assert (H : w_run w_live decimals_events = Some (default w_live (w_run w_live decimals_events))) by (apply run_default; vm_compute; reflexivity).
  exists (default w_live (w_run w_live decimals_events)). split; [apply w_fresh_start|]. split; [|split; [exact H|split; vm_compute; reflexivity]].
  eapply w_run_backed; [|eapply w_run_backed; [|constructor|exact w_live_runs]|exact H]; reflexivity.
Qed.
Print Assumptions C01_decimals_refuted.
(** ... and the bound of C01_solvent_rounding is reached there. *)
Fixpoint run_rounding (t : AccountId) (w : World) (l : list Event) : N :=
  match l with [] => 0 | ev :: r => rounded t w ev + match w_step w ev with Some w' => run_rounding t w' r | None => 0 end end.
Lemma w_run_rounds t w0 l : forall d w w', forallb plain l = true -> w_rounds t w0 d w -> w_run w l = Some w' -> w_rounds t w0 (d + run_rounding t w l) w'.
Proof.
  induction l as [|ev l IH]; intros d w w' Hp Hr H; cbn [w_run run_rounding forallb] in H, Hp |- *; [injection H as <-; now rewrite N.add_0_r|].
  apply andb_true_iff in Hp as [Hp1 Hp]. apply bind_Some in H as (w1 & H1 & H). rewrite H1, N.add_assoc. eapply IH; [exact Hp| |exact H].
  eapply w_rounds_step; eauto; destruct ev; try done; destruct x; done.
Qed.
Example C01_rounding_case :
  exists w, w_start w_fresh /\ w_rounds "d" w_fresh 999999 w /\ owed (w_ex w) "d" + total_in_flight w "d" = w_hold w "d" + 999999.
Proof.
  assert (H : w_run w_live decimals_events = Some (default w_live (w_run w_live decimals_events))) by (apply run_default; vm_compute; reflexivity).
  exists (default w_live (w_run w_live decimals_events)). split; [apply w_fresh_start|]. split; [|vm_compute; reflexivity].
  assert (E : run_rounding "d" w_live decimals_events = 999999) by (vm_compute; reflexivity).
  assert (Hl : w_rounds "d" w_fresh 0 w_live).
  { assert (E0 : 0 + run_rounding "d" w_fresh ex_events = 0) by (vm_compute; reflexivity).
    rewrite <- E0. eapply w_run_rounds; [reflexivity|constructor|exact w_live_runs]. }
  change 999999 with (0 + 999999). rewrite <- E. eapply w_run_rounds; [reflexivity|exact Hl|exact H].
Qed.

(** ** C24 *)
Lemma has_room_iff acc t x :
  has_room acc t <-> ~ (ac_deposit_with_storage_check acc t x = Some (acc, false)).
Proof.
  unfold has_room, ac_deposit_with_storage_check, ac_get_balance. destruct (ac_tokens acc !! t) as [y|] eqn:Et.
  { split; [|left; eauto]. intros _ H. bnd H z Hz. discriminate H. }
  destruct (ac_legacy acc !! t) as [y|] eqn:El.
  { split; [|left; eauto]. intros _ H. bnd H z Hz. discriminate H. }
  set (a' := ac_set_tokens acc (<[t := x]> (ac_tokens acc))).
  assert (Hu : ac_storage_usage a' = ac_storage_usage acc + 148 * 10 ^ 19).
  { unfold ac_storage_usage, a', ac_set_tokens, TOKEN_ENTRY_STORAGE, STORAGE_BYTE_COST. cbn [ac_legacy ac_tokens]. rewrite map_size_insert_None by done. lia. }
  rewrite Hu. change (ac_near a') with (ac_near acc). destruct (N.leb_spec (ac_storage_usage acc + 148 * 10 ^ 19) (ac_near acc)) as [Hle|Hgt].
  - split; [discriminate|]. intros _. right. done.
  - split; [|intros H; now destruct H]. intros [[y Hy]|H]; [discriminate Hy|lia].
Qed.
Lemma lost_of_set c m a t : lost_of (ex_set_lost c m) a t = match m !! a with Some am => default 0 (am !! t) | None => 0 end.
Proof. done. Qed.
Lemma lost_insert_lost c s t x m b u :
  lost_insert (ex_lost c) s t x = Some m -> lost_of (ex_set_lost c m) b u = lost_of c b u + (if String.eqb s b then only t u x else 0).
Proof.
  intros H. apply lost_insert_inv in H as ->. rewrite lost_of_set. destruct (String.eqb_spec s b) as [<-|Hne].
  - rewrite lookup_insert. rewrite lost_of_default. unfold only. destruct (String.eqb_spec t u) as [<-|Hu].
    + rewrite lookup_insert. dfl. reflexivity.
    + rewrite lookup_insert_ne by done. lia.
  - rewrite lookup_insert_ne by done. unfold lost_of. lia.
Qed.
(** Which record a failed transfer is credited to. *)
Definition recredited (e : Env) (c c' : Exchange) (r t : AccountId) (x : N) : Prop :=
  (exists acc, ex_account c r = Some acc /\ has_room acc t) /\ deposit_credited c c' r t x \/
  (forall acc, ex_account c r = Some acc -> ~ has_room acc t) /\
    (if e_spare e then lost_credited c c' r t x else deposit_credited c c' (cf_owner (ex_cfg c)) t x).
Lemma put_credited now c a acc acc' t x :
  ex_wf now c -> ex_account_or_new c a = acc -> (forall u, ac_held acc' u = ac_held acc u + only t u x) ->
  deposit_credited c (ex_put c a acc') a t x.
Proof.
  intros Hwf Ha Hh. split; [|done]. intros b u. rewrite held_by_put. destruct (String.eqb_spec a b) as [<-|]; [|lia].
  rewrite Hh, <- Ha. unfold held_by, ex_account_or_new. destruct (ex_account c a); cbn [default from_option]; [done|]. rewrite ac_new_held. lia.
Qed.
Lemma recredit_recredited c e r t x c' :
  ex_wf (e_now e) c -> recredit c e r t x c' -> recredited e c c' r t x.
Proof.
  intros Hwf H. unfold recredited. destruct H as [acc acc' Ha Hd|m Hn Hs Hm|acc Hn Hs Hd].
  - left. split.
    + exists acc. split; [done|]. apply (has_room_iff _ _ x). rewrite Hd. congruence.
    + apply ac_check_deposit_spec in Hd as (Hf & Hh & _); [|eapply ex_wf_account; eauto].
      eapply put_credited; eauto. unfold ex_account_or_new. now rewrite Ha.
  - right. split; [intros acc Ha; rewrite (has_room_iff _ _ x); intros Hc; apply Hc; auto|]. rewrite Hs. split; [done|].
    intros b u. now apply lost_insert_lost.
  - right. split; [intros acc0 Ha; rewrite (has_room_iff _ _ x); intros Hc; apply Hc; auto|]. rewrite Hs.
    apply ac_deposit_spec in Hd as (Hf & Hh & _); [|eapply ex_wf_account_or_new; eauto]. eapply put_credited; eauto.
Qed.
(** The callback cannot run out of range while the holdings cover what is owed. *)
Lemma ex_handle_fail_runs now c e r t x :
  ex_wf now c -> owed c t + x < W128 -> exists c', ex_handle_fail c e r t x = Some c'.
Proof.
  intros Hwf Ho. assert (Hh : forall a, held_by c a t + x < W128) by (intros a; pose proof (held_by_le c a t); unfold owed in Ho; lia).
  assert (Hlost : exists m, lost_insert (ex_lost c) r t x = Some m).
  { unfold lost_insert. pose proof (lost_of_le c r t) as Hl. rewrite lost_of_default in Hl. rewrite cadd_intro; [eexists; reflexivity|].
    unfold owed in Ho. lia. }
  assert (Hfound : exists c', ex_lostfound c t x = Some c').
  { assert (Hdj : ac_disjoint (ex_account_or_new c (cf_owner (ex_cfg c)))) by (eapply ex_wf_account_or_new; eauto).
    unfold ex_lostfound. set (o := cf_owner (ex_cfg c)) in *.
    assert (Hho : ac_held (ex_account_or_new c o) t + x < W128).
    { specialize (Hh o). unfold held_by in Hh. unfold ex_account_or_new. destruct (ex_account c o); cbn [default from_option]; [done|]. rewrite ac_new_held. lia. }
    unfold ac_deposit. destruct (0 <? x); [|eexists; reflexivity].
    destruct (ac_legacy (ex_account_or_new c o) !! t) as [y|] eqn:El.
    - rewrite (held_legacy _ _ _ Hdj El) in Hho. rewrite cadd_intro; [eexists; reflexivity|lia].
    - destruct (ac_tokens (ex_account_or_new c o) !! t) as [y|] eqn:Et; [|eexists; reflexivity].
      rewrite (held_tokens _ _ _ Et) in Hho. rewrite cadd_intro; [eexists; reflexivity|lia]. }
  assert (Hrest : exists c', (if e_spare e then m ← lost_insert (ex_lost c) r t x; Some (ex_set_lost c m) else ex_lostfound c t x) = Some c').
  { destruct (e_spare e); [|done]. destruct Hlost as [m ->]. eexists. reflexivity. }
  unfold ex_handle_fail. specialize (Hh r). destruct (ex_account c r) as [acc|] eqn:Ea; [|exact Hrest].
  rewrite (held_by_account _ _ _ _ Ea) in Hh. pose proof (ex_wf_account _ _ _ _ Hwf Ea) as Hdj.
  unfold ac_deposit_with_storage_check. destruct (ac_tokens acc !! t) as [y|] eqn:Et.
  { rewrite (held_tokens _ _ _ Et) in Hh. rewrite cadd_intro by done. eexists. reflexivity. }
  destruct (ac_legacy acc !! t) as [y|] eqn:El.
  { rewrite (held_legacy _ _ _ Hdj El) in Hh. rewrite cadd_intro by done. eexists. reflexivity. }
  destruct (_ <=? _); [eexists; reflexivity|exact Hrest].
Qed.
Lemma recredit_pools c e r t x c' : recredit c e r t x c' -> ex_pools c' = ex_pools c /\ ex_cfg c' = ex_cfg c.
Proof. intros H. destruct H; done. Qed.

(** A failed transfer is credited in full, in this order of preference: to the receiver's deposit,
    to lost-and-found under the receiver, to the owner's deposit.  Nothing else changes. *)
Theorem C24_failure_recredits t w0 w id p r x e :
  w_start w0 -> w_backed t w0 w -> exact_token (w_ex w) t ->
  w_flights w !! id = Some (Answered p false) -> transfers p = Some (t, r, x) -> w_now w <= e_now e < 2 ^ 64 ->
  exists c', w_step w (EvCallback id e) = Some (mkWorld c' (w_hold w) (delete id (w_flights w)) (w_next w) (e_now e)) /\
    recredited e (w_ex w) c' r t x /\ ex_pools c' = ex_pools (w_ex w) /\ ex_cfg c' = ex_cfg (w_ex w).
Proof.
  intros Hs Hb Hx Hf Hp [Hn HW]. destruct (w_backed_sound _ _ _ Hs Hb) as ([Hwf Hids] & Hun & Hh & Hc). specialize (Hc Hx).
  pose proof (flights_delete t _ _ _ Hf) as Hd. unfold total_in_flight in Hc.
  assert (Hpr : in_flight t (Answered p false) = x).
  { destruct p; try discriminate Hp; injection Hp as -> -> ->; cbn [in_flight promised]; apply only_same. }
  rewrite Hpr in Hd. destruct (ex_handle_fail_runs _ (w_ex w) e r t x Hwf) as [c' Hc']; [lia|].
  apply ex_wf_later with (n' := e_now e) in Hwf; [|done]. exists c'. split.
  - unfold w_step. cbv zeta. replace (next_time w (e_now e)) with (Some tt).
    2: { symmetry. unfold next_time. apply ensure_intro. apply andb_true_iff. rewrite N.leb_le, N.ltb_lt. done. }
    cbn [mbind option_bind]. rewrite Hf. cbn [mbind option_bind].
    destruct p; try discriminate Hp; injection Hp as -> -> ->; cbn beta iota.
    + unfold ex_callback_withdraw. rewrite Hc'. done.
    + unfold ex_callback_withdraw. rewrite Hc'. done.
    + unfold ex_callback_near. rewrite (Hun _ _ _ Hf eq_refl). cbn [mbind option_bind]. rewrite Hc'. done.
  - apply ex_handle_fail_inv in Hc'. split; [now apply recredit_recredited|]. eapply recredit_pools; eauto.
Qed.
(** After a successful transfer nothing is credited. *)
Theorem C24_success_credits_nothing w id p e w' :
  w_flights w !! id = Some (Answered p true) -> w_step w (EvCallback id e) = Some w' -> w_ex w' = w_ex w /\ w_hold w' = w_hold w.
Proof.
  intros Hf H. unfold w_step in H. cbv zeta in H. bnd H u Hu. rewrite Hf in H. cbn [mbind option_bind] in H.
  destruct p; try discriminate H; injection H as <-; done.
Qed.
(** A callback happens at most once: its flight is gone and ids are never used again. *)
Lemma w_step_gone w ev w' id :
  w_ok w -> id < w_next w -> w_flights w !! id = None -> w_step w ev = Some w' -> id < w_next w' /\ w_flights w' !! id = None.
Proof.
  intros [_ Hids] Hid Hn H.
  assert (Hq : forall c' h m ps now, ids_below m (w_next w) -> m !! id = None -> w' = w_queue w c' h m ps now -> id < w_next w' /\ w_flights w' !! id = None).
  { intros c' h m ps now Hb Hm ->. unfold w_queue. destruct (enqueue m (w_next w) ps) as [m' n'] eqn:E. cbn [w_next w_flights].
    apply enqueue_spec in E as (_ & Hle & _ & _ & Hsame); [|done]. split; [lia|]. rewrite Hsame; auto. }
  assert (Hk : forall c' h m n now, w_next w <= n -> m !! id = None -> w' = mkWorld c' h m n now -> id < w_next w' /\ w_flights w' !! id = None).
  { intros c' h m n now Hle Hm ->. cbn [w_next w_flights]. split; [lia|done]. }
  assert (Hdel : forall i, delete i (w_flights w) !! id = None) by (intros i; apply lookup_delete_None; auto).
  assert (Hins : forall i f g, w_flights w !! i = Some f -> <[i := g]> (w_flights w) !! id = None).
  { intros i f g Hi. rewrite lookup_insert_ne; [done|]. intros ->. congruence. }
  unfold w_step in H. cbv zeta in H. destruct ev.
  - bnd H u Hu. bnd H u' Hu'. bnd H q Hq'. destruct q as [c' ps]. injection H as <-. eapply Hq; [| |reflexivity]; auto.
  - bnd H u Hu. injection H as <-. eapply Hk; [| |reflexivity]; [lia|]. rewrite lookup_insert_ne; [done|lia].
  - bnd H u Hu. bnd H f Hf. destruct f as [t s x msg| |]; try discriminate H. bnd H u' Hu'.
    destruct (ex_ft_on_transfer _ _ _ _ _) as [[c' ps]|] eqn:E; injection H as <-.
    + eapply Hq; [| |reflexivity]; [now apply ids_below_delete|apply Hdel].
    + eapply Hk; [| |reflexivity]; [lia|apply Hdel].
  - bnd H u Hu. injection H as <-. eapply Hk; [| |reflexivity]; [lia|done].
  - bnd H f Hf. destruct f as [|p|]; try discriminate H.
    destruct p; try discriminate H; bnd H u Hu; injection H as <-; (eapply Hk; [| |reflexivity]; [lia|first [eapply Hins; eassumption|apply Hdel]]).
  - bnd H u Hu. bnd H f Hf. destruct f as [| |p ok]; try discriminate H.
    destruct p; try discriminate H; injection H as <-; (eapply Hk; [| |reflexivity]; [lia|apply Hdel]).
  - bnd H u Hu. bnd H f Hf. destruct f as [|p|]; try discriminate H.
    destruct p; try discriminate H; injection H as <-; (eapply Hk; [| |reflexivity]; [lia|apply Hdel]).
  - bnd H u Hu. bnd H f Hf. destruct f as [|p|]; try discriminate H.
    destruct p; try discriminate H; injection H as <-; (eapply Hk; [| |reflexivity]; [lia|apply Hdel]).
  - bnd H u Hu. bnd H c' Hc'. injection H as <-. eapply Hk; [| |reflexivity]; [lia|done].
  - bnd H u Hu. bnd H q Hq'. destruct q as [c' ps]. injection H as <-. eapply Hq; [| |reflexivity]; auto.
  - injection H as <-. eapply Hk; [| |reflexivity]; [lia|done].
Qed.
Theorem C24_callback_at_most_once w0 w w1 w2 id e e' :
  w_start w0 -> w_reach w0 w -> w_step w (EvCallback id e) = Some w1 -> w_reach w1 w2 -> w_step w2 (EvCallback id e') = None.
Proof.
  intros Hs Hr H1 Hr2. pose proof (w_reach_ok _ _ (w_start_ok _ Hs) Hr) as Hok.
  assert (Hg : id < w_next w1 /\ w_flights w1 !! id = None).
  { unfold w_step in H1. cbv zeta in H1. bnd H1 u Hu. bnd H1 f Hf. pose proof (proj2 Hok _ _ Hf) as Hid.
    destruct f as [| |p ok]; try discriminate H1.
    destruct p; try discriminate H1; injection H1 as <-; cbn [w_next w_flights]; (split; [done|apply lookup_delete]). }
  assert (Hok1 : w_ok w1) by now apply w_step_any in H1 as (A & _).
  assert (Hg2 : w_ok w2 /\ id < w_next w2 /\ w_flights w2 !! id = None).
  { clear H1. induction Hr2 as [|w3 ev w4 _ IH H]; [auto|]. destruct IH as (A & B & C). split; [now apply w_step_any in H as (D & _)|].
    eapply w_step_gone; eauto. }
  destruct Hg2 as (_ & _ & Hn). unfold w_step. cbv zeta. destruct (next_time w2 (e_now e')); [|done]. cbn [mbind option_bind]. now rewrite Hn.
Qed.
(** A withdrawal takes the amount from the caller's deposit and puts exactly one transfer of it in flight. *)
Lemma ex_send_transfers c r t x s : transfers (ex_send c r t x s) = Some (t, r, x).
Proof. unfold ex_send. now destruct (_ && _). Qed.
Theorem C24_withdraw_schedules w e t am u s w' :
  w_ok w -> w_step w (EvCall e (CWithdraw t am u s)) = Some w' ->
  exists x p, 0 < x /\ (x = am \/ am = 0 /\ x = held_by (w_ex w) (e_caller e) t) /\
    x <= held_by (w_ex w) (e_caller e) t /\ transfers p = Some (t, e_caller e, x) /\
    w_flights w' = <[w_next w := Leaving p]> (w_flights w) /\ w_hold w' = w_hold w /\
    (forall b v, held_by (w_ex w') b v = held_by (w_ex w) b v - (if String.eqb (e_caller e) b then only t v x else 0)) /\
    ex_pools (w_ex w') = ex_pools (w_ex w) /\ ex_lost (w_ex w') = ex_lost (w_ex w).
Proof.
  intros [Hwf _] H. unfold w_step in H. cbv zeta in H. bnd H z Hz. bnd H z' Hz'. bnd H q Hq. destruct q as [c' ps]. cbn [ex_call] in Hq.
  apply ex_withdraw_inv in Hq as (acc & x & acc1 & acc2 & _ & _ & _ & Ha & Hx & Hpos & Hw & Hu & _ & -> & ->). injection H as <-.
  pose proof (ex_wf_account _ _ _ _ Hwf Ha) as Hdj. pose proof (ac_withdraw_spec _ _ _ _ Hdj Hw) as (Hf & Hh & _).
  assert (Hh2 : forall v, ac_held acc2 v = ac_held acc1 v).
  { destruct u; [|now injection Hu as <-]. apply ac_unregister_spec in Hu as (_ & _ & Hh2 & _ & _); [done|apply Hf]. }
  exists x, (ex_send (w_ex w) (e_caller e) t x s). split_and!; auto.
  - destruct (am =? 0) eqn:E; [|auto]. right. split; [now apply N.eqb_eq|]. rewrite (held_by_account _ _ _ _ Ha). unfold ac_held. now rewrite Hx.
  - rewrite (held_by_account _ _ _ _ Ha). rewrite <- (Hh t), only_same. lia.
  - apply ex_send_transfers.
  - intros b v. cbn [w_ex w_queue enqueue]. rewrite held_by_put. destruct (String.eqb_spec (e_caller e) b) as [<-|]; [|lia].
    rewrite (held_by_account _ _ _ _ Ha), Hh2. rewrite <- (Hh v). lia.
Qed.
(** bob withdraws, alice trades meanwhile, the transfer fails, bob gets the deposit back *)
Definition fail_events : list Event :=
  [ EvCall (env 110 "bo" 1) (CWithdraw "a" 0 true None); EvCall (env 111 "al" 1) (CSwap [ASwap 0 "a" (Some 1000) "b" 1] None false);
    EvRemote 5 false 0 ].
Definition w_failed : World := default w_live (w_run w_live fail_events).
Example w_failed_runs : w_run w_live fail_events = Some w_failed.
Proof. apply run_default. vm_compute. reflexivity. Qed.
Example C24_ex :
  w_start w_fresh /\ w_backed "a" w_fresh w_failed /\ exact_token (w_ex w_failed) "a" /\
  w_flights w_failed !! 5 = Some (Answered (PSend "a" "bo" 50000) false) /\
  held_by (w_ex w_failed) "bo" "a" = 0 /\
  (w' ← w_step w_failed (EvCallback 5 (env 120 "ref" 0)); Some (held_by (w_ex w') "bo" "a")) = Some 50000.
Proof.
  split; [apply w_fresh_start|]. split.
  { eapply w_run_backed; [| |exact w_failed_runs]; [reflexivity|]. apply C01_ex. }
  split; [apply simple_exact; vm_compute; reflexivity|].
  split; [vm_compute; reflexivity|]. split; vm_compute; reflexivity.
Qed.

(** ** C25 *)
Lemma lost_remove_lost c a t b u :
  lost_of (ex_set_lost c (lost_remove (ex_lost c) a t).1) b u = if String.eqb a b && String.eqb t u then 0 else lost_of c b u.
Proof.
  unfold lost_remove. cbn [fst]. rewrite lost_of_set. set (am := default ∅ (ex_lost c !! a)).
  assert (Hd : default 0 (delete t am !! u) = if String.eqb t u then 0 else lost_of c a u).
  { rewrite lost_of_default. fold am. destruct (String.eqb_spec t u) as [<-|Hu]; [now rewrite lookup_delete|now rewrite lookup_delete_ne]. }
  case_bool_decide as E; destruct (String.eqb_spec a b) as [<-|Hne]; cbn [andb].
  - rewrite lookup_delete, <- Hd, E, lookup_empty. done.
  - rewrite lookup_delete_ne by done. done.
  - rewrite lookup_insert. done.
  - rewrite lookup_insert_ne by done. done.
Qed.
(** A claim empties exactly the caller's entry and puts exactly one transfer of it in flight. *)
Theorem C25_claim w e t w' :
  w_step w (EvCall e (CClaimLostfound t)) = Some w' ->
  exists p, let x := lost_of (w_ex w) (e_caller e) t in
    0 < x /\ transfers p = Some (t, e_caller e, x) /\ w_flights w' = <[w_next w := Leaving p]> (w_flights w) /\
    (forall b u, lost_of (w_ex w') b u = if String.eqb (e_caller e) b && String.eqb t u then 0 else lost_of (w_ex w) b u) /\
    (forall b u, held_by (w_ex w') b u = held_by (w_ex w) b u) /\ ex_pools (w_ex w') = ex_pools (w_ex w).
Proof.
  intros H. unfold w_step in H. cbv zeta in H. bnd H z Hz. bnd H z' Hz'. bnd H q Hq. destruct q as [c' ps]. cbn [ex_call] in Hq.
  apply ex_claim_inv in Hq as (x & _ & _ & _ & Hx & -> & -> & ->). injection H as <-.
  exists (ex_send (w_ex w) (e_caller e) t (lost_of (w_ex w) (e_caller e) t) None). cbv zeta. split_and!; auto; [apply ex_send_transfers|].
  intros b u. apply lost_remove_lost.
Qed.
(** Other than by a claim of its owner, an entry changes only by recording a failed transfer to its owner. *)
Lemma ex_ft_on_transfer_lost c e s x m c' ps : ex_ft_on_transfer c e s x m = Some (c', ps) -> ex_lost c' = ex_lost c.
Proof.
  unfold ex_ft_on_transfer. intros H. cbv zeta in H. grd H. grd H. destruct m as [|r l echo su rc skip|r l infos skip].
  - grd H. bnd H c1 H1. injection H as <- <-. apply ex_deposit_inv in H1 as (acc & acc' & _ & _ & _ & _ & ->). done.
  - grd H. grd H. bnd H u Hu. bnd H d Hd. destruct d as [c1 outs]. grd H. injection H as <- <-. now apply ex_direct_frame in Hd as (_ & _ & _ & L & _).
  - bnd H c1 H1. injection H as <- <-. apply ex_hot_zap_inv in H1 as (acc & ts & c2 & outs & m & c3 & m' & acc' & _ & _ & _ & _ & _ & _ & Hd & _ & Hz & _ & _ & _ & ->).
    apply ex_direct_frame in Hd as (_ & _ & _ & L & _). apply ex_zap_loop_frame in Hz as (_ & _ & _ & L' & _). ex_cbn. congruence.
Qed.
Lemma recredit_lost_of e c c' r t x : recredited e c c' r t x -> forall a u, lost_of c' a u = lost_of c a u \/ r = a /\ t = u /\ lost_of c' a u = lost_of c a u + x.
Proof.
  intros H a u. destruct H as [[_ [_ H]]|[_ H]]; [auto|]. destruct (e_spare e); [|destruct H as [_ H]; auto].
  destruct H as [_ H]. rewrite H. destruct (String.eqb_spec r a) as [->|]; [|left; lia]. unfold only. destruct (String.eqb_spec t u) as [->|]; [auto|left; lia].
Qed.
Theorem C25_entries_change_only_by_claims_and_failures w ev w' a t :
  w_ok w -> w_step w ev = Some w' -> lost_of (w_ex w') a t <> lost_of (w_ex w) a t ->
  (exists e, ev = EvCall e (CClaimLostfound t) /\ e_caller e = a) \/
  (exists id e p v x, ev = EvCallback id e /\ w_flights w !! id = Some (Answered p false) /\ transfers p = Some (v, a, x) /\
     (v = t \/ is_unwrap (Leaving p) = Some v /\ cf_wnear (ex_cfg (w_ex w)) = Some t) /\
     lost_of (w_ex w') a t = lost_of (w_ex w) a t + x).
Proof.
  intros [Hwf _] H Hne.
  assert (Hlost : forall c', ex_lost c' = ex_lost (w_ex w) -> w_ex w' = c' -> False).
  { intros c' Hl He. apply Hne. unfold lost_of. now rewrite He, Hl. }
  unfold w_step in H. cbv zeta in H. destruct ev.
  - bnd H z Hz. bnd H z' Hz'. bnd H q Hq. destruct q as [c' ps].
    assert (He : w_ex w' = c') by (injection H as <-; apply w_queue_ex).
    destruct (match x with CClaimLostfound _ => true | _ => false end) eqn:Ec.
    + destruct x; try discriminate Ec. cbn [ex_call] in Hq. apply ex_claim_inv in Hq as (y & _ & _ & _ & Hx & -> & -> & ->).
      rewrite He, lost_remove_lost in Hne. left. exists e. destruct (String.eqb_spec (e_caller e) a) as [<-|]; [|done].
      destruct (String.eqb_spec token t) as [<-|]; done.
    + apply ex_call_lost in Hq; [|now destruct x]. destruct (Hlost _ Hq He).
  - bnd H u Hu. injection H as <-. done.
  - bnd H u Hu. bnd H f Hf. destruct f as [u' s x msg| |]; try discriminate H. bnd H v Hv.
    destruct (ex_ft_on_transfer _ _ _ _ _) as [[c' ps]|] eqn:E; injection H as <-; [|done].
    apply ex_ft_on_transfer_lost in E. destruct (Hlost _ E). apply w_queue_ex.
  - bnd H u Hu. injection H as <-. done.
  - bnd H f Hf. destruct f as [|p|]; try discriminate H. destruct p; try discriminate H; bnd H u Hu; injection H as <-; done.
  - right. bnd H u Hu. apply next_time_inv in Hu as [Hn _]. pose proof (ex_wf_later _ _ _ Hn Hwf) as Hwf'. bnd H f Hf. destruct f as [| |p ok]; try discriminate H.
    destruct ok.
    { destruct p; try discriminate H; injection H as <-; done. }
    destruct p as [v r x|v r x|v r x| | | | |]; try discriminate H; injection H as <-; cbn [w_ex] in Hne |- *.
    + unfold ex_callback_withdraw in Hne |- *. destruct (ex_handle_fail _ _ _ _ _) as [c'|] eqn:E; [|done]. cbn [default from_option Datatypes.id] in *.
      apply ex_handle_fail_inv, recredit_recredited in E; [|done]. destruct (recredit_lost_of _ _ _ _ _ _ E a t) as [?|(-> & -> & ?)]; [done|].
      exists id, e, (PSend t a x), t, x. split_and!; auto.
    + unfold ex_callback_withdraw in Hne |- *. destruct (ex_handle_fail _ _ _ _ _) as [c'|] eqn:E; [|done]. cbn [default from_option Datatypes.id] in *.
      apply ex_handle_fail_inv, recredit_recredited in E; [|done]. destruct (recredit_lost_of _ _ _ _ _ _ E a t) as [?|(-> & -> & ?)]; [done|].
      exists id, e, (PSendMsg t a x), t, x. split_and!; auto.
    + unfold ex_callback_near in Hne |- *. destruct (cf_wnear (ex_cfg (w_ex w))) as [n|] eqn:Ew; [|done]. cbn [mbind option_bind] in *.
      destruct (ex_handle_fail _ _ _ _ _) as [c'|] eqn:E; [|done]. cbn [mbind option_bind fmap option_fmap option_map default from_option Datatypes.id fst] in *.
      apply ex_handle_fail_inv, recredit_recredited in E; [|done]. destruct (recredit_lost_of _ _ _ _ _ _ E a t) as [?|(-> & -> & ?)]; [done|].
      exists id, e, (PUnwrap v a x), v, x. split_and!; auto.
  - bnd H u Hu. bnd H f Hf. destruct f as [|p|]; try discriminate H. destruct p; try discriminate H; injection H as <-.
    destruct (ex_mft_resolve _ _ _ _ _ _) as [c'|] eqn:E; [|done]. destruct (Hlost c'); [|done].
    apply ex_mft_resolve_inv in E as [[-> _]|(bal & _ & _ & _ & E)]; [done|]. call_inv E; done.
  - bnd H u Hu. bnd H f Hf. destruct f as [|p|]; try discriminate H. destruct p; try discriminate H; injection H as <-.
    destruct (ex_callback_shadow _ _ _ _ _ _ _ _) as [[c' ps]|] eqn:E; [|done]. destruct (Hlost c'); [|done].
    apply ex_callback_shadow_inv in E as [(_ & _ & -> & ->)|[(_ & _ & -> & acc & acc1 & Ha & Hu' & _ & ->)|(_ & acc & acc1 & Ha & Hu' & _ & -> & ->)]]; done.
  - bnd H u Hu. bnd H c' Hc'. injection H as <-. unfold ex_oracle in Hc'. bnd Hc' s Hs. injection Hc' as <-. done.
  - bnd H u Hu. bnd H q Hq. destruct q as [c' ps]. injection H as <-. apply ex_ft_on_transfer_lost in Hq. destruct (Hlost _ Hq). apply w_queue_ex.
  - injection H as <-. done.
Qed.
(** Over any history an entry is paid out exactly once: what claims put in flight plus what is still
    recorded is what was recorded at the start plus what failed transfers recorded since. *)
Theorem C25_paid_exactly_once a t w0 w recorded paid :
  w_ok w0 -> lost_run a t w0 w recorded paid ->
  lost_of (w_ex w) a t + paid = lost_of (w_ex w0) a t + recorded.
Proof.
  intros Hok H. assert (Hr : w_ok w /\ lost_of (w_ex w) a t + paid = lost_of (w_ex w0) a t + recorded); [|apply Hr].
  induction H as [|w ev w' recorded paid H [Hw IH] Hs]; [split; [done|lia]|]. split; [now apply w_step_any in Hs as (A & _)|].
  assert (Hcl : claimed a t ev w w' = lost_of (w_ex w) a t /\ lost_of (w_ex w') a t = 0 \/
                claimed a t ev w w' = 0 /\ lost_of (w_ex w) a t <= lost_of (w_ex w') a t); [|lia].
  destruct (N.eq_dec (lost_of (w_ex w') a t) (lost_of (w_ex w) a t)) as [Heq|Hne].
  - right. split; [|lia]. unfold claimed. destruct ev; try done. destruct x; try done.
    destruct (String.eqb_spec (e_caller e) a) as [<-|]; [|done]. destruct (String.eqb_spec token t) as [<-|]; [|done].
    apply C25_claim in Hs as (p & Hpos & _ & _ & Hl & _). rewrite Hl, !String.eqb_refl in Heq. cbn [andb] in Heq. lia.
  - destruct (C25_entries_change_only_by_claims_and_failures _ _ _ _ _ Hw Hs Hne) as [(e & -> & <-)|(id & e & p & v & x & -> & _ & _ & _ & Hx)].
    + left. apply C25_claim in Hs as (p & Hpos & Hp & Hf & Hl & _). unfold claimed. rewrite Hf, lookup_insert, Hp, Hl, !String.eqb_refl. done.
    + right. unfold claimed. split; [done|lia].
Qed.
(** bob unregisters while the transfer is under way, it fails, and bob claims the amount later *)
Definition claim_events : list Event :=
  fail_events ++ [ EvCall (env 121 "bo" 1) CStorageUnregister; EvCallback 5 (env 122 "ref" 0);
    EvCall (env 123 "bo" 1) (CClaimLostfound "a") ].
Example C25_ex :
  let w := default w_live (w_run w_live claim_events) in
  done_ (w_run w_live claim_events) = true /\ lost_of (w_ex w) "bo" "a" = 0 /\
  w_flights w !! 7 = Some (Leaving (PSend "a" "bo" 50000)) /\
  lost_of (w_ex (default w_live (w_run w_live (take 5 claim_events)))) "bo" "a" = 50000.
Proof. cbv zeta. split; [vm_compute; reflexivity|]. split; [vm_compute; reflexivity|]. split; vm_compute; reflexivity. Qed.

Print Assumptions C01_solvent_partial. Print Assumptions C01_deployed_starts. Print Assumptions C01_careless_owner_refuted.
Print Assumptions C24_failure_recredits. Print Assumptions C24_success_credits_nothing. Print Assumptions C24_callback_at_most_once.
Print Assumptions C24_withdraw_schedules.
Print Assumptions C25_claim. Print Assumptions C25_entries_change_only_by_claims_and_failures. Print Assumptions C25_paid_exactly_once.
