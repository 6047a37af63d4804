(** * C10 limits of liquidity calls, C23 deposits, C27 unregistering, C28 migration, C35 donations *)
From Verif Require Import PropSimple PropStable.
From Verif Require Import Base BaseLemmas SimplePool SimplePoolProofs SpecSimple SimplePoolInv StableMath StablePool
  SpecStable StablePoolProofs StablePoolInv Rates Echo Twap Account Pool Exchange SpecExchange AccountProofs PoolFacts
  ExchangeProofs ExchangeInv ExchangeEffect ExchangeFrames SpecWorld WorldProofs ExExample PropWorld SpecSwap SwapProofs PropSwap SpecHistory HistoryProofs.

Lemma held_pool c pid p a t : held_by (ex_put_pool c pid p) a t = held_by c a t.
Proof. done. Qed.

(** ** C10 *)
(** Limits of every action of a chain. *)
Theorem C10_actions_limits c e l r skip c' res :
  ex_wf (e_now e) c -> e_now e < 2 ^ 64 -> ex_execute_actions c e l r skip = Some (c', res) ->
  exists ts, trades e (ex_referral c r) c ts c' /\ length ts = length l /\
  forall i a, l !! i = Some a -> exists d, ts !! i = Some d /\ td_in d = act_in a /\ td_out d = act_out a /\
    match a with ASwap _ _ _ _ mn => mn <= td_got d | ASwapByOutput _ _ _ _ mx => forall m, mx = Some m -> td_paid d <= m end.
Proof.
  intros Hwf HW H. apply C14_execute_actions in H as (ts & T & O & _); auto. exists ts. split; [done|]. split; [symmetry; eapply Forall2_length; eauto|].
  intros i a Ha. eapply Forall2_lookup_l in O as (d & Hd & (_ & A & B & C)); eauto. exists d. split; [done|]. split; [done|]. split; [done|].
  destruct a; apply C.
Qed.
Print Assumptions C10_actions_limits.

(** [a]'s deposits change by the amounts [xs] of the tokens [ts], their shares in pool [pid] by [sh]. *)
Lemma mins_met_spec xs ms : mins_met xs ms = Some tt -> forall i x m, xs !! i = Some x -> ms !! i = Some m -> m <= x.
Proof.
  unfold mins_met. intros H i x m Hx Hm. apply ensure_Some in H. rewrite forallb_forall in H. specialize (H (x, m)). cbn beta iota in H.
  apply N.leb_le, H. apply elem_of_list_In, elem_of_list_lookup. exists i. now rewrite lookup_zip_with, Hx, Hm.
Qed.
(** add_liquidity takes at most what is offered and at least the minimum, of each token. *)
Theorem C10_add_liquidity c e pid am mins c' ps sh :
  ex_wf (e_now e) c -> e_now e < 2 ^ 64 -> ex_add_liquidity c e pid am mins = Some (c', ps, sh) ->
  exists p taken, ex_pool c pid = Some p /\ Forall2 N.le taken am /\ length taken = length (pl_tokens p) /\
    (forall ms i x m, mins = Some ms -> taken !! i = Some x -> ms !! i = Some m -> m <= x) /\
    (forall t, held_by c' (e_caller e) t + beside t (pl_tokens p) taken = held_by c (e_caller e) t) /\
    (forall t, total_reserves c' t = total_reserves c t + beside t (pl_tokens p) taken) /\
    (forall a, shares_at c' pid a = shares_at c pid a + only (e_caller e) a sh) /\ 0 < sh.
Proof.
  intros Hwf HW H. apply ex_add_liquidity_inv in H as (tw & p & p' & taken & acc & acc' & _ & _ & Hp & _ & Hadd & Hmin & Ha & Hw & _ & _ & ->).
  pose proof (pl_reachable_wf _ _ (ex_wf_pool _ _ _ _ Hwf Hp)) as Hpw.
  apply (pl_add_spec p (ex_rates c) (e_now e)) in Hadd as (Hst & _ & Hsh & Hr & Hle & Hlen & Hs); [|done].
  pose proof (pl_step_same _ _ _ _ Hpw Hst) as (_ & Htok & _). rewrite Htok in Hw.
  apply ac_withdraw_all_spec in Hw as (Hf & Hh & _); [|eapply ex_wf_account; eauto|now apply pl_wf_nodup].
  exists p, taken. split; [done|]. split; [done|]. split; [done|]. split; [|split; [|split; [|split; [|done]]]].
  - intros ms i x m -> Hx Hm. eapply mins_met_spec; eauto.
  - intros t. rewrite held_pool, held_by_put, String.eqb_refl, (held_by_account _ _ _ t Ha). apply Hh.
  - intros t. pose proof (total_reserves_put (ex_put (ex_set_twap c tw) (e_caller e) acc') pid p p' t Hp) as HT. rewrite Hr in HT.
    change (total_reserves (ex_put (ex_set_twap c tw) (e_caller e) acc') t) with (total_reserves c t) in HT. lia.
  - intros a. rewrite shares_put by eauto. rewrite N.eqb_refl, Hs, (shares_pool _ _ _ a Hp). done.
Qed.
Print Assumptions C10_add_liquidity.

(** add_stable_liquidity takes exactly the amounts and mints at least [mn] shares. *)
Theorem C10_add_stable_liquidity c e pid am mn c' ps sh :
  ex_wf (e_now e) c -> e_now e < 2 ^ 64 -> ex_add_stable_liquidity c e pid am mn = Some (c', ps, sh) ->
  exists p, ex_pool c pid = Some p /\ length am = length (pl_tokens p) /\
    (forall t, held_by c' (e_caller e) t + beside t (pl_tokens p) am = held_by c (e_caller e) t) /\
    mn <= sh /\ shares_at c pid (e_caller e) + sh <= shares_at c' pid (e_caller e) /\
    (forall a, shares_at c pid a <= shares_at c' pid a).
Proof.
  intros Hwf HW H. apply ex_add_stable_liquidity_inv in H as (tw & p & p' & acc & acc' & _ & _ & Hp & _ & Hadd & _ & Ha & Hw & _ & _ & ->).
  pose proof (pl_reachable_wf _ _ (ex_wf_pool _ _ _ _ Hwf Hp)) as Hpw.
  assert (Hmint : mn <= sh /\ pl_share_of p (e_caller e) + sh <= pl_share_of p' (e_caller e)).
  { destruct p as [q|q]; cbn [pl_add_stable_liquidity] in Hadd; [done|]. bnd Hadd z Hz. destruct z as [q' s']. injection Hadd as <- <-.
    apply C10_stable_add_min_shares in Hz. cbn [pl_share_of]. tauto. }
  apply pl_add_stable_spec in Hadd as (Hst & _ & Hsh & Hlen & _ & _ & Hs); [|done].
  pose proof (pl_step_same _ _ _ _ Hpw Hst) as (_ & Htok & _). rewrite Htok in Hw.
  apply ac_withdraw_all_spec in Hw as (Hf & Hh & _); [|eapply ex_wf_account; eauto|now apply pl_wf_nodup].
  exists p. split; [done|]. split; [done|]. split; [|split; [done|split]].
  - intros t. rewrite held_pool, held_by_put, String.eqb_refl, (held_by_account _ _ _ t Ha). apply Hh.
  - rewrite shares_put by eauto. rewrite N.eqb_refl, (shares_pool _ _ _ _ Hp). apply Hmint.
  - intros a. rewrite shares_put by eauto. rewrite N.eqb_refl, (shares_pool _ _ _ a Hp). auto.
Qed.
Print Assumptions C10_add_stable_liquidity.

(** remove_liquidity burns exactly the shares and pays at least the minimum of each token. *)
Theorem C10_remove_liquidity c e pid sh mins c' out :
  ex_wf (e_now e) c -> e_now e < 2 ^ 64 -> ex_remove_liquidity c e pid sh mins = Some (c', out) ->
  exists p, ex_pool c pid = Some p /\ Forall2 N.le mins out /\
    (forall t, held_by c' (e_caller e) t = held_by c (e_caller e) t + beside t (pl_tokens p) out) /\
    (forall t, total_reserves c' t + beside t (pl_tokens p) out <= total_reserves c t) /\
    (forall a, shares_at c' pid a + only (e_caller e) a sh = shares_at c pid a).
Proof.
  intros Hwf HW H. apply ex_remove_liquidity_inv in H as (tw & p & p' & acc & acc' & _ & _ & Hp & Ha & _ & _ & Hrm & Hd & _ & ->).
  pose proof (ex_wf_pool _ _ _ _ Hwf Hp) as Hpr. pose proof (pl_reachable_wf _ _ Hpr) as Hpw.
  assert (Hmin : Forall2 N.le mins out).
  { clear Hd. destruct p as [q|q]; cbn [pl_remove_liquidity pl_reachable] in Hrm, Hpr; bnd Hrm z Hz; destruct z as [q' o]; injection Hrm as <- <-.
    - eapply C10_remove_min_amounts; eauto.
    - destruct Hpr as (n & _ & Hpr). eapply C10_stable_remove_min_amounts; eauto. }
  apply (pl_remove_spec p (ex_rates c) (e_now e)) in Hrm as (Hst & _ & Hr & _ & Hs); [|done].
  pose proof (pl_step_same _ _ _ _ Hpw Hst) as (_ & Htok & _). rewrite Htok in Hd.
  apply ac_deposit_all_spec in Hd as (Hf & Hh & _); [|eapply ex_wf_account; eauto|now apply pl_wf_nodup].
  exists p. split; [done|]. split; [done|]. split; [|split].
  - intros t. rewrite held_by_put, String.eqb_refl, (held_by_account _ _ _ t Ha). apply Hh.
  - intros t. change (total_reserves (ex_put (ex_put_pool (ex_set_twap c tw) pid p') (e_caller e) acc') t)
      with (total_reserves (ex_put_pool (ex_set_twap c tw) pid p') t).
    pose proof (total_reserves_put (ex_set_twap c tw) pid p p' t Hp) as HT. change (total_reserves (ex_set_twap c tw) t) with (total_reserves c t) in HT.
    specialize (Hr t). lia.
  - intros a. change (shares_at (ex_put (ex_put_pool (ex_set_twap c tw) pid p') (e_caller e) acc') pid a) with (shares_at (ex_put_pool (ex_set_twap c tw) pid p') pid a). rewrite shares_put by eauto.
    rewrite N.eqb_refl, (shares_pool _ _ _ a Hp). apply Hs.
Qed.
Print Assumptions C10_remove_liquidity.

(** remove_liquidity_by_tokens pays exactly the amounts and burns at most [mx] shares. *)
Theorem C10_remove_by_tokens c e pid am mx c' burn :
  ex_wf (e_now e) c -> e_now e < 2 ^ 64 -> ex_remove_by_tokens c e pid am mx = Some (c', burn) ->
  exists p, ex_pool c pid = Some p /\ burn <= mx /\
    (forall t, held_by c' (e_caller e) t = held_by c (e_caller e) t + beside t (pl_tokens p) am) /\
    (forall a, shares_at c pid a <= shares_at c' pid a + only (e_caller e) a burn).
Proof.
  intros Hwf HW H. apply ex_remove_by_tokens_inv in H as (tw & p & p' & acc & acc' & _ & _ & Hp & Ha & _ & _ & Hrm & Hd & _ & ->).
  pose proof (pl_reachable_wf _ _ (ex_wf_pool _ _ _ _ Hwf Hp)) as Hpw.
  apply pl_remove_tokens_spec in Hrm as (Hst & Hmx & _ & _ & _ & Hs & _); [|done].
  pose proof (pl_step_same _ _ _ _ Hpw Hst) as (_ & Htok & _). rewrite Htok in Hd.
  apply ac_deposit_all_spec in Hd as (Hf & Hh & _); [|eapply ex_wf_account; eauto|now apply pl_wf_nodup].
  exists p. split; [done|]. split; [done|]. split.
  - intros t. rewrite held_by_put, String.eqb_refl, (held_by_account _ _ _ t Ha). apply Hh.
  - intros a. change (shares_at (ex_put (ex_put_pool (ex_set_twap c tw) pid p') (e_caller e) acc') pid a) with (shares_at (ex_put_pool (ex_set_twap c tw) pid p') pid a). rewrite shares_put by eauto.
    rewrite N.eqb_refl, (shares_pool _ _ _ a Hp). apply Hs.
Qed.
Print Assumptions C10_remove_by_tokens.

Example C10_calls_ex :
  done_ (ex_execute_actions rich (env 120 "bo" 1) hops None false) = true /\
  done_ (ex_add_liquidity rich (env 120 "al" 1) 0 [9000; 9000] (Some [8999; 7900])) = true /\
  done_ (ex_add_stable_liquidity rich (env 120 "al" 1) 1 [1000; 2000] (10 ^ 15)) = true /\
  done_ (ex_remove_liquidity rich (env 120 "al" 1) 0 (10 ^ 20) [1; 1]) = true /\
  done_ (ex_remove_by_tokens rich (env 120 "al" 1) 1 [1000; 2000] (10 ^ 16)) = true.
Proof. split_and!; vm_compute; reflexivity. Qed.

(** ** C23 *)
Theorem C23_deposit c e s x c' ps :
  ex_wf (e_now e) c -> ex_ft_on_transfer c e s x MsgDeposit = Some (c', ps) ->
  let t := e_caller e in
  (ex_whitelisted c t = true \/ exists acc, ex_account c s = Some acc /\ is_Some (ac_get_balance acc t)) /\
  t ∉ cf_frozen (ex_cfg c) /\ cf_running (ex_cfg c) = true /\
  (exists acc', ex_account c' s = Some acc' /\ ac_covered acc') /\ ps = [] /\
  (forall a u, held_by c' a u = held_by c a u + (if String.eqb s a then only t u x else 0)) /\
  only_account s c c' /\ ex_pools c' = ex_pools c.
Proof.
  intros Hwf H. cbv zeta. unfold ex_ft_on_transfer in H. cbv zeta in H. grd H. grd H. apply running_inv in G0. grd H. apply no_frozen_inv in G1.
  bnd H c2 Hd. injection H as <- <-. apply ex_deposit_inv in Hd as (acc & acc' & Ha & Hw & Hdep & Hcov & ->).
  apply ac_deposit_spec in Hdep as (Hf & Hh & _); [|eapply ex_wf_account; eauto].
  split; [destruct Hw; eauto|]. split; [apply G1; apply elem_of_list_singleton; done|]. split; [done|].
  split; [exists acc'; split; [rewrite ex_account_put, String.eqb_refl; done|done]|]. split; [done|]. split; [|split; [|done]].
  - intros a u. rewrite held_by_put. destruct (String.eqb_spec s a) as [<-|]; [|lia]. rewrite (held_by_account _ _ _ u Ha). apply Hh.
  - apply (put_only_account c c). apply pool_frame_refl.
Qed.
Print Assumptions C23_deposit.
(** [own] may deposit into the account of [bo]; the balance shows it. *)
Example C23_ex :
  ex_wf 120 rich /\ done_ (ex_ft_on_transfer rich (env 120 "a" 0) "bo" 500 MsgDeposit) = true /\
  done_ (ex_ft_on_transfer rich (env 120 "evil" 0) "bo" 500 MsgDeposit) = false.
Proof. split; [apply rich_wf; lia|]. split; vm_compute; reflexivity. Qed.

(** ** C27 *)
Theorem C27_unregister c e c' ps :
  ex_storage_unregister c e = Some (c', ps) ->
  (forall t, held_by c (e_caller e) t = 0) /\
  match ex_account c (e_caller e) with
  | None => c' = c /\ ps = []
  | Some acc =>
      (forall t, ac_get_balance acc t = None) /\ (forall pid, ac_shadow acc !! pid = None) /\
      ex_account c' (e_caller e) = None /\ ps = [PNear (e_caller e) (ac_near acc)] /\
      only_account (e_caller e) c c' /\ ex_pools c' = ex_pools c /\ ex_volumes c' = ex_volumes c
  end.
Proof.
  intros H. apply ex_storage_unregister_inv in H as (_ & _ & [(Hn & -> & ->)|(acc & Ha & Ht & Hl & Hs & -> & ->)]).
  - split; [intros t; unfold held_by; now rewrite Hn|]. now rewrite Hn.
  - assert (Hb : forall t, ac_get_balance acc t = None) by (intros t; unfold ac_get_balance; rewrite Ht, Hl, !lookup_empty; done).
    split; [intros t; rewrite (held_by_account _ _ _ t Ha); unfold ac_held; now rewrite Hb|]. rewrite Ha.
    split; [done|]. split; [intros pid; now rewrite Hs, lookup_empty|].
    split; [unfold ex_account; ex_cbn; now rewrite lookup_delete|]. split; [done|]. split; [|done].
    unfold only_account. cbn [ex_set_accounts ex_self ex_cfg ex_lost ex_rates ex_accounts]. split_and!; auto. intros b Hb2. apply lookup_delete_ne. congruence.
Qed.
Print Assumptions C27_unregister.
(** An account with a token entry, an old-style entry or a shadow record cannot be unregistered. *)
Theorem C27_nothing_forfeited c e acc :
  ex_account c (e_caller e) = Some acc ->
  (exists t, is_Some (ac_get_balance acc t)) \/ (exists pid, is_Some (ac_shadow acc !! pid)) -> ex_storage_unregister c e = None.
Proof.
  intros Ha Hx. destruct (ex_storage_unregister c e) as [[c' ps]|] eqn:E; [|done]. exfalso.
  apply C27_unregister in E as (_ & E). rewrite Ha in E. destruct E as (A & B & _).
  destruct Hx as [[t Ht]|[pid Hp]]; [rewrite A in Ht; now destruct Ht|rewrite B in Hp; now destruct Hp].
Qed.
Print Assumptions C27_nothing_forfeited.
Definition emptied : Exchange := ex_set_accounts rich (<["zoe"%string := VACurrent (mkAccount (2 * 10 ^ 21) ∅ ∅ ∅)]> (ex_accounts rich)).
Definition old_style : Exchange := ex_set_accounts rich (<["zoe"%string := VA1 (2 * 10 ^ 21) (list_to_map [("a"%string, 5)])]> (ex_accounts rich)).
Example C27_ex :
  done_ (ex_storage_unregister emptied (env 120 "zoe" 1)) = true /\ done_ (ex_storage_unregister rich (env 120 "al" 1)) = false /\
  done_ (ex_storage_unregister old_style (env 120 "zoe" 1)) = false.
Proof. split_and!; vm_compute; reflexivity. Qed.

(** ** C28 *)
(** Two accounts show the same balances, whatever mixture of old and new entries they use. *)
Definition shows_same (a b : Account) : Prop := forall t, ac_get_balance a t = ac_get_balance b t.

Lemma deposit_shows a t x : ac_disjoint a ->
  match ac_deposit a t x with
  | Some a' => (forall y, ac_get_balance a t = Some y -> 0 < x -> y + x < W128) /\
      forall u, ac_get_balance a' u = if String.eqb t u && (0 <? x) then Some (ac_held a t + x) else ac_get_balance a u
  | None => 0 < x /\ exists y, ac_get_balance a t = Some y /\ W128 <= y + x
  end.
Proof.
  intros Hd. destruct (ac_deposit a t x) as [a'|] eqn:E.
  - pose proof (ac_deposit_spec _ _ _ _ Hd E) as (_ & _ & Ho & Hs). split.
    + intros y Hy Hx. unfold ac_deposit in E. rewrite (proj2 (N.ltb_lt 0 x)) in E by lia. unfold ac_get_balance in Hy.
      destruct (ac_legacy a !! t) as [z|] eqn:El; [rewrite (Hd _ _ El) in Hy|destruct (ac_tokens a !! t) as [z|]; [|done]];
        injection Hy as ->; bnd E r Hr; apply cadd_Some in Hr; lia.
    + intros u. destruct (String.eqb_spec t u) as [<-|Hne]; cbn [andb].
      * destruct (N.ltb_spec 0 x); [auto|]. unfold ac_deposit in E. rewrite (proj2 (N.ltb_ge 0 x)) in E by lia. now injection E as <-.
      * apply Ho. congruence.
  - unfold ac_deposit in E. destruct (N.ltb_spec 0 x); [|done]. split; [done|]. unfold ac_get_balance.
    destruct (ac_legacy a !! t) as [y|] eqn:El; [rewrite (Hd _ _ El)|destruct (ac_tokens a !! t) as [y|]; [|done]];
      (exists y; split; [done|]; destruct (N.lt_ge_cases (y + x) W128); [|done]; rewrite cadd_intro in E by lia; done).
Qed.
Lemma withdraw_shows a t x : ac_disjoint a ->
  match ac_withdraw a t x with
  | Some a' => (0 < x -> x <= ac_held a t) /\
      forall u, ac_get_balance a' u = if String.eqb t u && (0 <? x) then Some (ac_held a t - x) else ac_get_balance a u
  | None => ac_held a t < x
  end.
Proof.
  intros Hd. destruct (ac_withdraw a t x) as [a'|] eqn:E.
  - pose proof (ac_withdraw_spec _ _ _ _ Hd E) as (_ & _ & Ho & Hs & Hle). split; [auto|]. intros u. destruct (String.eqb_spec t u) as [<-|Hne]; cbn [andb].
    + destruct (N.ltb_spec 0 x) as [Hx|Hx]; [now apply Hs|]. unfold ac_withdraw in E. rewrite (proj2 (N.ltb_ge 0 x)) in E by lia. now injection E as <-.
    + apply Ho. congruence.
  - unfold ac_withdraw in E. destruct (N.ltb_spec 0 x); [|done]. unfold ac_held, ac_get_balance.
    destruct (ac_legacy a !! t) as [y|] eqn:El.
    + rewrite (Hd _ _ El). cbn [default from_option Datatypes.id]. destruct (csub y x) eqn:Ec; [done|].
      destruct (N.lt_ge_cases y x); [done|]. rewrite csub_intro in Ec by lia. done.
    + destruct (ac_tokens a !! t) as [y|] eqn:Et; cbn [default from_option Datatypes.id]; [|done].
      change (Some y ≫= (fun y => z ← csub y x; Some (ac_set_tokens a (<[t:=z]> (ac_tokens a)))))
        with (z ← csub y x; Some (ac_set_tokens a (<[t:=z]> (ac_tokens a)))) in E.
      destruct (csub y x) eqn:Ec; [done|].
      destruct (N.lt_ge_cases y x); [done|]. rewrite csub_intro in Ec by lia. done.
Qed.

(** Depositing and withdrawing do not depend on the representation: they succeed on both accounts or
    on neither, and again show the same. *)
Theorem C28_representation_irrelevant a b t x :
  ac_disjoint a -> ac_disjoint b -> shows_same a b ->
  match ac_deposit a t x, ac_deposit b t x with
  | Some a', Some b' => shows_same a' b' /\ ac_disjoint a' /\ ac_disjoint b' | None, None => True | _, _ => False end /\
  match ac_withdraw a t x, ac_withdraw b t x with
  | Some a', Some b' => shows_same a' b' /\ ac_disjoint a' /\ ac_disjoint b' | None, None => True | _, _ => False end.
Proof.
  intros Da Db Hs. assert (Hh : ac_held a t = ac_held b t) by (unfold ac_held; now rewrite Hs). split.
  - pose proof (deposit_shows a t x Da) as Ha. pose proof (deposit_shows b t x Db) as Hb.
    destruct (ac_deposit a t x) as [a'|] eqn:Ea, (ac_deposit b t x) as [b'|] eqn:Eb.
    + split; [intros u; rewrite (proj2 Ha), (proj2 Hb), Hh, Hs; done|]. apply ac_deposit_spec in Ea as ((A & _) & _); [|done].
      apply ac_deposit_spec in Eb as ((B & _) & _); auto.
    + destruct Hb as (Hx & y & Hy & Hw). destruct Ha as [Ha _]. specialize (Ha y). rewrite Hs in Ha. specialize (Ha Hy Hx). lia.
    + destruct Ha as (Hx & y & Hy & Hw). destruct Hb as [Hb _]. specialize (Hb y). rewrite <- Hs in Hb. specialize (Hb Hy Hx). lia.
    + done.
  - pose proof (withdraw_shows a t x Da) as Ha. pose proof (withdraw_shows b t x Db) as Hb.
    destruct (ac_withdraw a t x) as [a'|] eqn:Ea, (ac_withdraw b t x) as [b'|] eqn:Eb.
    + split; [intros u; rewrite (proj2 Ha), (proj2 Hb), Hh, Hs; done|]. apply ac_withdraw_spec in Ea as ((A & _) & _); [|done].
      apply ac_withdraw_spec in Eb as ((B & _) & _); auto.
    + destruct Ha as [Ha _]. lia.
    + destruct Hb as [Hb _]. lia.
    + done.
Qed.
Print Assumptions C28_representation_irrelevant.
(** Touching an old-style entry moves it to the new representation with the right value, and leaves
    what get_deposit shows of every other token alone. *)
Theorem C28_moved a t y x :
  ac_disjoint a -> ac_legacy a !! t = Some y -> 0 < x ->
  (forall a', ac_deposit a t x = Some a' ->
     ac_legacy a' !! t = None /\ ac_tokens a' !! t = Some (y + x) /\ ac_disjoint a' /\
     (forall u, u <> t -> ac_get_balance a' u = ac_get_balance a u) /\ ac_near a' = ac_near a /\ ac_shadow a' = ac_shadow a) /\
  (forall a', ac_withdraw a t x = Some a' ->
     ac_legacy a' !! t = None /\ ac_tokens a' !! t = Some (y - x) /\ x <= y /\ ac_disjoint a' /\
     (forall u, u <> t -> ac_get_balance a' u = ac_get_balance a u) /\ ac_near a' = ac_near a /\ ac_shadow a' = ac_shadow a).
Proof.
  intros Hd Hl Hx.
  assert (Hy : ac_held a t = y) by (unfold ac_held, ac_get_balance; now rewrite (Hd _ _ Hl), Hl).
  split; intros a' H.
  - pose proof (ac_deposit_spec _ _ _ _ Hd H) as ((A & B & C) & _ & D & _). unfold ac_deposit in H. rewrite (proj2 (N.ltb_lt _ _) Hx), Hl in H.
    bnd H z Hz. apply cadd_Some in Hz as [-> _]. injection H as <-. cbn [ac_legacy ac_tokens]. rewrite lookup_delete, lookup_insert.
    split; [done|]. split; [f_equal; lia|]. auto.
  - pose proof (ac_withdraw_spec _ _ _ _ Hd H) as ((A & B & C) & _ & D & _). unfold ac_withdraw in H. rewrite (proj2 (N.ltb_lt _ _) Hx), Hl in H.
    bnd H z Hz. apply csub_Some in Hz as [-> Hz]. injection H as <-. cbn [ac_legacy ac_tokens]. rewrite lookup_delete, lookup_insert.
    split; [done|]. split; [done|]. split; [lia|]. auto.
Qed.
Print Assumptions C28_moved.
(** Accounts stored by earlier versions of the contract show the balances they stored. *)
Theorem C28_stored_versions near old new t :
  ac_get_balance (into_current (VA1 near old)) t = old !! t /\
  ac_disjoint (into_current (VA1 near old)) /\
  (old ##ₘ new -> ac_get_balance (into_current (VA2 near old new)) t = (new ∪ old) !! t /\ ac_disjoint (into_current (VA2 near old new))) /\
  ac_near (into_current (VA1 near old)) = near /\ ac_near (into_current (VA2 near old new)) = near.
Proof.
  unfold ac_get_balance, into_current, ac_disjoint; cbn [ac_legacy ac_tokens ac_near]. split; [now rewrite lookup_empty|].
  split; [intros; apply lookup_empty|]. split; [|done]. intros Hd. split.
  - destruct (new !! t) as [x|] eqn:E; [symmetry; now apply lookup_union_Some_l|]. symmetry. now rewrite lookup_union_r.
  - intros u x Hu. eapply map_disjoint_Some_l; eauto.
Qed.
Print Assumptions C28_stored_versions.
Definition mixed : Account := mkAccount (10 ^ 22) (list_to_map [("a"%string, 5); ("b"%string, 7)]) (list_to_map [("c"%string, 9)]) ∅.
Definition renewed : Account := mkAccount (10 ^ 22) ∅ (list_to_map [("a"%string, 5); ("b"%string, 7); ("c"%string, 9)]) ∅.
Lemma mixed_disjoint : ac_disjoint mixed.
Proof.
  intros t x H. cbn [mixed ac_legacy ac_tokens] in *. apply elem_of_list_to_map_2 in H. apply not_elem_of_list_to_map_1.
  rewrite !elem_of_cons, elem_of_nil in H. destruct H as [[= -> ->]|[[= -> ->]|[]]];
    change ((fst <$> [("c"%string, 9)])) with ["c"%string]; rewrite elem_of_list_singleton; done.
Qed.
Example C28_ex :
  ac_disjoint mixed /\ ac_disjoint renewed /\ shows_same mixed renewed /\
  done_ (ac_deposit mixed "a" 3) = true /\ done_ (ac_withdraw mixed "b" 7) = true.
Proof.
  split; [exact mixed_disjoint|]. split; [intros t x H; unfold renewed in H; cbn [ac_legacy] in H; now rewrite lookup_empty in H|]. split; [|split; vm_compute; reflexivity].
  intros t. unfold ac_get_balance, mixed, renewed; cbn [ac_legacy ac_tokens list_to_map].
  rewrite lookup_empty.
  destruct (decide (t = "a"%string)) as [->|Ha]; [reflexivity|]. destruct (decide (t = "b"%string)) as [->|Hb]; [reflexivity|].
  destruct (decide (t = "c"%string)) as [->|Hc]; [reflexivity|]. rewrite !not_elem_of_list_to_map_1; [done|..];
    cbn [fmap list_fmap fst]; rewrite ?elem_of_cons, elem_of_nil; tauto.
Qed.

(** ** C35 *)
(** donation_token: the donor's balance falls by the amount, the owner's grows by it, no other balance changes. *)
Theorem C35_donation_token c e t am unreg c' :
  ex_wf (e_now e) c -> ex_donate_token c e t am unreg = Some c' ->
  let x := default (held_by c (e_caller e) t) am in
  0 < x /\ x <= held_by c (e_caller e) t /\
  (forall a u, held_by c' a u + (if String.eqb (e_caller e) a then only t u x else 0)
             = held_by c a u + (if String.eqb (cf_owner (ex_cfg c)) a then only t u x else 0)) /\
  ex_pools c' = ex_pools c /\ ex_lost c' = ex_lost c /\ ex_cfg c' = ex_cfg c /\ ex_volumes c' = ex_volumes c.
Proof.
  intros Hwf H. cbv zeta. apply ex_donate_token_inv in H as (acc & bal & x & acc1 & acc2 & oa & oa' & _ & _ & Ha & Hb & Hx & Hpos & Hw & Hu & _ & Ho & Hd & ->).
  assert (Hdj : ac_disjoint acc) by (eapply ex_wf_account; eauto).
  assert (Hbal : held_by c (e_caller e) t = bal) by (rewrite (held_by_account _ _ _ t Ha); unfold ac_held; now rewrite Hb).
  rewrite Hbal, <- Hx. clear Hx. apply ac_withdraw_spec in Hw as ((Hd1 & _) & Hh1 & _ & _ & Hle); [|done].
  assert (H2 : ac_disjoint acc2 /\ forall u, ac_held acc2 u = ac_held acc1 u).
  { destruct unreg; [|injection Hu as <-; done]. apply ac_unregister_spec in Hu as ((A & _) & _ & B & _); auto. }
  destruct H2 as [Hd2 Hh2].
  assert (Hdo : ac_disjoint oa).
  { rewrite ex_account_put in Ho. destruct (String.eqb_spec (e_caller e) (cf_owner (ex_cfg c))); [injection Ho as <-; done|].
    eapply ex_wf_account; eauto. }
  apply ac_deposit_spec in Hd as (_ & Hho & _); [|done].
  split; [done|]. split; [rewrite (held_by_account _ _ _ t Ha) in Hbal; unfold ac_held in *; rewrite Hb in *; cbn [default from_option Datatypes.id] in *; lia|].
  split; [|done]. intros a u. rewrite !held_by_put. rewrite ex_account_put in Ho.
  specialize (Hh1 u). specialize (Hh2 u). specialize (Hho u). pose proof (held_by_account _ _ _ u Ha) as Hca.
  destruct (String.eqb_spec (e_caller e) (cf_owner (ex_cfg c))) as [<-|Hne].
  - injection Ho as <-. destruct (String.eqb_spec (e_caller e) a) as [<-|]; lia.
  - pose proof (held_by_account _ _ _ u Ho) as Hco.
    destruct (String.eqb_spec (cf_owner (ex_cfg c)) a) as [E1|], (String.eqb_spec (e_caller e) a) as [E2|]; try congruence; try rewrite <- E1; try rewrite <- E2; lia.
Qed.
Print Assumptions C35_donation_token.

(** donation_share: the donor's shares fall by the amount, the exchange's own shares grow by it. *)
Theorem C35_donation_share c e pid am unreg c' ps :
  ex_wf (e_now e) c -> ex_donate_share c e pid am unreg = Some (c', ps) ->
  let x := default (shares_at c pid (e_caller e)) am in
  0 < x /\ x <= shares_at c pid (e_caller e) /\
  (forall q a, shares_at c' q a + (if q =? pid then only (e_caller e) a x else 0)
             = shares_at c q a + (if q =? pid then only (ex_self c) a x else 0)) /\
  (forall a t, held_by c' a t = held_by c a t) /\ (forall t, total_reserves c' t = total_reserves c t) /\
  ex_lost c' = ex_lost c /\ ex_cfg c' = ex_cfg c /\ ex_volumes c' = ex_volumes c.
Proof.
  intros Hwf H. cbv zeta. apply ex_donate_share_inv in H as (p & x & p1 & p2 & _ & _ & Hp & Hx & Hpos & Ht & Hu & Hc).
  rewrite (shares_pool _ _ _ _ Hp), <- Hx. apply pl_transfer_any in Ht as (Hle & Hr1 & Hs1).
  assert (H2 : (forall t, pl_reserve p2 t = pl_reserve p1 t) /\ forall h, pl_share_of p2 h = pl_share_of p1 h).
  { destruct unreg; [|injection Hu as <-; done]. apply (pl_unregister_spec p1 (ex_rates c) 0) in Hu. tauto. }
  destruct H2 as [Hr2 Hs2]. split; [done|]. split; [done|].
  assert (Hs : forall q a, shares_at (ex_put_pool c pid p2) q a + (if q =? pid then only (e_caller e) a x else 0)
             = shares_at c q a + (if q =? pid then only (ex_self c) a x else 0)).
  { intros q a. rewrite shares_put by eauto. rewrite (N.eqb_sym q pid). destruct (N.eqb_spec pid q) as [<-|]; [|done].
    rewrite Hs2, (shares_pool _ _ _ _ Hp). apply Hs1. }
  assert (HT : forall t, total_reserves (ex_put_pool c pid p2) t = total_reserves c t).
  { intros t. pose proof (total_reserves_put c pid p p2 t Hp). rewrite Hr2, Hr1 in *. lia. }
  destruct Hc as [(-> & _)|(acc & _ & Ha & _ & ->)].
  - split; [done|]. split; [done|]. split; [done|]. done.
  - split; [intros q a; exact (Hs q a)|]. split; [|split; [exact HT|done]]. intros a t. rewrite held_by_put.
    destruct (String.eqb_spec (e_caller e) a) as [<-|]; [|done]. rewrite (held_by_account _ _ _ t Ha). done.
Qed.
Print Assumptions C35_donation_share.
(** A donor gives half of a deposit, the owner gives to themself, and a donor gives all shares away. *)
Example C35_ex :
  ex_wf 120 rich /\ done_ (ex_donate_token rich (env 120 "al" 1) "a" (Some 1000) false) = true /\
  done_ (ex_donate_share rich (env 120 "al" 1) 0 (Some 1000) false) = true /\
  done_ (ex_donate_share rich (env 120 "al" 1) 0 None true) = true.
Proof. split; [apply rich_wf; lia|]. split_and!; vm_compute; reflexivity. Qed.
