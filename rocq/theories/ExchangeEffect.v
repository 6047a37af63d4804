(** * The exchange: no method owes more than it received *)
From Verif Require Import Base BaseLemmas SimplePool SimplePoolProofs SpecSimple SimplePoolInv StableMath StablePool
  SpecStable StablePoolProofs StablePoolInv Rates Echo Twap Account Pool Exchange SpecExchange AccountProofs PoolFacts
  ExchangeProofs ExchangeInv.

Lemma dflt_Some (x : N) : default 0 (Some x) = x.
Proof. done. Qed.
Lemma dflt_None : default 0 (@None N) = 0.
Proof. done. Qed.
Ltac dfl := rewrite ?dflt_Some, ?dflt_None in *.

(** [out] left and [inn] arrived between the two states. *)
Definition moved (now : N) (c c' : Exchange) (out inn : AccountId -> N) : Prop :=
  ex_wf now c' /\ pools_extend c c' /\ ex_self c' = ex_self c /\
  forall t, owed c' t + out t <= owed c t + inn t.
Definition nothing (t : AccountId) : N := 0.

Lemma moved_weaken now c c' out inn out' inn' :
  moved now c c' out inn -> (forall t, out' t + inn t <= out t + inn' t) -> moved now c c' out' inn'.
Proof. intros (A & B & C & H) Hw. split_and!; auto. intros t. specialize (H t). specialize (Hw t). lia. Qed.
Lemma moved_trans now c1 c2 c3 o1 i1 o2 i2 :
  moved now c1 c2 o1 i1 -> moved now c2 c3 o2 i2 -> moved now c1 c3 (fun t => o1 t + o2 t) (fun t => i1 t + i2 t).
Proof.
  intros (A1 & B1 & C1 & H1) (A2 & B2 & C2 & H2). split_and!; auto; [eapply pools_extend_trans; eauto|congruence|].
  intros t. specialize (H2 t). specialize (H1 t). lia.
Qed.
Lemma moved_refl now c : ex_wf now c -> moved now c c nothing nothing.
Proof. intros H. split_and!; auto. now apply pools_extend_refl. Qed.
(** Changes outside pools, accounts and lost-and-found. *)
Lemma moved_same now c c' :
  ex_wf now c -> ex_self c' = ex_self c -> ex_pools c' = ex_pools c -> ex_accounts c' = ex_accounts c -> ex_lost c' = ex_lost c ->
  moved now c c' nothing nothing.
Proof.
  intros [W1 W2] H1 H2 H3 H4. split_and!; auto.
  - unfold ex_wf. now rewrite H2, H3.
  - now apply pools_extend_refl.
  - intros t. unfold owed, total_deposits, total_reserves, total_lost. rewrite H2, H3, H4. lia.
Qed.
Lemma moved_put now c a acc out inn :
  ex_wf now c -> ac_disjoint acc -> (forall t, ac_held acc t + out t <= held_by c a t + inn t) ->
  moved now c (ex_put c a acc) out inn.
Proof.
  intros Hwf Hd Hh. split_and!; auto; [now apply ex_wf_put|now apply pools_extend_refl|].
  intros t. specialize (Hh t). pose proof (total_deposits_put c a acc t) as Hs.
  unfold owed. change (total_reserves (ex_put c a acc) t) with (total_reserves c t).
  change (total_lost (ex_put c a acc) t) with (total_lost c t). lia.
Qed.
Lemma moved_pool now rs c pid p p' out inn :
  ex_wf now c -> now < 2 ^ 64 -> ex_pool c pid = Some p -> pl_step rs now p p' ->
  (forall t, pl_reserve p' t + out t <= pl_reserve p t + inn t) ->
  moved now c (ex_put_pool c pid p') out inn.
Proof.
  intros Hwf HW Hp Hst Hr. pose proof (ex_wf_pool _ _ _ _ Hwf Hp) as Hpr. pose proof (pl_reachable_wf _ _ Hpr) as Hpw.
  pose proof (pl_step_same _ _ _ _ Hpw Hst) as Hsame.
  assert (He : pools_extend c (ex_put_pool c pid p')) by (eapply pools_extend_put; eauto).
  split_and!; auto.
  - apply ex_wf_put_pool; [done|]. eapply pl_step_reachable; eauto; lia.
  - intros t. specialize (Hr t).
    pose proof (total_reserves_put c pid p p' t Hp) as Hs.
    unfold owed. change (total_deposits (ex_put_pool c pid p') t) with (total_deposits c t).
    change (total_lost (ex_put_pool c pid p') t) with (total_lost c t). lia.
Qed.
Lemma moved_swaps now c c' out inn :
  ex_wf now c' -> swap_frame c c' -> (forall t, total_reserves c' t + out t <= total_reserves c t + inn t) ->
  moved now c c' out inn.
Proof.
  intros Hw Hsf Hr. split_and!; auto; [now apply swap_frame_extend|apply Hsf|].
  destruct Hsf as (_ & _ & Ha & Hl & _). intros t. specialize (Hr t). unfold owed, total_deposits, total_lost in *. rewrite Ha, Hl. lia.
Qed.
Lemma moved_wf now c c' o i : moved now c c' o i -> ex_wf now c'.
Proof. now intros (H & _). Qed.
Ltac mtrans := eapply moved_weaken; [eapply moved_trans|].

(** ** Swaps *)
Lemma ex_execute_moved c e acc r l prev skip c' acc' res :
  ex_wf (e_now e) c -> e_now e < 2 ^ 64 -> ac_disjoint acc ->
  ex_execute c e acc r l prev skip = Some (c', acc', res) ->
  ac_frame acc acc' /\ swap_frame c c' /\ moved (e_now e) c c' (ac_held acc') (ac_held acc).
Proof.
  intros Hwf HW Hd H. apply (ex_execute_spec (e_now e)) in H as (Hw & Hsf & Hf & Hle & _); try done; try lia.
  split_and!; auto. now apply moved_swaps.
Qed.
Lemma held_swaps c c' a acc t : swap_frame c c' -> ex_account c a = Some acc -> held_by c' a t = ac_held acc t.
Proof. intros (_ & _ & Ha & _) H. unfold held_by, ex_account in *. now rewrite Ha, H. Qed.
Lemma ex_execute_actions_moved c e l r skip c' res :
  ex_wf (e_now e) c -> e_now e < 2 ^ 64 -> ex_execute_actions c e l r skip = Some (c', res) ->
  moved (e_now e) c c' nothing nothing.
Proof.
  intros Hwf HW H. apply ex_execute_actions_inv in H as (acc & c1 & acc' & _ & _ & Ha & _ & Hx & _ & ->).
  pose proof (ex_wf_account _ _ _ _ Hwf Ha) as Hd. apply ex_execute_moved in Hx as (Hf & Hsf & Hm); auto.
  mtrans; [exact Hm|apply (moved_put _ _ _ _ (ac_held acc) (ac_held acc')); [apply Hm|apply Hf|]|].
  - intros t. rewrite (held_swaps _ _ _ _ t Hsf Ha). lia.
  - intros t. unfold nothing. lia.
Qed.
Lemma ac_new_legacy : ac_legacy ac_new = ∅.
Proof. done. Qed.
Lemma ex_execute_in_va_moved c e use l r skip c' outs :
  ex_wf (e_now e) c -> e_now e < 2 ^ 64 -> ex_execute_in_va c e use l r skip = Some (c', outs) ->
  moved (e_now e) c c' nothing nothing.
Proof.
  intros Hwf HW H.
  apply ex_execute_in_va_inv in H as (acc & acc1 & va & c1 & va' & res & acc2 & _ & _ & Ha & Ht & Hx & -> & Hd2 & _ & ->).
  pose proof (ex_wf_account _ _ _ _ Hwf Ha) as Hd. pose proof (va_take_legacy _ _ _ _ _ Ht ac_new_legacy) as Hl.
  apply va_take_spec in Ht as (Hf1 & Hf2 & Hh1 & Hh2); [|done|apply ac_new_disjoint].
  pose proof (ex_execute_legacy _ _ _ _ _ _ _ _ _ _ Hx Hl) as Hl'.
  apply ex_execute_moved in Hx as (Hf & Hsf & Hm); auto; [|apply Hf2].
  apply ac_deposit_list_spec in Hd2 as (Hf3 & Hh3); [|apply Hf1].
  mtrans; [exact Hm|apply (moved_put _ _ _ _ (ac_held va) (ac_held va')); [apply Hm|apply Hf3|]|].
  - intros t. rewrite (held_swaps _ _ _ _ t Hsf Ha), Hh3, Hh2, ac_new_held, <- Hh1, (va_out_held _ _ Hl'). lia.
  - intros t. unfold nothing. lia.
Qed.

(** ** Liquidity *)
Lemma moved_twap now c tw : ex_wf now c -> moved now c (ex_set_twap c tw) nothing nothing.
Proof. intros H. now apply moved_same. Qed.
Lemma ex_add_liquidity_moved c e pid am mins c' ps sh :
  ex_wf (e_now e) c -> e_now e < 2 ^ 64 -> ex_add_liquidity c e pid am mins = Some (c', ps, sh) ->
  moved (e_now e) c c' nothing nothing.
Proof.
  intros Hwf HW H. apply ex_add_liquidity_inv in H as (tw & p & p' & taken & acc & acc' & _ & _ & Hp & _ & Hadd & _ & Ha & Hw & _ & _ & ->).
  pose proof (pl_reachable_wf _ _ (ex_wf_pool _ _ _ _ Hwf Hp)) as Hpw.
  apply (pl_add_spec p (ex_rates c) (e_now e)) in Hadd as (Hst & _ & _ & Hr & _); [|done].
  pose proof (pl_step_same _ _ _ _ Hpw Hst) as (_ & Htok & _). rewrite Htok in Hw.
  apply ac_withdraw_all_spec in Hw as (Hf & Hh & _); [|eapply ex_wf_account; eauto|now apply pl_wf_nodup].
  pose proof (moved_twap _ _ tw Hwf) as M1.
  assert (M2 : moved (e_now e) (ex_set_twap c tw) (ex_put (ex_set_twap c tw) (e_caller e) acc')
                 (fun t => beside t (pl_tokens p) taken) nothing).
  { apply moved_put; [apply M1|apply Hf|]. intros t. rewrite (held_by_account (ex_set_twap c tw) _ acc) by done.
    specialize (Hh t). unfold nothing. lia. }
  mtrans; [exact M1|eapply moved_trans; [exact M2|]|].
  - apply (moved_pool _ (ex_rates c) _ _ p _ nothing (fun t => beside t (pl_tokens p) taken)); auto; [apply M2|].
    intros t. rewrite Hr. unfold nothing. lia.
  - intros t. unfold nothing. lia.
Qed.
Lemma ex_add_stable_liquidity_moved c e pid am mn c' ps sh :
  ex_wf (e_now e) c -> e_now e < 2 ^ 64 -> ex_add_stable_liquidity c e pid am mn = Some (c', ps, sh) ->
  moved (e_now e) c c' nothing nothing.
Proof.
  intros Hwf HW H. apply ex_add_stable_liquidity_inv in H as (tw & p & p' & acc & acc' & _ & _ & Hp & _ & Hadd & _ & Ha & Hw & _ & _ & ->).
  pose proof (pl_reachable_wf _ _ (ex_wf_pool _ _ _ _ Hwf Hp)) as Hpw.
  apply pl_add_stable_spec in Hadd as (Hst & _ & _ & _ & Hr & _); [|done].
  pose proof (pl_step_same _ _ _ _ Hpw Hst) as (_ & Htok & _). rewrite Htok in Hw.
  apply ac_withdraw_all_spec in Hw as (Hf & Hh & _); [|eapply ex_wf_account; eauto|now apply pl_wf_nodup].
  pose proof (moved_twap _ _ tw Hwf) as M1.
  assert (M2 : moved (e_now e) (ex_set_twap c tw) (ex_put (ex_set_twap c tw) (e_caller e) acc')
                 (fun t => beside t (pl_tokens p) am) nothing).
  { apply moved_put; [apply M1|apply Hf|]. intros t. rewrite (held_by_account (ex_set_twap c tw) _ acc) by done.
    specialize (Hh t). unfold nothing. lia. }
  mtrans; [exact M1|eapply moved_trans; [exact M2|]|].
  - apply (moved_pool _ (ex_rates c) _ _ p _ nothing (fun t => beside t (pl_tokens p) am)); auto; [apply M2|].
    intros t. specialize (Hr t). unfold nothing. lia.
  - intros t. unfold nothing. lia.
Qed.
(** Tokens taken out of a pool into a deposit. *)
Lemma pool_to_account now rs c pid p p' a acc acc' out inn :
  ex_wf now c -> now < 2 ^ 64 -> ex_pool c pid = Some p -> pl_step rs now p p' ->
  (forall t, pl_reserve p' t + beside t (pl_tokens p) out <= pl_reserve p t + inn t) ->
  ex_account c a = Some acc -> ac_deposit_all acc (pl_tokens p') out = Some acc' ->
  moved now c (ex_put (ex_put_pool c pid p') a acc') nothing inn.
Proof.
  intros Hwf HW Hp Hst Hr Ha Hd.
  pose proof (pl_reachable_wf _ _ (ex_wf_pool _ _ _ _ Hwf Hp)) as Hpw.
  pose proof (pl_step_same _ _ _ _ Hpw Hst) as (_ & Htok & _). rewrite Htok in Hd.
  apply ac_deposit_all_spec in Hd as (Hf & Hh & _); [|eapply ex_wf_account; eauto|now apply pl_wf_nodup].
  assert (M1 : moved now c (ex_put_pool c pid p') (fun t => beside t (pl_tokens p) out) inn).
  { eapply moved_pool; eauto. }
  mtrans; [exact M1|apply (moved_put _ _ _ _ nothing (fun t => beside t (pl_tokens p) out)); [apply M1|apply Hf|]|].
  - intros t. rewrite (held_by_account (ex_put_pool c pid p') _ acc) by done. rewrite Hh. unfold nothing. lia.
  - intros t. unfold nothing. lia.
Qed.
Lemma ex_remove_liquidity_moved c e pid sh mins c' out :
  ex_wf (e_now e) c -> e_now e < 2 ^ 64 -> ex_remove_liquidity c e pid sh mins = Some (c', out) ->
  moved (e_now e) c c' nothing nothing.
Proof.
  intros Hwf HW H. apply ex_remove_liquidity_inv in H as (tw & p & p' & acc & acc' & _ & _ & Hp & Ha & _ & _ & Hrm & Hd & _ & ->).
  pose proof (pl_reachable_wf _ _ (ex_wf_pool _ _ _ _ Hwf Hp)) as Hpw.
  apply (pl_remove_spec p (ex_rates c) (e_now e)) in Hrm as (Hst & _ & Hr & _); [|done].
  pose proof (moved_twap _ _ tw Hwf) as M1.
  assert (Hr' : forall t, pl_reserve p' t + beside t (pl_tokens p) out <= pl_reserve p t + nothing t) by (intros t; specialize (Hr t); lia).
  mtrans; [exact M1|eapply (pool_to_account _ (ex_rates c) (ex_set_twap c tw)); eauto; apply M1|].
  intros t. unfold nothing. lia.
Qed.
Lemma ex_remove_by_tokens_moved c e pid am mx c' burn :
  ex_wf (e_now e) c -> e_now e < 2 ^ 64 -> ex_remove_by_tokens c e pid am mx = Some (c', burn) ->
  moved (e_now e) c c' nothing (rounding_at c pid am).
Proof.
  intros Hwf HW H. apply ex_remove_by_tokens_inv in H as (tw & p & p' & acc & acc' & _ & _ & Hp & Ha & _ & _ & Hrm & Hd & _ & ->).
  pose proof (pl_reachable_wf _ _ (ex_wf_pool _ _ _ _ Hwf Hp)) as Hpw.
  apply pl_remove_tokens_spec in Hrm as (Hst & _ & _ & _ & _ & _ & Hr); [|done].
  pose proof (moved_twap _ _ tw Hwf) as M1. change (ex_pool (ex_set_twap c tw) pid) with (ex_pool c pid) in Hp.
  assert (E : forall t, pl_rounding p am t = rounding_at c pid am t) by (intros t; unfold rounding_at; now rewrite Hp).
  mtrans; [exact M1|eapply (pool_to_account _ (ex_rates c) (ex_set_twap c tw)); eauto; apply M1|].
  intros t. cbn beta. rewrite E. unfold nothing. lia.
Qed.
Lemma ex_remove_fee_liquidity_moved c e pid sh mins c' :
  ex_wf (e_now e) c -> e_now e < 2 ^ 64 -> ex_remove_fee_liquidity c e pid sh mins = Some c' ->
  moved (e_now e) c c' nothing nothing.
Proof.
  intros Hwf HW H. apply ex_remove_fee_liquidity_inv in H as (p & p' & out & acc & acc' & _ & _ & Hp & Hrm & Ha & Hd & _ & ->).
  pose proof (pl_reachable_wf _ _ (ex_wf_pool _ _ _ _ Hwf Hp)) as Hpw.
  apply (pl_remove_spec p (ex_rates c) (e_now e)) in Hrm as (Hst & _ & Hr & _); [|done].
  assert (Hr' : forall t, pl_reserve p' t + beside t (pl_tokens p) out <= pl_reserve p t + nothing t) by (intros t; specialize (Hr t); lia).
  eapply (pool_to_account _ (ex_rates c)); eauto.
Qed.

(** ** Deposits and withdrawals *)
Lemma moved_put_same now c a acc acc' :
  ex_wf now c -> ex_account c a = Some acc -> ac_disjoint acc' -> (forall t, ac_held acc' t = ac_held acc t) ->
  moved now c (ex_put c a acc') nothing nothing.
Proof.
  intros Hwf Ha Hd Hh. apply moved_put; auto. intros t. rewrite (held_by_account _ _ _ t Ha), Hh. lia.
Qed.
Lemma moved_delete now c a acc :
  ex_wf now c -> ex_account c a = Some acc ->
  moved now c (ex_set_accounts c (delete a (ex_accounts c))) (ac_held acc) nothing.
Proof.
  intros [W1 W2] Ha. split_and!; auto.
  - split; [done|]. ex_cbn. now apply map_Forall_delete.
  - now apply pools_extend_refl.
  - intros t. pose proof (total_deposits_delete c a t) as Hs. rewrite (held_by_account _ _ _ t Ha) in Hs. unfold owed, nothing.
    change (total_reserves (ex_set_accounts c (delete a (ex_accounts c))) t) with (total_reserves c t).
    change (total_lost (ex_set_accounts c (delete a (ex_accounts c))) t) with (total_lost c t). lia.
Qed.
Lemma moved_lost now c m out inn :
  ex_wf now c -> (forall t, total_lost (ex_set_lost c m) t + out t <= total_lost c t + inn t) ->
  moved now c (ex_set_lost c m) out inn.
Proof.
  intros Hwf Hl. split_and!; auto; [now apply pools_extend_refl|]. intros t. specialize (Hl t). unfold owed.
  change (total_reserves (ex_set_lost c m) t) with (total_reserves c t).
  change (total_deposits (ex_set_lost c m) t) with (total_deposits c t). lia.
Qed.
Lemma promised_one t p : promised_all t [p] = promised t p.
Proof. unfold promised_all. cbn [fmap list_fmap lsum]. lia. Qed.
Lemma ex_withdraw_moved c e t am u s c' ps :
  ex_wf (e_now e) c -> ex_withdraw c e t am u s = Some (c', ps) ->
  moved (e_now e) c c' (fun t => promised_all t ps) nothing.
Proof.
  intros Hwf H. apply ex_withdraw_inv in H as (acc & x & acc1 & acc2 & _ & _ & _ & Ha & _ & _ & Hw & Hu & _ & -> & ->).
  pose proof (ex_wf_account _ _ _ _ Hwf Ha) as Hd. apply ac_withdraw_spec in Hw as (Hf & Hh & _); [|done].
  assert (ac_disjoint acc2 /\ forall t, ac_held acc2 t = ac_held acc1 t) as [Hd2 Hh2].
  { destruct u; [|injection Hu as <-; split; [apply Hf|done]]. apply ac_unregister_spec in Hu as (Hf2 & _ & Hh2 & _); [|apply Hf].
    split; [apply Hf2|done]. }
  apply moved_put; auto. intros q. rewrite promised_one, ex_send_promised, (held_by_account _ _ _ q Ha), Hh2, <- (Hh q). lia.
Qed.
Lemma total_lost_insert c a m t :
  total_lost (ex_set_lost c (<[a := m]> (ex_lost c))) t + lost_of c a t = total_lost c t + default 0 (m !! t).
Proof.
  unfold total_lost, lost_of. ex_cbn.
  pose proof (msum_insert (fun (_ : AccountId) (m : gmap AccountId N) => default 0 (m !! t)) (ex_lost c) a m) as H.
  unfold contrib in H. destruct (ex_lost c !! a); exact H.
Qed.
Lemma lost_of_default c a t : lost_of c a t = default 0 (default ∅ (ex_lost c !! a) !! t).
Proof. unfold lost_of. now destruct (ex_lost c !! a). Qed.
Lemma lost_of_le c a t : lost_of c a t <= total_lost c t.
Proof.
  pose proof (total_lost_insert c a ∅ t) as H. rewrite lookup_empty in H. dfl. lia.
Qed.
Lemma total_lost_put c s t x m q :
  lost_insert (ex_lost c) s t x = Some m -> total_lost (ex_set_lost c m) q = total_lost c q + only t q x.
Proof.
  intros H. apply lost_insert_inv in H as ->.
  pose proof (total_lost_insert c s (<[t := default 0 (default ∅ (ex_lost c !! s) !! t) + x]> (default ∅ (ex_lost c !! s))) q) as H.
  rewrite lost_of_default in H. pose proof (lost_of_le c s q) as Hle. rewrite lost_of_default in Hle.
  unfold only. destruct (String.eqb_spec t q) as [->|Hne].
  - rewrite lookup_insert in H. dfl. lia.
  - rewrite lookup_insert_ne in H by done. lia.
Qed.
Lemma total_lost_take c a t q :
  total_lost (ex_set_lost c (lost_remove (ex_lost c) a t).1) q + only t q (lost_of c a t) = total_lost c q.
Proof.
  unfold lost_remove. set (am := default ∅ (ex_lost c !! a)). cbn [fst].
  assert (Hd : default 0 (delete t am !! q) + only t q (lost_of c a t) = lost_of c a q).
  { rewrite !lost_of_default. fold am. unfold only. destruct (String.eqb_spec t q) as [->|Hne].
    - rewrite lookup_delete. dfl. lia.
    - rewrite lookup_delete_ne by done. lia. }
  case_bool_decide as He.
  - rewrite He, lookup_empty in Hd. dfl. unfold total_lost. ex_cbn.
    pose proof (msum_delete_gen (fun (_ : AccountId) (m : gmap AccountId N) => default 0 (m !! q)) (ex_lost c) a) as H.
    unfold contrib in H. unfold lost_of in Hd at 2. destruct (ex_lost c !! a) as [m'|]; lia.
  - pose proof (total_lost_insert c a (delete t am) q) as H. lia.
Qed.
Lemma recredit_moved c e s t x c' :
  ex_wf (e_now e) c -> recredit c e s t x c' -> moved (e_now e) c c' nothing (fun u => only t u x).
Proof.
  intros Hwf H. destruct H as [acc acc' Ha Hd|m _ _ Hm|acc _ _ Hd].
  - apply ac_check_deposit_spec in Hd as (Hf & Hh & _); [|eapply ex_wf_account; eauto].
    apply moved_put; [done|apply Hf|]. intros u. rewrite (held_by_account _ _ _ u Ha), Hh. unfold nothing. lia.
  - apply moved_lost; [done|]. intros u. rewrite (total_lost_put _ _ _ _ _ u Hm). unfold nothing. lia.
  - apply ac_deposit_spec in Hd as (Hf & Hh & _); [|eapply ex_wf_account_or_new; eauto].
    apply moved_put; [done|apply Hf|]. intros u. rewrite Hh. unfold nothing, held_by, ex_account_or_new.
    destruct (ex_account c (cf_owner (ex_cfg c))); cbn [default from_option]; [unfold Datatypes.id|rewrite ac_new_held]; lia.
Qed.
Lemma ex_claim_moved c e t c' ps :
  ex_wf (e_now e) c -> ex_claim_lostfound c e t = Some (c', ps) ->
  moved (e_now e) c c' (fun t => promised_all t ps) nothing.
Proof.
  intros Hwf H. apply ex_claim_inv in H as (x & _ & _ & _ & _ & -> & -> & ->).
  apply moved_lost; [done|]. intros q. rewrite promised_one, ex_send_promised, total_lost_take. unfold nothing. lia.
Qed.
Lemma ex_deposit_moved now c a t x c' :
  ex_wf now c -> ex_deposit c a t x = Some c' -> moved now c c' nothing (fun u => only t u x).
Proof.
  intros Hwf H. apply ex_deposit_inv in H as (acc & acc' & Ha & _ & Hd & _ & ->).
  apply ac_deposit_spec in Hd as (Hf & Hh & _); [|eapply ex_wf_account; eauto].
  apply moved_put; [done|apply Hf|]. intros u. rewrite (held_by_account _ _ _ u Ha), Hh. unfold nothing. lia.
Qed.

(** ** Incoming tokens *)
Lemma ex_direct_moved c e t x r l skip c' outs :
  ex_wf (e_now e) c -> e_now e < 2 ^ 64 -> ex_direct c e t x r l skip = Some (c', outs) ->
  swap_frame c c' /\ moved (e_now e) c c' (fun u => amount_in_list u outs) (fun u => only t u x).
Proof.
  intros Hwf HW H. apply ex_direct_inv in H as (va & prev & va' & res & Hd & Hx & ->).
  pose proof (ac_deposit_legacy _ _ _ _ Hd ac_new_legacy) as Hl. pose proof (ex_execute_legacy _ _ _ _ _ _ _ _ _ _ Hx Hl) as Hl'.
  apply ac_deposit_spec in Hd as (Hf & Hh & _); [|apply ac_new_disjoint].
  apply ex_execute_moved in Hx as (_ & Hsf & Hm); auto; [|apply Hf]. split; [done|].
  eapply moved_weaken; [exact Hm|]. intros u. cbn beta. rewrite (va_out_held _ _ Hl'), Hh, ac_new_held. lia.
Qed.
Lemma tc_add_spec m t x m' u : tc_add m t x = Some m' -> default 0 (m' !! u) = default 0 (m !! u) + only t u x.
Proof.
  unfold tc_add. intros H. destruct (m !! t) as [y|] eqn:E.
  - bnd H z Hz. apply cadd_Some in Hz as [-> _]. injection H as <-. unfold only. destruct (String.eqb_spec t u) as [->|Hne].
    + rewrite lookup_insert, E. done.
    + rewrite lookup_insert_ne by done. lia.
  - injection H as <-. unfold only. destruct (String.eqb_spec t u) as [->|Hne].
    + rewrite lookup_insert, E. done.
    + rewrite lookup_insert_ne by done. lia.
Qed.
Lemma tc_sub_spec m t x m' u : tc_sub m t x = Some m' -> default 0 (m' !! u) + only t u x = default 0 (m !! u).
Proof.
  unfold tc_sub. intros H. destruct (N.eqb_spec x 0) as [->|Hx].
  - injection H as <-. rewrite only_zero. lia.
  - bnd H y Hy. bnd H z Hz. apply csub_Some in Hz as [-> Hle]. injection H as <-. unfold only.
    destruct (String.eqb_spec t u) as [->|Hne].
    + rewrite Hy. dfl. destruct (N.ltb_spec 0 (y - x)) as [L|L].
      * rewrite lookup_insert. dfl. lia.
      * rewrite lookup_delete. dfl. lia.
    + destruct (0 <? y - x); [rewrite lookup_insert_ne by done|rewrite lookup_delete_ne by done]; lia.
Qed.
Lemma tc_add_all_spec l u : forall m m', tc_add_all m l = Some m' -> default 0 (m' !! u) = default 0 (m !! u) + amount_in_list u l.
Proof.
  induction l as [|[t x] l IH]; intros m m' H; cbn [tc_add_all amount_in_list] in *; [injection H as <-; lia|].
  bnd H m1 H1. apply IH in H. apply (tc_add_spec _ _ _ _ u) in H1. lia.
Qed.
Lemma tc_sub_all_spec l u : forall m m', tc_sub_all m l = Some m' -> default 0 (m' !! u) + amount_in_list u l = default 0 (m !! u).
Proof.
  induction l as [|[t x] l IH]; intros m m' H; cbn [tc_sub_all amount_in_list] in *; [injection H as <-; lia|].
  bnd H m1 H1. apply IH in H. apply (tc_sub_spec _ _ _ _ u) in H1. lia.
Qed.
(** What leaves ex_zap_loop alone. *)
Definition pool_frame (c c' : Exchange) : Prop :=
  ex_self c' = ex_self c /\ ex_cfg c' = ex_cfg c /\ ex_accounts c' = ex_accounts c /\ ex_lost c' = ex_lost c /\ ex_rates c' = ex_rates c.
Lemma pool_frame_refl c : pool_frame c c.
Proof. unfold pool_frame. split_and!; auto. Qed.
Lemma pool_frame_trans c1 c2 c3 : pool_frame c1 c2 -> pool_frame c2 c3 -> pool_frame c1 c3.
Proof. intros (A & B & C & D & E) (F & G & H & I & J). unfold pool_frame. split_and!; congruence. Qed.
Lemma swap_pool_frame c c' : swap_frame c c' -> pool_frame c c'.
Proof. intros (A & B & C & D & E & _). unfold pool_frame. split_and!; auto. Qed.
Lemma ex_zap_one_moved c e s m i c' m' :
  ex_wf (e_now e) c -> e_now e < 2 ^ 64 -> ex_zap_one c e s m i = Some (c', m') ->
  pool_frame c c' /\ moved (e_now e) c c' (fun u => default 0 (m' !! u)) (fun u => default 0 (m !! u)).
Proof.
  intros Hwf HW H. apply ex_zap_one_inv in H as (p & p' & am & sh & Hp & Hadd & _ & Hs & ->).
  pose proof (pl_reachable_wf _ _ (ex_wf_pool _ _ _ _ Hwf Hp)) as Hpw.
  assert (pl_step (ex_rates c) (e_now e) p p' /\ forall t, pl_reserve p' t <= pl_reserve p t + beside t (pl_tokens p) am) as [Hst Hr].
  { destruct Hadd as [(_ & Hadd & _)|(_ & -> & mn & _ & Hadd)].
    - apply (pl_add_spec p (ex_rates c) (e_now e)) in Hadd as (Hst & _ & _ & Hr & _); [|done]. split; [done|]. intros t. rewrite Hr. lia.
    - apply pl_add_stable_spec in Hadd as (Hst & _ & _ & _ & Hr & _); done. }
  split; [unfold pool_frame; split_and!; auto|].
  eapply moved_pool; eauto. intros t. specialize (Hr t). apply (tc_sub_all_spec _ t) in Hs.
  rewrite amount_in_zip in Hs by now apply pl_wf_nodup. lia.
Qed.
Lemma ex_zap_loop_moved e s l : forall c m c' m',
  ex_wf (e_now e) c -> e_now e < 2 ^ 64 -> ex_zap_loop c e s m l = Some (c', m') ->
  pool_frame c c' /\ moved (e_now e) c c' (fun u => default 0 (m' !! u)) (fun u => default 0 (m !! u)).
Proof.
  induction l as [|i l IH]; intros c m c' m' Hwf HW H; cbn [ex_zap_loop] in H.
  - injection H as <- <-. split; [apply pool_frame_refl|]. eapply moved_weaken; [now apply moved_refl|]. intros u. unfold nothing. lia.
  - bnd H q Hq. destruct q as [c1 m1]. apply ex_zap_one_moved in Hq as [Hf1 M1]; auto.
    apply IH in H as [Hf2 M2]; [|apply M1|done]. split; [eapply pool_frame_trans; eauto|].
    mtrans; [exact M1|exact M2|]. intros u. cbn beta. lia.
Qed.
Lemma ex_hot_zap_moved c e s t x r l infos skip c' :
  ex_wf (e_now e) c -> e_now e < 2 ^ 64 -> ex_hot_zap c e s t x r l infos skip = Some c' ->
  moved (e_now e) c c' nothing (fun u => only t u x).
Proof.
  intros Hwf HW H.
  apply ex_hot_zap_inv in H as (acc & ts & c1 & outs & m & c2 & m' & acc' & _ & _ & Ha & _ & _ & _ & Hd & Hm & Hz & _ & Hl & _ & ->).
  apply ex_direct_moved in Hd as [Hsf M1]; auto. apply ex_zap_loop_moved in Hz as [Hf2 M2]; [|apply M1|done].
  pose proof (ex_wf_account _ _ _ _ Hwf Ha) as Hdj.
  apply ac_deposit_list_spec in Hl as [Hf3 Hh3]; [|exact Hdj].
  assert (Ha2 : ex_account c2 s = Some acc).
  { unfold ex_account in *. destruct Hf2 as (_ & _ & -> & _). destruct Hsf as (_ & _ & -> & _). done. }
  assert (M3 : moved (e_now e) c2 (ex_put c2 s acc') nothing (fun u => default 0 (m' !! u))).
  { apply moved_put; [apply M2|apply Hf3|]. intros u. rewrite (held_by_account _ _ _ u Ha2), Hh3, (amount_in_msum u m') by done.
    unfold nothing. change (ac_held (ac_set_near acc (ac_near acc - e_grow e)) u) with (ac_held acc u). lia. }
  mtrans; [exact M1|eapply moved_trans; [exact M2|exact M3]|].
  intros u. cbn beta. apply (tc_add_all_spec _ u) in Hm. rewrite lookup_empty in Hm. dfl. unfold nothing. lia.
Qed.
Lemma promised_outs c echo s rc su outs u :
  promised_all u ((fun x : AccountId * N => if echo : bool then PSendMsg x.1 s x.2 else ex_send c rc x.1 x.2 su) <$> outs) = amount_in_list u outs.
Proof.
  unfold promised_all. induction outs as [|[t x] l IH]; [done|]. cbn [fmap list_fmap lsum amount_in_list fst snd].
  f_equal; [|exact IH]. destruct echo; [done|apply ex_send_promised].
Qed.
Lemma ex_ft_on_transfer_moved c e s x m c' ps :
  ex_wf (e_now e) c -> e_now e < 2 ^ 64 -> ex_ft_on_transfer c e s x m = Some (c', ps) ->
  moved (e_now e) c c' (fun t => promised_all t ps) (fun u => only (e_caller e) u x).
Proof.
  intros Hwf HW H. unfold ex_ft_on_transfer in H. cbv zeta in H. grd H. grd H. destruct m as [|r l echo su rc skip|r l infos skip].
  - grd H. bnd H c1 H1. injection H as <- <-. exact (ex_deposit_moved _ _ _ _ _ _ Hwf H1).
  - grd H. grd H. bnd H u Hu. bnd H d Hd. destruct d as [c1 outs]. grd H. injection H as <- <-.
    apply ex_direct_moved in Hd as [_ M]; auto. eapply moved_weaken; [exact M|]. intros q. rewrite promised_outs. lia.
  - bnd H c1 H1. injection H as <- <-. exact (ex_hot_zap_moved _ _ _ _ _ _ _ _ _ _ Hwf HW H1).
Qed.

(** ** Pools *)
Lemma moved_pool_quiet now rs c pid p p' :
  ex_wf now c -> now < 2 ^ 64 -> ex_pool c pid = Some p -> pl_step rs now p p' ->
  (forall t, pl_reserve p' t = pl_reserve p t) -> moved now c (ex_put_pool c pid p') nothing nothing.
Proof. intros Hwf HW Hp Hst Hr. eapply moved_pool; eauto. intros t. rewrite Hr. lia. Qed.
Lemma beside_zeros t ts n : beside t ts (repeat 0 n) = 0.
Proof.
  revert ts. induction n as [|n IH]; intros [|u ts]; cbn [repeat]; try done.
  rewrite beside_cons. destruct (String.eqb u t); [done|apply IH].
Qed.
Lemma moved_new_pool now c e p c' ps :
  ex_wf now c -> now < 2 ^ 64 -> pl_reachable now p -> (forall t, pl_reserve p t = 0) ->
  ex_add_pool c e p = Some (c', ps) -> moved now c c' (fun t => promised_all t ps) nothing.
Proof.
  intros [W1 W2] HW Hp Hr H. apply ex_add_pool_inv in H as (p' & v & Hreg & -> & _ & Hps).
  apply (pl_register_spec p (ex_rates c) now) in Hreg as (Hst & Hr' & _).
  split_and!; auto.
  - split; [|done]. ex_cbn. apply Forall_app. split; [done|]. apply Forall_singleton. eapply pl_step_reachable; eauto; lia.
  - intros i q Hq. exists q. ex_cbn. split; [now apply lookup_app_l_Some|apply pl_same_refl].
  - intros t. rewrite (check_storage_promised _ _ t Hps). unfold owed, nothing, total_deposits, total_reserves, total_lost. ex_cbn.
    rewrite fmap_app, lsum_app. cbn [fmap list_fmap lsum]. rewrite Hr', Hr. lia.
Qed.
Lemma st_zero_reserve q t : st_kept q t = 0 -> st_reserve q t = 0.
Proof. intros H. unfold st_reserve. rewrite H. unfold in_token_units. destruct (_ <=? _); [|lia]. rewrite N.div_0_l; [done|]. apply N.pow_nonzero. lia. Qed.
Lemma ex_add_simple_pool_moved c e ts fee c' ps :
  ex_wf (e_now e) c -> e_now e < 2 ^ 64 -> ex_add_simple_pool c e ts fee = Some (c', ps) ->
  moved (e_now e) c c' (fun t => promised_all t ps) nothing.
Proof.
  intros Hwf HW H. apply ex_add_simple_pool_inv in H as (p & _ & Hnd & Hp & H).
  eapply moved_new_pool; eauto.
  - cbn [pl_reachable]. econstructor; eauto.
  - intros t. cbn [pl_reserve]. unfold sp_new in Hp. grd Hp. grd Hp. injection Hp as <-. apply (beside_zeros t ts 2).
Qed.
Lemma ex_add_stable_pool_moved c e k ts ds fee amp c' ps :
  ex_wf (e_now e) c -> e_now e < 2 ^ 64 -> ex_add_stable_pool c e k ts ds fee amp = Some (c', ps) ->
  moved (e_now e) c c' (fun t => promised_all t ps) nothing.
Proof.
  intros Hwf HW H. apply ex_add_stable_pool_inv in H as (p & _ & Hl & Hnd & Hp & H).
  eapply moved_new_pool; eauto.
  - cbn [pl_reachable]. exists (e_now e). split; [lia|]. econstructor; eauto.
  - intros t. cbn [pl_reserve]. apply st_new_inv in Hp as (-> & _). apply st_zero_reserve. apply beside_zeros.
Qed.

(** ** Shares and shadows *)
Lemma ex_mft_transfer_moved c id now s r am c' x :
  ex_wf now c -> now < 2 ^ 64 -> ex_mft_transfer c id s r am = Some (c', x) -> moved now c c' nothing nothing.
Proof.
  intros Hwf HW H. apply ex_mft_transfer_inv in H as (Hne & _ & H). destruct (mft_pool_of id) as [pid|].
  - destruct H as (p & p' & Hp & _ & _ & Ht & ->). apply (pl_transfer_spec p (ex_rates c) now) in Ht as (Hst & _ & Hr & _); [|done].
    eapply moved_pool_quiet; eauto.
  - destruct H as (sa & sa' & ra & ra' & Hs & Hr & Hw & Hd & _ & _ & ->).
    apply ac_withdraw_spec in Hw as (Hf1 & Hh1 & _); [|eapply ex_wf_account; eauto].
    apply ac_deposit_spec in Hd as (Hf2 & Hh2 & _); [|eapply ex_wf_account; eauto].
    assert (M1 : moved now c (ex_put c s sa') (fun t => only id t x) nothing).
    { apply moved_put; [done|apply Hf1|]. intros t. rewrite (held_by_account _ _ _ t Hs), <- (Hh1 t). unfold nothing. lia. }
    mtrans; [exact M1|apply (moved_put _ _ _ _ nothing (fun t => only id t x)); [apply M1|apply Hf2|]|].
    + intros t. rewrite held_by_put. apply String.eqb_neq in Hne. rewrite Hne, (held_by_account _ _ _ t Hr), Hh2. unfold nothing. lia.
    + intros t. unfold nothing. lia.
Qed.
Lemma ex_mft_resolve_moved c id now s r x ret c' :
  ex_wf now c -> now < 2 ^ 64 -> ex_mft_resolve c id s r x ret = Some c' -> moved now c c' nothing nothing.
Proof.
  intros Hwf HW H. apply ex_mft_resolve_inv in H as [[-> _]|(bal & _ & _ & _ & H)]; [now apply moved_refl|].
  eapply ex_mft_transfer_moved; eauto.
Qed.
Lemma ex_donate_share_moved c e pid am u c' ps :
  ex_wf (e_now e) c -> e_now e < 2 ^ 64 -> e_caller e <> ex_self c -> ex_donate_share c e pid am u = Some (c', ps) ->
  moved (e_now e) c c' (fun t => promised_all t ps) nothing.
Proof.
  intros Hwf HW Hne H. apply ex_donate_share_inv in H as (p & x & p1 & p2 & _ & _ & Hp & _ & _ & Ht & Hu & H).
  apply (pl_transfer_spec p (ex_rates c) (e_now e)) in Ht as (Hst & _ & Hr & _); [|done].
  assert (M1 : moved (e_now e) c (ex_put_pool c pid p2) nothing nothing).
  { pose proof (moved_pool_quiet _ _ _ _ _ _ Hwf HW Hp Hst Hr) as M. destruct u; [|injection Hu as <-; done].
    apply (pl_unregister_spec p1 (ex_rates c) (e_now e)) in Hu as (Hst2 & _ & Hr2 & _).
    replace (ex_put_pool c pid p2) with (ex_put_pool (ex_put_pool c pid p1) pid p2)
      by (unfold ex_put_pool; ex_cbn; now rewrite list_insert_insert).
    assert (Hp1 : ex_pool (ex_put_pool c pid p1) pid = Some p1) by (rewrite ex_pool_put by eauto; now rewrite N.eqb_refl).
    mtrans; [exact M|exact (moved_pool_quiet _ _ _ _ _ _ (moved_wf _ _ _ _ _ M) HW Hp1 Hst2 Hr2)|].
    intros t. unfold nothing. lia. }
  destruct H as [(-> & Hps)|(acc & -> & Ha & _ & ->)].
  - eapply moved_weaken; [exact M1|]. intros t. destruct Hps as [->| ->]; unfold nothing, promised_all; cbn; lia.
  - mtrans; [exact M1|eapply moved_put_same with (acc := acc); [apply M1|done|exact (ex_wf_account _ _ _ _ Hwf Ha)|done]|].
    intros t. unfold nothing, promised_all. cbn. lia.
Qed.
Lemma ex_donate_token_moved c e t am u c' :
  ex_wf (e_now e) c -> ex_donate_token c e t am u = Some c' -> moved (e_now e) c c' nothing nothing.
Proof.
  intros Hwf H. apply ex_donate_token_inv in H as (acc & bal & x & acc1 & acc2 & oa & oa' & _ & _ & Ha & _ & _ & _ & Hw & Hu & _ & Ho & Hd & ->).
  apply ac_withdraw_spec in Hw as (Hf & Hh & _); [|eapply ex_wf_account; eauto].
  assert (ac_disjoint acc2 /\ forall t, ac_held acc2 t = ac_held acc1 t) as [Hd2 Hh2].
  { destruct u; [|injection Hu as <-; split; [apply Hf|done]]. apply ac_unregister_spec in Hu as (Hf2 & _ & Hh2 & _); [|apply Hf].
    split; [apply Hf2|done]. }
  assert (M1 : moved (e_now e) c (ex_put c (e_caller e) acc2) (fun q => only t q x) nothing).
  { apply moved_put; [done|done|]. intros q. rewrite (held_by_account _ _ _ q Ha), Hh2, <- (Hh q). unfold nothing. lia. }
  apply ac_deposit_spec in Hd as (Hf3 & Hh3 & _); [|eapply ex_wf_account; [apply M1|exact Ho]].
  mtrans; [exact M1|apply (moved_put _ _ _ _ nothing (fun q => only t q x)); [apply M1|apply Hf3|]|].
  - intros q. rewrite (held_by_account _ _ _ q Ho), Hh3. unfold nothing. lia.
  - intros q. unfold nothing. lia.
Qed.
Lemma shadow_held acc acc' : acc' = ac_set_shadow acc (ac_shadow acc') ->
  (ac_disjoint acc -> ac_disjoint acc') /\ forall t, ac_held acc' t = ac_held acc t.
Proof. intros ->. split; [done|]. intros t. done. Qed.
Lemma update_shadow_held acc pid act x acc' : ac_update_shadow acc pid act x = Some acc' ->
  (ac_disjoint acc -> ac_disjoint acc') /\ forall t, ac_held acc' t = ac_held acc t.
Proof. intros H. apply ac_update_shadow_spec in H as (r & _ & _ & _ & H). now apply shadow_held. Qed.
Lemma ex_shadow_action_moved c e act pid am c' ps :
  ex_wf (e_now e) c -> ex_shadow_action c e act pid am = Some (c', ps) ->
  moved (e_now e) c c' (fun t => promised_all t ps) nothing.
Proof.
  intros Hwf H. apply ex_shadow_action_inv in H as (acc & p & mx & x & _ & Ha & _ & _ & _ & _ & _ & [(_ & acc' & qs & Hu & _ & Hq & -> & ->)|(_ & -> & ->)]).
  - apply update_shadow_held in Hu as [Hd Hh]. eapply moved_weaken; [eapply moved_put_same; eauto|].
    + apply Hd. eapply ex_wf_account; eauto.
    + intros t. unfold nothing, promised_all. rewrite fmap_app, lsum_app.
      pose proof (check_storage_promised _ _ t Hq) as E. unfold promised_all in E. rewrite E. cbn. lia.
  - now apply moved_refl.
Qed.
Lemma ex_callback_shadow_moved c e act s pid x fee ok c' ps :
  ex_wf (e_now e) c -> ex_callback_shadow c e act s pid x fee ok = Some (c', ps) ->
  moved (e_now e) c c' (fun t => promised_all t ps) nothing.
Proof.
  intros Hwf H. apply ex_callback_shadow_inv in H as [(_ & _ & -> & ->)|[(_ & _ & -> & acc & acc1 & Ha & Hu & _ & ->)|(_ & acc & acc1 & Ha & Hu & _ & -> & ->)]].
  - now apply moved_refl.
  - apply update_shadow_held in Hu as [Hd Hh]. eapply (moved_put_same _ _ _ acc); eauto. apply Hd. eapply ex_wf_account; eauto.
  - assert (Hh : (ac_disjoint acc -> ac_disjoint acc1) /\ forall t, ac_held acc1 t = ac_held acc t).
    { destruct act; try (injection Hu as <-; done); now apply update_shadow_held in Hu. }
    eapply moved_weaken; [eapply (moved_put_same _ _ _ acc); eauto; apply Hh; [eapply ex_wf_account; eauto]|].
    intros t. unfold nothing, promised_all. destruct (_ && _); cbn; lia.
Qed.
Lemma ex_burrow_liquidation_moved c e liq vic sid x mins c' ps :
  ex_wf (e_now e) c -> e_now e < 2 ^ 64 -> ex_burrow_liquidation c e liq vic sid x mins = Some (c', ps) ->
  moved (e_now e) c c' (fun t => promised_all t ps) nothing.
Proof.
  intros Hwf HW H. apply ex_burrow_liquidation_inv in H as
    (pid & p & va & va1 & va2 & la & p' & out & la' & seed & avail & _ & _ & _ & Hp & _ & Hv & Hu1 & _ & _ & Hu2 & _ & Hl & Hrm & Hd & _ & -> & ->).
  pose proof (ex_wf_account _ _ _ _ Hwf Hv) as Hdj. apply update_shadow_held in Hu1 as [Hd1 Hh1].
  assert ((ac_disjoint va1 -> ac_disjoint va2) /\ forall t, ac_held va2 t = ac_held va1 t) as [Hd2 Hh2].
  { destruct (0 <? seed); [now apply update_shadow_held in Hu2|injection Hu2 as <-; done]. }
  set (c1 := ex_put c vic (ac_set_near va2 (ac_near va2 + e_freed e))) in *.
  assert (M1 : moved (e_now e) c c1 nothing nothing).
  { apply (moved_put_same _ _ _ va); [done|done|exact (Hd2 (Hd1 Hdj))|]. intros t. rewrite <- Hh1, <- Hh2. done. }
  pose proof (pl_reachable_wf _ _ (ex_wf_pool _ _ _ _ Hwf Hp)) as Hpw.
  apply (pl_remove_spec p (ex_rates c) (e_now e)) in Hrm as (Hst & _ & Hr & _); [|done].
  assert (Hr' : forall t, pl_reserve p' t + beside t (pl_tokens p) out <= pl_reserve p t + nothing t) by (intros t; specialize (Hr t); lia).
  mtrans; [exact M1|eapply (pool_to_account _ (ex_rates c) c1); eauto; apply M1|].
  intros t. unfold nothing, promised_all. destruct (0 <? seed); cbn; lia.
Qed.

(** ** Storage *)
Lemma ex_register_account_moved now c a x c' :
  ex_wf now c -> ex_register_account c a x = Some c' -> moved now c c' nothing nothing.
Proof.
  intros Hwf H. apply ex_register_account_inv in H as [_ ->]. apply moved_put; [done|exact (ex_wf_account_or_new _ _ a Hwf)|].
  intros t. change (ac_held (ac_set_near (ex_account_or_new c a) (ac_near (ex_account_or_new c a) + x)) t) with (ac_held (ex_account_or_new c a) t).
  unfold held_by, ex_account_or_new. destruct (ex_account c a); cbn [default from_option]; [unfold Datatypes.id|rewrite ac_new_held]; lia.
Qed.
Lemma ex_storage_deposit_moved c e a ro c' ps :
  ex_wf (e_now e) c -> ex_storage_deposit c e a ro = Some (c', ps) -> moved (e_now e) c c' (fun t => promised_all t ps) nothing.
Proof.
  intros Hwf H. apply ex_storage_deposit_inv in H as (_ & _ & [(_ & _ & -> & ->)|[(_ & _ & H & _ & ->)|(_ & H & ->)]]).
  - eapply moved_weaken; [now apply moved_refl|]. intros t. rewrite refund_promised. unfold nothing. lia.
  - eapply moved_weaken; [eapply ex_register_account_moved; eauto|]. intros t. rewrite refund_promised. unfold nothing. lia.
  - eapply moved_weaken; [eapply ex_register_account_moved; eauto|]. intros t. unfold nothing, promised_all. cbn. lia.
Qed.
Lemma ex_withdraw_owner_moved c e t x s c' ps :
  ex_wf (e_now e) c -> ex_withdraw_owner c e t x s = Some (c', ps) -> moved (e_now e) c c' (fun t => promised_all t ps) nothing.
Proof.
  intros Hwf H. apply ex_withdraw_owner_inv in H as (acc & acc' & _ & _ & _ & Ha & Hw & -> & ->).
  apply ac_withdraw_spec in Hw as (Hf & Hh & _); [|eapply ex_wf_account; eauto].
  apply moved_put; [done|apply Hf|]. intros q. rewrite promised_one, ex_send_promised, (held_by_account _ _ _ q Ha), <- (Hh q). lia.
Qed.

(** ** Every call *)
Lemma quiet_inv x c' ps : quiet x = Some (c', ps) -> x = Some c' /\ ps = [].
Proof. unfold quiet. intros H. bnd H c Hc. injection H as <- <-. done. Qed.
Lemma quiet2_inv {A} (x : option (Exchange * A)) c' ps : quiet2 x = Some (c', ps) -> exists a, x = Some (c', a) /\ ps = [].
Proof. unfold quiet2. intros H. bnd H q Hq. destruct q as [c a]. injection H as <- <-. eauto. Qed.
Lemma keep2_inv {A} (x : option (Exchange * list Promise * A)) c' ps : keep2 x = Some (c', ps) -> exists a, x = Some (c', ps, a).
Proof. unfold keep2. intros H. bnd H q Hq. destruct q as [[c qs] a]. injection H as <- <-. eauto. Qed.

(** Calls that only change settings, rates and averages. *)
Definition settings_only (c c' : Exchange) : Prop :=
  ex_self c' = ex_self c /\ ex_pools c' = ex_pools c /\ ex_accounts c' = ex_accounts c /\ ex_lost c' = ex_lost c /\ ex_volumes c' = ex_volumes c.
Lemma settings_moved now c c' : ex_wf now c -> settings_only c c' -> moved now c c' nothing nothing.
Proof. intros Hwf (A & B & C & D & _). now apply moved_same. Qed.
Definition is_settings (x : Call) : bool :=
  match x with
  | CRegisterTwap _ | CUnregisterTwap _ | CModifyInterval _ | CSyncTwap _ | CSetOwner _ | CRetrieve _ _
  | CExtendGuardians _ | CRemoveGuardians _ | CExtendPostfix _ | CRemovePostfix _ | CModifyFarm _ | CModifyBurrow _ | CModifyWnear _
  | CChangeState _ | CExtendWhitelist _ | CRemoveWhitelist _ | CExtendFrozen _ | CRemoveFrozen _
  | CInsertReferral _ _ | CUpdateReferral _ _ | CRemoveReferral _ | CModifyAdminFee _ | CRateAdmin _
  | CAddLimit _ _ | CUpdateLimit _ _ | CRemoveLimit _ | CExtendEcho _ _ | CRemoveEcho _ _ => true
  | _ => false
  end.
Ltac settings_tac H :=
  repeat match type of H with
  | mbind _ _ = Some _ => let y := fresh "y" in let Hy := fresh "Hy" in apply bind_Some in H as (y & Hy & H)
  | (if ?b then _ else _) = Some _ => destruct b
  end;
  first [injection H as <-|injection H as <- <-|discriminate H]; unfold settings_only; ex_cbn; split_and!; reflexivity.
Lemma settings_call c e x c' ps : is_settings x = true -> ex_call c e x = Some (c', ps) -> settings_only c c' /\ forall t, promised_all t ps = 0.
Proof.
  intros Hs H. destruct x; try discriminate Hs; clear Hs; cbn [ex_call] in H;
    try (apply quiet_inv in H as [H ->]; split; [|done]).
  all: try (unfold ex_register_twap, ex_unregister_twap, ex_modify_interval, ex_sync_twap, ex_set_owner,
       ex_extend_guardians, ex_remove_guardians, ex_extend_postfix, ex_remove_postfix, ex_modify_farm, ex_modify_burrow, ex_modify_wnear,
       ex_change_state, ex_extend_whitelist, ex_remove_whitelist, ex_extend_frozen, ex_remove_frozen, ex_put_referral, ex_remove_referral,
       ex_modify_admin_fee, ex_rate_admin, ex_add_limit, ex_update_limit, ex_remove_limit, ex_extend_echo, ex_remove_echo in H; settings_tac H).
  apply ex_retrieve_inv in H as (_ & _ & -> & ->). split; [|done]. unfold settings_only. split_and!; reflexivity.
Qed.

Lemma ex_call_moved c e x c' ps :
  ex_wf (e_now e) c -> e_now e < 2 ^ 64 -> e_caller e <> ex_self c -> ex_call c e x = Some (c', ps) ->
  moved (e_now e) c c' (fun t => promised_all t ps) (call_rounding c x).
Proof.
  intros Hwf HW Hne H. destruct (is_settings x) eqn:Es.
  { apply settings_call in H as [Hs Hp]; [|done]. eapply moved_weaken; [now apply settings_moved|]. intros t. rewrite Hp. unfold nothing. lia. }
  destruct x; try discriminate Es; clear Es; cbn [ex_call] in H;
    try (apply quiet_inv in H as [H ->]); try (apply quiet2_inv in H as (res & H & ->)); try (apply keep2_inv in H as (res & H)).
  - eapply ex_add_simple_pool_moved; eassumption.
  - eapply ex_add_stable_pool_moved; eassumption.
  - eapply ex_execute_actions_moved; eassumption.
  - eapply ex_execute_in_va_moved; eassumption.
  - apply ex_swap_inv in H as [_ H]. eapply ex_execute_actions_moved; eassumption.
  - apply ex_swap_by_output_inv in H as [_ H]. eapply ex_execute_actions_moved; eassumption.
  - pose proof H as Hi. apply ex_add_liquidity_inv in Hi as (? & ? & ? & ? & ? & ? & _ & _ & _ & _ & _ & _ & _ & _ & _ & Hps & _).
    eapply moved_weaken; [eapply ex_add_liquidity_moved; eassumption|]. intros t. rewrite (check_storage_promised _ _ t Hps). unfold nothing. lia.
  - pose proof H as Hi. apply ex_add_stable_liquidity_inv in Hi as (? & ? & ? & ? & ? & _ & _ & _ & _ & _ & _ & _ & _ & _ & Hps & _).
    eapply moved_weaken; [eapply ex_add_stable_liquidity_moved; eassumption|]. intros t. rewrite (check_storage_promised _ _ t Hps). unfold nothing. lia.
  - eapply ex_remove_liquidity_moved; eassumption.
  - eapply ex_remove_by_tokens_moved; eassumption.
  - apply ex_register_tokens_inv in H as (acc & _ & _ & Ha & _ & ->).
    destruct (ac_register_spec acc ts) as [Hf Hh]; [eapply ex_wf_account; eauto|]. eapply moved_put_same; eauto. apply Hf.
  - apply ex_unregister_tokens_inv in H as (acc & acc' & _ & _ & Ha & Hu & _ & ->).
    apply ac_unregister_all_spec in Hu as [Hf Hh]; [|eapply ex_wf_account; eauto]. eapply moved_put_same; eauto. apply Hf.
  - eapply ex_withdraw_moved; eassumption.
  - eapply ex_claim_moved; eassumption.
  - apply ex_mft_register_inv in H as (pid & p & p' & _ & _ & Hp & Hreg & Hps & ->).
    apply (pl_register_spec p (ex_rates c) (e_now e)) in Hreg as (Hst & Hr & _).
    eapply moved_weaken; [eapply moved_pool_quiet; eauto|]. intros t. rewrite (check_storage_promised _ _ t Hps). unfold nothing. lia.
  - apply ex_mft_unregister_inv in H as (pid & p & p' & _ & _ & _ & Hp & Hreg & -> & ->).
    apply (pl_unregister_spec p (ex_rates c) (e_now e)) in Hreg as (Hst & _ & Hr & _).
    eapply moved_weaken; [eapply moved_pool_quiet; eauto|]. intros t. pose proof (refund_promised t (e_caller e) (e_freed e)) as E.
    unfold refund_to in E. rewrite E. unfold nothing. lia.
  - apply ex_mft_transfer_free_inv in H as (_ & _ & H). eapply ex_mft_transfer_moved; eassumption.
  - apply ex_mft_transfer_call_inv in H as (x & _ & _ & H & ->). eapply ex_mft_transfer_moved; eassumption.
  - eapply ex_donate_share_moved; eassumption.
  - eapply ex_donate_token_moved; eassumption.
  - eapply ex_shadow_action_moved; eassumption.
  - eapply ex_burrow_liquidation_moved; eassumption.
  - eapply ex_storage_deposit_moved; eassumption.
  - apply ex_storage_withdraw_inv in H as (acc & y & _ & _ & Ha & _ & _ & _ & _ & _ & -> & ->).
    eapply (moved_put_same _ _ _ acc); auto. exact (ex_wf_account _ _ _ _ Hwf Ha).
  - apply ex_storage_unregister_inv in H as (_ & _ & [(_ & -> & ->)|(acc & Ha & Ht & Hl & _ & -> & ->)]); [now apply moved_refl|].
    eapply moved_weaken; [eapply moved_delete; eauto|]. intros t. unfold nothing, promised_all. cbn. lia.
  - unfold ex_modify_total_fee in H. grd H. grd H. bnd H p Hp. injection H as <-. apply N.ltb_lt in G0.
    destruct (pl_fee_spec p (ex_rates c) (e_now e) fee G0) as (Hst & Hr & _). eapply moved_pool_quiet; eauto.
  - eapply ex_remove_fee_liquidity_moved; eassumption.
  - eapply ex_withdraw_owner_moved; eassumption.
  - unfold ex_ramp in H. grd H. bnd H p Hp. bnd H p' Hp'. injection H as <-.
    apply pl_ramp_spec in Hp' as (Hst & Hr & _). eapply moved_pool_quiet; eauto.
  - unfold ex_stop_ramp in H. grd H. bnd H p Hp. bnd H p' Hp'. injection H as <-.
    apply pl_stop_ramp_spec in Hp' as (Hst & Hr & _). eapply moved_pool_quiet; eauto.
Qed.
