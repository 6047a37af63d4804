(** * The exchange: inversion of every method into an explicit final state *)
From Verif Require Import Base BaseLemmas SimplePool SimplePoolProofs SpecSimple SimplePoolInv StableMath StablePool
  SpecStable StablePoolProofs StablePoolInv Rates Echo Twap Account Pool Exchange SpecExchange AccountProofs PoolFacts ExchangeProofs.

Ltac bnd H x Hx := apply bind_Some in H as (x & Hx & H).
Ltac grd H := let u := fresh "u" in let G := fresh "G" in apply bind_Some in H as (u & G & H); destruct u; try match type of G with ensure _ = Some _ => apply ensure_Some in G end.

Lemma ex_save_inv c a acc c' : ex_save c a acc = Some c' -> ac_covered acc /\ c' = ex_put c a acc.
Proof. unfold ex_save. intros H. grd H. apply N.leb_le in G. injection H as <-. done. Qed.
Lemma running_inv c : running c = Some tt -> cf_running (ex_cfg c) = true.
Proof. unfold running. intros H. now apply ensure_Some in H. Qed.
Lemma one_yocto_inv e : one_yocto e = Some tt -> e_attached e = 1.
Proof. unfold one_yocto. intros H. now apply ensure_Some, N.eqb_eq in H. Qed.
Definition none_frozen (c : Exchange) (ts : list AccountId) : Prop := forall t, t ∈ ts -> t ∉ cf_frozen (ex_cfg c).
Lemma no_frozen_inv c ts : no_frozen c ts = Some tt <-> none_frozen c ts.
Proof.
  unfold no_frozen, none_frozen. split; intros H.
  - intros t Ht. apply ensure_Some in H. rewrite forallb_forall in H. apply elem_of_list_In in Ht. specialize (H t Ht).
    apply negb_true_iff, bool_decide_eq_false in H. done.
  - unfold ensure. replace (forallb _ ts) with true; [done|]. symmetry. apply forallb_forall. intros t Ht.
    apply elem_of_list_In in Ht. apply negb_true_iff, bool_decide_eq_false. auto.
Qed.
Lemma guard_call_inv c e : guard_call c e = Some tt -> e_attached e = 1 /\ is_guard c e = true.
Proof. unfold guard_call. intros H. grd H. apply one_yocto_inv in G. apply ensure_Some in H. done. Qed.
Lemma owner_call_inv c e : owner_call c e = Some tt -> e_attached e = 1 /\ e_caller e = cf_owner (ex_cfg c).
Proof.
  unfold owner_call, is_owner. intros H. grd H. apply one_yocto_inv in G. apply ensure_Some, String.eqb_eq in H. done.
Qed.

(** ** Creating pools *)
Lemma ex_add_pool_inv c e p c' ps :
  ex_add_pool c e p = Some (c', ps) ->
  exists p' v, pl_share_register p (ex_self c) = Some p' /\
    c' = ex_set_volumes (ex_set_pools c (ex_pools c ++ [p'])) (<[N.of_nat (length (ex_pools c)) mod W32 := v]> (ex_volumes c)) /\
    v = repeat (0, 0) (length (pl_tokens p')) /\
    check_storage e = Some ps.
Proof.
  unfold ex_add_pool. intros H. bnd H p' Hp'. bnd H ps' Hps. injection H as <- <-. eauto 10.
Qed.
Lemma check_storage_promised e ps t : check_storage e = Some ps -> promised_all t ps = 0.
Proof. unfold check_storage. intros H. bnd H r Hr. injection H as <-. now destruct (0 <? r). Qed.
Lemma ex_add_simple_pool_inv c e ts fee c' ps :
  ex_add_simple_pool c e ts fee = Some (c', ps) ->
  exists p, running c = Some tt /\ NoDup ts /\ sp_new ts fee = Some p /\ ex_add_pool c e (PSimple p) = Some (c', ps).
Proof.
  unfold ex_add_simple_pool, no_duplicates. intros H. grd H. grd H. apply bool_decide_eq_true in G0. bnd H p Hp. eauto.
Qed.
Lemma ex_add_stable_pool_inv c e k ts ds fee amp c' ps :
  ex_add_stable_pool c e k ts ds fee amp = Some (c', ps) ->
  exists p, is_guard c e = true /\ length ts = length ds /\ NoDup ts /\ st_new k ts ds amp fee = Some p /\
    ex_add_pool c e (PStable p) = Some (c', ps).
Proof.
  unfold ex_add_stable_pool, no_duplicates. intros H. grd H. grd H. grd H. apply bool_decide_eq_true in G1.
  apply Nat.eqb_eq in G0. bnd H p Hp. eauto 10.
Qed.

(** ** Actions *)
Lemma ex_execute_actions_inv c e l r skip c' res :
  ex_execute_actions c e l r skip = Some (c', res) ->
  exists acc c1 acc', running c = Some tt /\ l <> [] /\ ex_account c (e_caller e) = Some acc /\
    (e_attached e = 0 -> known_tokens c acc (act_tokens l) = Some tt) /\
    ex_execute c e acc (ex_referral c r) l None skip = Some (c1, acc', res) /\
    ac_covered acc' /\ c' = ex_put c1 (e_caller e) acc'.
Proof.
  unfold ex_execute_actions. intros H. grd H. grd H. bnd H acc Hacc. bnd H u Hu. bnd H s Hs. destruct s as [[c1 acc'] x].
  bnd H c2 Hc2. injection H as <- <-. apply ex_save_inv in Hc2 as [Hcov ->].
  exists acc, c1, acc'. split_and!; auto.
  - intros ->. done.
  - intros Ha. rewrite Ha in Hu. cbn [N.eqb] in Hu. now destruct u.
Qed.
Lemma ex_swap_inv c e l r skip c' x :
  ex_swap c e l r skip = Some (c', x) -> forallb is_swap l = true /\ ex_execute_actions c e l r skip = Some (c', Some x).
Proof. unfold ex_swap. intros H. grd H. bnd H s Hs. destruct s as [c1 res]. bnd H y Hy. injection H as <- <-. now subst. Qed.
Lemma ex_swap_by_output_inv c e l r skip c' x :
  ex_swap_by_output c e l r skip = Some (c', x) ->
  forallb (fun a => negb (is_swap a)) l = true /\ ex_execute_actions c e l r skip = Some (c', Some x).
Proof. unfold ex_swap_by_output. intros H. grd H. bnd H s Hs. destruct s as [c1 res]. bnd H y Hy. injection H as <- <-. now subst. Qed.
Lemma ex_execute_in_va_inv c e use l r skip c' outs :
  ex_execute_in_va c e use l r skip = Some (c', outs) ->
  exists acc acc1 va c1 va' res acc2, running c = Some tt /\ l <> [] /\ ex_account c (e_caller e) = Some acc /\
    va_take acc ac_new (map_to_list use) = Some (acc1, va) /\
    ex_execute c e va (ex_referral c r) l None skip = Some (c1, va', res) /\
    outs = va_out va' /\ ac_deposit_list acc1 outs = Some acc2 /\
    ac_covered acc2 /\ c' = ex_put c1 (e_caller e) acc2.
Proof.
  unfold ex_execute_in_va. intros H. grd H. grd H. bnd H acc Hacc. bnd H u Hu. bnd H s Hs. destruct s as [acc1 va].
  bnd H s Hx. destruct s as [[c1 va'] res]. bnd H acc2 Hacc2. bnd H c2 Hc2. injection H as <- <-.
  apply ex_save_inv in Hc2 as [Hcov ->]. exists acc, acc1, va, c1, va', res, acc2. split_and!; auto. intros ->. done.
Qed.

(** ** Liquidity *)
Lemma ex_add_liquidity_inv c e pid am mins c' ps sh :
  ex_add_liquidity c e pid am mins = Some (c', ps, sh) ->
  exists tw p p' taken acc acc', running c = Some tt /\ 0 < e_attached e /\ ex_pool c pid = Some p /\
    none_frozen c (pl_tokens p) /\ pl_add_liquidity p (e_caller e) am false = Some (p', taken, sh) /\
    (forall ms, mins = Some ms -> mins_met taken ms = Some tt) /\
    ex_account c (e_caller e) = Some acc /\ ac_withdraw_all acc (pl_tokens p') taken = Some acc' /\
    ac_covered acc' /\ check_storage e = Some ps /\
    c' = ex_put_pool (ex_put (ex_set_twap c tw) (e_caller e) acc') pid p'.
Proof.
  unfold ex_add_liquidity. intros H. grd H. grd H. bnd H c1 Hc1. apply ex_update_twap_frame in Hc1 as (tw & ->).
  bnd H p Hp. grd H. bnd H s Hs. destruct s as [[p' taken] s']. bnd H u Hu. bnd H acc Hacc. bnd H acc' Hacc'.
  bnd H c2 Hc2. bnd H ps' Hps. injection H as <- <- <-. apply ex_save_inv in Hc2 as [Hcov ->].
  apply (no_frozen_inv c) in G1. apply N.ltb_lt in G0. exists tw, p, p', taken, acc, acc'. split_and!; auto.
  intros ms ->. now destruct u.
Qed.
Lemma ex_add_stable_liquidity_inv c e pid am mn c' ps sh :
  ex_add_stable_liquidity c e pid am mn = Some (c', ps, sh) ->
  exists tw p p' acc acc', running c = Some tt /\ 0 < e_attached e /\ ex_pool c pid = Some p /\
    none_frozen c (pl_tokens p) /\
    pl_add_stable_liquidity p (ex_rates c) (e_now e) (e_caller e) am mn (ex_fees c) false = Some (p', sh) /\
    pl_assert_tvl p' (ex_rates c) (e_now e) (cf_limits (ex_cfg c) !! pid) = Some tt /\
    ex_account c (e_caller e) = Some acc /\ ac_withdraw_all acc (pl_tokens p') am = Some acc' /\
    ac_covered acc' /\ check_storage e = Some ps /\
    c' = ex_put_pool (ex_put (ex_set_twap c tw) (e_caller e) acc') pid p'.
Proof.
  unfold ex_add_stable_liquidity. intros H. grd H. grd H. bnd H c1 Hc1. apply ex_update_twap_frame in Hc1 as (tw & ->).
  bnd H p Hp. grd H. bnd H s Hs. destruct s as [p' s']. bnd H u Hu. destruct u. bnd H acc Hacc. bnd H acc' Hacc'.
  bnd H c2 Hc2. bnd H ps' Hps. injection H as <- <- <-. apply ex_save_inv in Hc2 as [Hcov ->].
  apply (no_frozen_inv c) in G1. apply N.ltb_lt in G0. exists tw, p, p', acc, acc'. split_and!; auto.
Qed.
(** shares not locked by a shadow *)
Definition unlocked (acc : Account) (pid total x : N) : Prop :=
  forall r, ac_shadow acc !! pid = Some r -> N.max (sh_farm r) (sh_burrow r) <= total /\ x <= total - N.max (sh_farm r) (sh_burrow r).
Lemma ex_remove_liquidity_inv c e pid sh mins c' out :
  ex_remove_liquidity c e pid sh mins = Some (c', out) ->
  exists tw p p' acc acc', running c = Some tt /\ e_attached e = 1 /\ ex_pool c pid = Some p /\
    ex_account c (e_caller e) = Some acc /\ unlocked acc pid (pl_share_of p (e_caller e)) sh /\
    none_frozen c (pl_tokens p) /\ pl_remove_liquidity p (e_caller e) sh mins false = Some (p', out) /\
    ac_deposit_all acc (pl_tokens p') out = Some acc' /\ ac_covered acc' /\
    c' = ex_put (ex_put_pool (ex_set_twap c tw) pid p') (e_caller e) acc'.
Proof.
  unfold ex_remove_liquidity. intros H. grd H. apply one_yocto_inv in G. grd H. bnd H c1 Hc1. apply ex_update_twap_frame in Hc1 as (tw & ->).
  bnd H p Hp. bnd H acc Hacc. bnd H u Hu. grd H. bnd H s Hs. destruct s as [p' s']. bnd H acc' Hacc'.
  bnd H c2 Hc2. injection H as <- <-. apply ex_save_inv in Hc2 as [Hcov ->].
  apply (no_frozen_inv c) in G1. exists tw, p, p', acc, acc'. split_and!; auto.
  intros r Hr. rewrite Hr in Hu. unfold sh_free in Hu. bnd Hu z Hz. apply csub_Some in Hz as [-> Hz]. apply ensure_Some, N.leb_le in Hu.
  rewrite pl_share_balance_of in *. done.
Qed.
Lemma ex_remove_by_tokens_inv c e pid am mx c' burn :
  ex_remove_by_tokens c e pid am mx = Some (c', burn) ->
  exists tw p p' acc acc', running c = Some tt /\ e_attached e = 1 /\ ex_pool c pid = Some p /\
    ex_account c (e_caller e) = Some acc /\ unlocked acc pid (pl_share_of p (e_caller e)) burn /\
    none_frozen c (pl_tokens p) /\
    pl_remove_by_tokens p (ex_rates c) (e_now e) (e_caller e) am mx (ex_fees c) false = Some (p', burn) /\
    ac_deposit_all acc (pl_tokens p') am = Some acc' /\ ac_covered acc' /\
    c' = ex_put (ex_put_pool (ex_set_twap c tw) pid p') (e_caller e) acc'.
Proof.
  unfold ex_remove_by_tokens. intros H. grd H. apply one_yocto_inv in G. grd H. bnd H c1 Hc1. apply ex_update_twap_frame in Hc1 as (tw & ->).
  bnd H p Hp. bnd H acc Hacc. bnd H free Hfree. grd H. bnd H s Hs. destruct s as [p' s']. grd H. bnd H acc' Hacc'.
  bnd H c2 Hc2. injection H as <- <-. apply ex_save_inv in Hc2 as [Hcov ->].
  apply (no_frozen_inv c) in G1. apply N.leb_le in G2. exists tw, p, p', acc, acc'. split_and!; auto.
  intros r Hr. rewrite Hr in Hfree. unfold sh_free in Hfree. apply csub_Some in Hfree as [-> Hz].
  rewrite pl_share_balance_of in *. done.
Qed.

(** ** Deposits and withdrawals *)
Lemma ex_register_tokens_inv c e ts c' :
  ex_register_tokens c e ts = Some c' ->
  exists acc, e_attached e = 1 /\ running c = Some tt /\ ex_account c (e_caller e) = Some acc /\
    ac_covered (ac_register acc ts) /\ c' = ex_put c (e_caller e) (ac_register acc ts).
Proof.
  unfold ex_register_tokens. intros H. grd H. apply one_yocto_inv in G. grd H. bnd H acc Hacc. apply ex_save_inv in H as [? ->]. eauto 10.
Qed.
Lemma ex_unregister_tokens_inv c e ts c' :
  ex_unregister_tokens c e ts = Some c' ->
  exists acc acc', e_attached e = 1 /\ running c = Some tt /\ ex_account c (e_caller e) = Some acc /\
    ac_unregister_all acc ts = Some acc' /\ ac_covered acc' /\ c' = ex_put c (e_caller e) acc'.
Proof.
  unfold ex_unregister_tokens. intros H. grd H. apply one_yocto_inv in G. grd H. bnd H acc Hacc. bnd H acc' Hacc'.
  apply ex_save_inv in H as [? ->]. eauto 10.
Qed.
Lemma ex_send_promised c r t x s u : promised u (ex_send c r t x s) = only t u x.
Proof. unfold ex_send. now destruct (_ && _). Qed.
Lemma ex_withdraw_inv c e t am unreg s c' ps :
  ex_withdraw c e t am unreg s = Some (c', ps) ->
  exists acc x acc1 acc2, e_attached e = 1 /\ running c = Some tt /\ none_frozen c [t] /\
    ex_account c (e_caller e) = Some acc /\
    (if am =? 0 then ac_get_balance acc t = Some x else x = am) /\ 0 < x /\
    ac_withdraw acc t x = Some acc1 /\ (if unreg then ac_unregister acc1 t else Some acc1) = Some acc2 /\
    ac_covered acc2 /\ c' = ex_put c (e_caller e) acc2 /\ ps = [ex_send c (e_caller e) t x s].
Proof.
  unfold ex_withdraw. intros H. grd H. apply one_yocto_inv in G. grd H. grd H. apply no_frozen_inv in G1.
  bnd H acc Hacc. bnd H x Hx. grd H. apply N.ltb_lt in G2. bnd H acc1 H1. bnd H acc2 H2. bnd H c2 Hc2. injection H as <- <-.
  apply ex_save_inv in Hc2 as [? ->]. exists acc, x, acc1, acc2. split_and!; auto. destruct (am =? 0); [done|congruence].
Qed.
Lemma ex_deposit_inv c a t x c' :
  ex_deposit c a t x = Some c' ->
  exists acc acc', ex_account c a = Some acc /\
    (ex_whitelisted c t = true \/ is_Some (ac_get_balance acc t)) /\ ac_deposit acc t x = Some acc' /\
    ac_covered acc' /\ c' = ex_put c a acc'.
Proof.
  unfold ex_deposit. intros H. bnd H acc Hacc. grd H. bnd H acc' Hacc'. apply ex_save_inv in H as [? ->].
  exists acc, acc'. split_and!; auto. apply orb_true_iff in G as [?|G]; [auto|]. right. destruct (ac_get_balance acc t); [eauto|done].
Qed.
Lemma lost_insert_inv m a t x m' :
  lost_insert m a t x = Some m' -> m' = <[a := <[t := default 0 (default ∅ (m !! a) !! t) + x]> (default ∅ (m !! a))]> m.
Proof. unfold lost_insert. intros H. bnd H y Hy. apply cadd_Some in Hy as [-> _]. now injection H as <-. Qed.
(** The failure callback re-credits somewhere. *)
Inductive recredit (c : Exchange) (e : Env) (sender token : AccountId) (amount : N) : Exchange -> Prop :=
| recredit_user acc acc' :
    ex_account c sender = Some acc -> ac_deposit_with_storage_check acc token amount = Some (acc', true) ->
    recredit c e sender token amount (ex_put c sender acc')
| recredit_lost m :
    (forall acc, ex_account c sender = Some acc -> ac_deposit_with_storage_check acc token amount = Some (acc, false)) ->
    e_spare e = true -> lost_insert (ex_lost c) sender token amount = Some m ->
    recredit c e sender token amount (ex_set_lost c m)
| recredit_owner acc :
    (forall acc, ex_account c sender = Some acc -> ac_deposit_with_storage_check acc token amount = Some (acc, false)) ->
    e_spare e = false -> ac_deposit (ex_account_or_new c (cf_owner (ex_cfg c))) token amount = Some acc ->
    recredit c e sender token amount (ex_put c (cf_owner (ex_cfg c)) acc).
Lemma ex_handle_fail_inv c e s t x c' : ex_handle_fail c e s t x = Some c' -> recredit c e s t x c'.
Proof.
  unfold ex_handle_fail. intros H. bnd H r Hr. destruct r as [c1 ok].
  assert (Hno : ok = false -> c1 = c /\ forall acc, ex_account c s = Some acc -> ac_deposit_with_storage_check acc t x = Some (acc, false)).
  { intros ->. destruct (ex_account c s) as [acc|] eqn:Ea; [|injection Hr as <-; done].
    bnd Hr q Hq. destruct q as [acc' [|]]; [done|]. injection Hr as <-. split; [done|]. intros acc0 [= <-].
    unfold ac_deposit_with_storage_check in *. destruct (ac_tokens acc !! t); [bnd Hq z Hz; done|].
    destruct (ac_legacy acc !! t); [bnd Hq z Hz; done|]. destruct (_ <=? _); done. }
  destruct ok.
  - injection H as <-. destruct (ex_account c s) as [acc|] eqn:Ea; [|done].
    bnd Hr q Hq. destruct q as [acc' [|]]; [|done]. injection Hr as <-. econstructor; eauto.
  - destruct Hno as [-> Hno]; [done|]. destruct (e_spare e) eqn:Es.
    + bnd H m Hm. injection H as <-. now econstructor.
    + unfold ex_lostfound in H. bnd H acc Hacc. injection H as <-. now constructor 3.
Qed.
Lemma ex_claim_inv c e t c' ps :
  ex_claim_lostfound c e t = Some (c', ps) ->
  exists x, e_attached e = 1 /\ running c = Some tt /\ none_frozen c [t] /\ 0 < x /\ x = lost_of c (e_caller e) t /\
    c' = ex_set_lost c (lost_remove (ex_lost c) (e_caller e) t).1 /\ ps = [ex_send c (e_caller e) t x None].
Proof.
  unfold ex_claim_lostfound. intros H. grd H. apply one_yocto_inv in G. grd H. grd H. apply no_frozen_inv in G1.
  destruct (lost_remove (ex_lost c) (e_caller e) t) as [m x] eqn:E. grd H. apply N.ltb_lt in G2. injection H as <- <-.
  exists x. split_and!; auto. unfold lost_remove in E. injection E as _ <-. unfold lost_of.
  destruct (ex_lost c !! e_caller e); done.
Qed.

(** ** Incoming tokens *)
Lemma ex_direct_inv c e t x r l skip c' outs :
  ex_direct c e t x r l skip = Some (c', outs) ->
  exists va prev va' res, ac_deposit ac_new t x = Some va /\
    ex_execute c e va (ex_referral c r) l prev skip = Some (c', va', res) /\ outs = va_out va'.
Proof.
  unfold ex_direct. intros H. bnd H va Hva. bnd H a0 Ha0. bnd H s Hs. destruct s as [[c1 va'] res]. injection H as <- <-. eauto 10.
Qed.
Lemma ex_zap_one_inv c e s m i c' m' :
  ex_zap_one c e s m i = Some (c', m') ->
  exists p p' am sh, ex_pool c (ai_pool i) = Some p /\
    ((is_simple p /\ pl_add_liquidity p s (ai_amounts i) false = Some (p', am, sh) /\
      exists ms, ai_mins i = Some ms /\ mins_met am ms = Some tt) \/
     (~ is_simple p /\ am = ai_amounts i /\ exists mn, ai_min_shares i = Some mn /\
      pl_add_stable_liquidity p (ex_rates c) (e_now e) s (ai_amounts i) mn (ex_fees c) false = Some (p', sh))) /\
    pl_assert_tvl p' (ex_rates c) (e_now e) (cf_limits (ex_cfg c) !! ai_pool i) = Some tt /\
    tc_sub_all m (zip (pl_tokens p) am) = Some m' /\ c' = ex_put_pool c (ai_pool i) p'.
Proof.
  unfold ex_zap_one. intros H. bnd H p Hp. bnd H q Hq. destruct q as [p' am]. grd H. bnd H m2 Hm2. injection H as <- <-.
  destruct p as [q|q].
  - bnd Hq s1 Hs1. destruct s1 as [[p1 taken] sh]. bnd Hq ms Hms. grd Hq. injection Hq as <- <-.
    exists (PSimple q), p1, taken, sh. split_and!; auto. left. split_and!; [done|done|]. exists ms. done.
  - bnd Hq mn Hmn. bnd Hq s1 Hs1. destruct s1 as [p1 sh]. injection Hq as <- <-.
    exists (PStable q), p1, (ai_amounts i), sh. split_and!; auto. right. split_and!; eauto.
Qed.
Lemma ex_hot_zap_inv c e s t x r l infos skip c' :
  ex_hot_zap c e s t x r l infos skip = Some c' ->
  exists acc ts c1 outs m c2 m' acc', l <> [] /\ infos <> [] /\ ex_account c s = Some acc /\
    ex_infos_tokens c infos = Some ts /\ known_tokens c acc (act_tokens l ++ ts) = Some tt /\
    none_frozen c (act_tokens l ++ ts) /\ ex_direct c e t x r l skip = Some (c1, outs) /\
    tc_add_all ∅ outs = Some m /\ ex_zap_loop c1 e s m infos = Some (c2, m') /\ e_grow e <= ac_near acc /\
    ac_deposit_list (ac_set_near acc (ac_near acc - e_grow e)) (map_to_list m') = Some acc' /\
    ac_covered acc' /\ c' = ex_put c2 s acc'.
Proof.
  unfold ex_hot_zap. intros H. grd H. bnd H acc Hacc. bnd H ts Hts. grd H. grd H. apply no_frozen_inv in G1.
  bnd H d Hd. destruct d as [c1 outs]. bnd H m Hm. bnd H z Hz. destruct z as [c2 m']. bnd H near Hn. apply csub_Some in Hn as [-> Hn].
  bnd H acc' Hacc'. apply ex_save_inv in H as [? ->].
  exists acc, ts, c1, outs, m, c2, m', acc'. apply andb_true_iff in G as [G G'].
  split_and!; auto; intros ->; done.
Qed.

(** ** Shares *)
Lemma ex_mft_transfer_inv c id s r am c' x :
  ex_mft_transfer c id s r am = Some (c', x) ->
  s <> r /\ (forall y, am = Some y -> x = y) /\
  match mft_pool_of id with
  | Some pid => exists p p', ex_pool c pid = Some p /\ 0 < x /\
      (forall acc, ex_account c s = Some acc -> unlocked acc pid (pl_share_of p s) x) /\
      pl_share_transfer p s r x = Some p' /\ c' = ex_put_pool c pid p'
  | None => exists sa sa' ra ra', ex_account c s = Some sa /\ ex_account c r = Some ra /\
      ac_withdraw sa id x = Some sa' /\ ac_deposit ra id x = Some ra' /\ ac_covered sa' /\ ac_covered ra' /\
      c' = ex_put (ex_put c s sa') r ra'
  end.
Proof.
  unfold ex_mft_transfer. intros H. grd H. apply negb_true_iff, String.eqb_neq in G. split; [done|].
  destruct (mft_pool_of id) as [pid|].
  - bnd H p Hp. bnd H av Hav. grd H. grd H. bnd H p' Hp'. injection H as <- <-. apply N.ltb_lt in G0. apply N.leb_le in G1.
    split; [intros y ->; done|]. exists p, p'. split_and!; auto.
    intros acc Hacc rr Hr. rewrite Hacc, Hr in Hav. unfold sh_free in Hav. apply csub_Some in Hav as [-> Hz].
    rewrite pl_share_balance_of in *. done.
  - bnd H y Hy. bnd H sa Hsa. bnd H ra Hra. bnd H sa' Hsa'. bnd H ra' Hra'. bnd H c1 Hc1. bnd H c2 Hc2. injection H as <- <-.
    apply ex_save_inv in Hc1 as [? ->]. apply ex_save_inv in Hc2 as [? ->].
    split; [intros z ->; congruence|]. exists sa, sa', ra, ra'. split_and!; auto.
Qed.
Lemma ex_mft_register_inv c e id a c' ps :
  ex_mft_register c e id a = Some (c', ps) ->
  exists pid p p', running c = Some tt /\ mft_pool_of id = Some pid /\ ex_pool c pid = Some p /\ pl_share_register p a = Some p' /\
    check_storage e = Some ps /\ c' = ex_put_pool c pid p'.
Proof.
  unfold ex_mft_register. intros H. grd H. bnd H pid Hid. bnd H p Hp. bnd H p' Hp'. bnd H q Hq. injection H as <- <-. eauto 10.
Qed.
Lemma ex_mft_unregister_inv c e id c' ps :
  ex_mft_unregister c e id = Some (c', ps) ->
  exists pid p p', e_attached e = 1 /\ running c = Some tt /\ mft_pool_of id = Some pid /\ ex_pool c pid = Some p /\
    pl_share_unregister p (e_caller e) = Some p' /\
    ps = (if 0 <? e_freed e then [PNear (e_caller e) (e_freed e)] else []) /\ c' = ex_put_pool c pid p'.
Proof.
  unfold ex_mft_unregister. intros H. grd H. apply one_yocto_inv in G. grd H. bnd H pid Hid. bnd H p Hp. bnd H p' Hp'.
  injection H as <- <-. eauto 12.
Qed.
Lemma ex_mft_transfer_free_inv c e id r x c' :
  ex_mft_transfer_call_free c e id r x = Some c' ->
  e_attached e = 1 /\ running c = Some tt /\ ex_mft_transfer c id (e_caller e) r (Some x) = Some (c', x).
Proof.
  unfold ex_mft_transfer_call_free. intros H. grd H. apply one_yocto_inv in G. grd H. bnd H q Hq. destruct q as [c1 y].
  injection H as <-. pose proof (ex_mft_transfer_inv _ _ _ _ _ _ _ Hq) as (_ & Hy & _). now rewrite (Hy x) in Hq.
Qed.
Lemma ex_mft_transfer_call_inv c e id r am c' ps :
  ex_mft_transfer_call c e id r am = Some (c', ps) ->
  exists x, e_attached e = 1 /\ running c = Some tt /\ ex_mft_transfer c id (e_caller e) r am = Some (c', x) /\
    ps = [PMft id (e_caller e) r x].
Proof.
  unfold ex_mft_transfer_call. intros H. grd H. apply one_yocto_inv in G. grd H. bnd H q Hq. destruct q as [c1 y].
  injection H as <- <-. eauto.
Qed.
(** What the resolution of a transfer-call refunds. *)
Lemma ex_mft_resolve_inv c id s r x ret c' :
  ex_mft_resolve c id s r x ret = Some c' ->
  let unused := match ret with Some y => N.min x y | None => x end in
  (c' = c /\ (unused = 0 \/ ex_mft_balance c id r = Some 0)) \/
  exists bal, 0 < unused /\ ex_mft_balance c id r = Some bal /\ 0 < bal /\
    ex_mft_transfer c id r (match ex_accounts c !! s with Some _ => s | None => ex_self c end) (Some (N.min bal unused))
      = Some (c', N.min bal unused).
Proof.
  intros H. cbv zeta. unfold ex_mft_resolve in H. cbv zeta in H.
  set (unused := match ret with Some y => N.min x y | None => x end) in *. destruct (N.ltb_spec 0 unused) as [Hu|Hu].
  - bnd H bal Hbal. destruct (N.ltb_spec 0 bal) as [Hb|Hb].
    + right. exists bal. split_and!; auto. bnd H q Hq. destruct q as [c1 y]. injection H as <-.
      pose proof (ex_mft_transfer_inv _ _ _ _ _ _ _ Hq) as (_ & Hy & _). now rewrite (Hy _ eq_refl) in Hq.
    + left. injection H as <-. split; [done|]. right. rewrite Hbal. f_equal. lia.
  - left. injection H as <-. split; [done|]. left. lia.
Qed.

(** ** Donations *)
Lemma ex_donate_share_inv c e pid am unreg c' ps :
  ex_donate_share c e pid am unreg = Some (c', ps) ->
  exists p x p1 p2, e_attached e = 1 /\ running c = Some tt /\ ex_pool c pid = Some p /\
    x = default (pl_share_of p (e_caller e)) am /\ 0 < x /\
    pl_share_transfer p (e_caller e) (ex_self c) x = Some p1 /\
    (if unreg then pl_share_unregister p1 (e_caller e) else Some p1) = Some p2 /\
    ((c' = ex_put_pool c pid p2 /\ (ps = [] \/ ps = [PNear (e_caller e) (e_freed e)])) \/
     exists acc, ps = [] /\ ex_account c (e_caller e) = Some acc /\
       ac_covered (ac_set_near acc (ac_near acc + e_freed e)) /\
       c' = ex_put (ex_put_pool c pid p2) (e_caller e) (ac_set_near acc (ac_near acc + e_freed e))).
Proof.
  unfold ex_donate_share. intros H. grd H. apply one_yocto_inv in G. grd H. bnd H p Hp. rewrite pl_share_balance_of in H.
  grd H. apply N.ltb_lt in G1. bnd H p1 Hp1. bnd H p2 Hp2.
  exists p, (default (pl_share_of p (e_caller e)) am), p1, p2. split_and!; auto.
  destruct (0 <? e_freed e); [|injection H as <- <-; auto].
  destruct (ex_account (ex_put_pool c pid p2) (e_caller e)) as [acc|] eqn:Ea; [|injection H as <- <-; auto].
  bnd H near Hn. apply cadd_Some in Hn as [-> _]. bnd H c2 Hc2. injection H as <- <-. apply ex_save_inv in Hc2 as [? ->].
  right. exists acc. split_and!; auto.
Qed.
Lemma ex_donate_token_inv c e t am unreg c' :
  ex_donate_token c e t am unreg = Some c' ->
  exists acc bal x acc1 acc2 oa oa', e_attached e = 1 /\ running c = Some tt /\ ex_account c (e_caller e) = Some acc /\
    ac_get_balance acc t = Some bal /\ x = default bal am /\ 0 < x /\
    ac_withdraw acc t x = Some acc1 /\ (if unreg then ac_unregister acc1 t else Some acc1) = Some acc2 /\ ac_covered acc2 /\
    ex_account (ex_put c (e_caller e) acc2) (cf_owner (ex_cfg c)) = Some oa /\
    ac_deposit oa t x = Some oa' /\
    c' = ex_put (ex_put c (e_caller e) acc2) (cf_owner (ex_cfg c)) oa'.
Proof.
  unfold ex_donate_token. intros H. grd H. apply one_yocto_inv in G. grd H. bnd H acc Hacc. bnd H bal Hbal.
  grd H. apply N.ltb_lt in G1. bnd H acc1 H1. bnd H acc2 H2. bnd H c1 Hc1. apply ex_save_inv in Hc1 as [? ->].
  bnd H oa Hoa. bnd H oa' Hoa'. injection H as <-.
  exists acc, bal, (default bal am), acc1, acc2, oa, oa'. split_and!; auto.
Qed.

(** ** Shadows *)
Lemma ex_shadow_action_inv c e act pid am c' ps :
  ex_shadow_action c e act pid am = Some (c', ps) ->
  exists acc p mx x, running c = Some tt /\ ex_account c (e_caller e) = Some acc /\ ex_pool c pid = Some p /\
    shadow_max act (ac_shadow acc !! pid) (pl_share_of p (e_caller e)) = Some mx /\ x = default mx am /\ 0 < x /\ x <= mx /\
    ((is_cast act = true /\ exists acc' qs, ac_update_shadow acc pid act x = Some acc' /\ ac_covered acc' /\
        check_storage e = Some qs /\ c' = ex_put c (e_caller e) acc' /\ ps = qs ++ [PShadow act (e_caller e) pid x (e_grow e)]) \/
     (is_cast act = false /\ c' = c /\ ps = [PShadow act (e_caller e) pid x 0])).
Proof.
  unfold ex_shadow_action. intros H. grd H. bnd H acc Hacc. bnd H p Hp. rewrite pl_share_balance_of in H. bnd H mx Hmx.
  grd H. grd H. apply N.ltb_lt in G0. apply N.leb_le in G1.
  exists acc, p, mx, (default mx am). split_and!; auto. destruct (is_cast act).
  - left. split; [done|]. bnd H acc' Hacc'. bnd H c1 Hc1. apply ex_save_inv in Hc1 as [? ->]. bnd H qs Hqs. injection H as <- <-. eauto 10.
  - right. injection H as <- <-. auto.
Qed.
Lemma ex_callback_shadow_inv c e act s pid x fee ok c' ps :
  ex_callback_shadow c e act s pid x fee ok = Some (c', ps) ->
  (ok = true /\ is_cast act = true /\ c' = c /\ ps = []) \/
  (ok = true /\ is_cast act = false /\ ps = [] /\ exists acc acc1, ex_account c s = Some acc /\
     ac_update_shadow acc pid act x = Some acc1 /\
     ac_covered (ac_set_near acc1 (ac_near acc1 + e_freed e)) /\ c' = ex_put c s (ac_set_near acc1 (ac_near acc1 + e_freed e))) \/
  (ok = false /\ exists acc acc1, ex_account c s = Some acc /\
     (match act with
      | ToFarming => ac_update_shadow acc pid FromFarming x
      | ToBurrowland => ac_update_shadow acc pid FromBurrowland x
      | _ => Some acc
      end) = Some acc1 /\ ac_covered acc1 /\ c' = ex_put c s acc1 /\
     ps = (if is_cast act && (0 <? fee) then [PNear s fee] else [])).
Proof.
  unfold ex_callback_shadow. intros H. destruct ok.
  - destruct (is_cast act); [injection H as <- <-; auto|]. right; left. bnd H acc Hacc. bnd H acc1 Hacc1. bnd H near Hn.
    apply cadd_Some in Hn as [-> _]. bnd H c1 Hc1. apply ex_save_inv in Hc1 as [? ->]. injection H as <- <-. split_and!; auto. eauto 10.
  - right; right. split; [done|]. bnd H acc Hacc. bnd H acc1 Hacc1. bnd H c1 Hc1. apply ex_save_inv in Hc1 as [? ->].
    injection H as <- <-. exists acc, acc1. split_and!; auto.
Qed.
Lemma ex_burrow_liquidation_inv c e liq vic sid x mins c' ps :
  ex_burrow_liquidation c e liq vic sid x mins = Some (c', ps) ->
  exists pid p va va1 va2 la p' out la' seed avail,
    e_attached e = 0 /\ e_caller e = cf_burrow (ex_cfg c) /\ shadow_id_to_pool_id sid = Some pid /\ ex_pool c pid = Some p /\
    none_frozen c (pl_tokens p) /\ ex_account c vic = Some va /\ ac_update_shadow va pid FromBurrowland x = Some va1 /\
    (match ac_shadow va1 !! pid with Some r => sh_free r (pl_share_of p vic) | None => Some (pl_share_of p vic) end) = Some avail /\
    seed = (if 0 <? avail then (if x <? avail then 0 else x - avail) else x) /\
    (if 0 <? seed then ac_update_shadow va1 pid FromFarming seed else Some va1) = Some va2 /\
    ac_covered (ac_set_near va2 (ac_near va2 + e_freed e)) /\
    let c1 := ex_put c vic (ac_set_near va2 (ac_near va2 + e_freed e)) in
    ex_account c1 liq = Some la /\ pl_remove_liquidity p vic x mins false = Some (p', out) /\
    ac_deposit_all la (pl_tokens p') out = Some la' /\ ac_covered la' /\
    c' = ex_put (ex_put_pool c1 pid p') liq la' /\
    ps = (if 0 <? seed then [PRemoveShadow vic pid seed] else []).
Proof.
  unfold ex_burrow_liquidation. intros H. grd H. grd H. bnd H pid Hpid. bnd H p Hp. grd H. apply no_frozen_inv in G1.
  rewrite pl_share_balance_of in H. bnd H va Hva. bnd H va1 Hva1. bnd H avail Hav. bnd H va2 Hva2. bnd H near Hn.
  apply cadd_Some in Hn as [-> _]. bnd H c1 Hc1. apply ex_save_inv in Hc1 as [Hcov ->]. bnd H la Hla. bnd H q Hq. destruct q as [p' out].
  bnd H la' Hla'. bnd H c2 Hc2. apply ex_save_inv in Hc2 as [Hcov2 ->]. injection H as <- <-.
  apply String.eqb_eq in G0. unfold not_payable in G. apply ensure_Some, N.eqb_eq in G.
  eexists pid, p, va, va1, va2, la, p', out, la', _, avail. split_and!; eauto.
Qed.

(** ** Storage *)
Lemma ex_register_account_inv c a x c' :
  ex_register_account c a x = Some c' ->
  let acc := ac_set_near (ex_account_or_new c a) (ac_near (ex_account_or_new c a) + x) in
  ac_covered acc /\ c' = ex_put c a acc.
Proof.
  unfold ex_register_account. intros H. bnd H near Hn. apply cadd_Some in Hn as [-> _]. apply ex_save_inv in H. done.
Qed.
Definition refund_to (a : AccountId) (x : N) : list Promise := if 0 <? x then [PNear a x] else [].
Lemma refund_promised t a x : promised_all t (refund_to a x) = 0.
Proof. unfold refund_to. now destruct (0 <? x). Qed.
Lemma ex_storage_deposit_inv c e a ro c' ps :
  ex_storage_deposit c e a ro = Some (c', ps) ->
  let id := default (e_caller e) a in
  running c = Some tt /\ (is_Some (ex_accounts c !! id) \/ min_storage_usage <= e_attached e) /\
  ((ro = true /\ is_Some (ex_accounts c !! id) /\ c' = c /\ ps = refund_to (e_caller e) (e_attached e)) \/
   (ro = true /\ ex_accounts c !! id = None /\ ex_register_account c id min_storage_usage = Some c' /\
      min_storage_usage <= e_attached e /\ ps = refund_to (e_caller e) (e_attached e - min_storage_usage)) \/
   (ro = false /\ ex_register_account c id (e_attached e) = Some c' /\ ps = [])).
Proof.
  intros H. cbv zeta. unfold ex_storage_deposit in H. cbv zeta in H. set (id := default (e_caller e) a) in *. grd H. grd H. split; [done|]. split.
  - destruct (ex_accounts c !! id); [eauto|]. right. destruct (N.ltb_spec (e_attached e) min_storage_usage) as [L|L]; [discriminate|done].
  - clear G0. destruct ro.
    + destruct (ex_accounts c !! id) as [v|] eqn:E.
      * injection H as <- <-. left. split_and!; eauto.
      * bnd H c1 Hc1. bnd H rf Hrf. apply csub_Some in Hrf as [-> Hle]. injection H as <- <-. right; left. split_and!; auto.
    + bnd H c1 Hc1. injection H as <- <-. right; right. auto.
Qed.
Lemma ex_storage_withdraw_inv c e x c' ps :
  ex_storage_withdraw c e x = Some (c', ps) ->
  exists acc y, e_attached e = 1 /\ running c = Some tt /\ ex_account c (e_caller e) = Some acc /\
    y = (if x =? 0 then ac_storage_available acc else x) /\ 0 < ac_storage_available acc /\ y <= ac_storage_available acc /\
    y <= ac_near acc /\ ac_covered (ac_set_near acc (ac_near acc - y)) /\
    c' = ex_put c (e_caller e) (ac_set_near acc (ac_near acc - y)) /\ ps = [PNear (e_caller e) y].
Proof.
  unfold ex_storage_withdraw. intros H. grd H. apply one_yocto_inv in G. grd H. bnd H acc Hacc. grd H. grd H. bnd H near Hn.
  apply csub_Some in Hn as [-> Hn]. bnd H c1 Hc1. apply ex_save_inv in Hc1 as [? ->]. injection H as <- <-.
  apply N.ltb_lt in G1. apply N.leb_le in G2. eexists acc, _. split_and!; eauto.
Qed.
Lemma ex_storage_unregister_inv c e c' ps :
  ex_storage_unregister c e = Some (c', ps) ->
  e_attached e = 1 /\ running c = Some tt /\
  ((ex_account c (e_caller e) = None /\ c' = c /\ ps = []) \/
   exists acc, ex_account c (e_caller e) = Some acc /\ ac_tokens acc = ∅ /\ ac_legacy acc = ∅ /\ ac_shadow acc = ∅ /\
     c' = ex_set_accounts c (delete (e_caller e) (ex_accounts c)) /\ ps = [PNear (e_caller e) (ac_near acc)]).
Proof.
  unfold ex_storage_unregister. intros H. grd H. apply one_yocto_inv in G. grd H. split; [done|]. split; [done|].
  destruct (ex_account c (e_caller e)) as [acc|]; [|injection H as <- <-; auto].
  grd H. injection H as <- <-. apply andb_true_iff in G1 as [G1 G3]. apply andb_true_iff in G1 as [G1 G2].
  apply bool_decide_eq_true in G1, G2. apply Nat.eqb_eq in G3. right. exists acc. split_and!; auto. now apply map_size_empty_iff.
Qed.

(** ** Owner functions that move tokens or shares *)
Lemma ex_remove_fee_liquidity_inv c e pid sh mins c' :
  ex_remove_fee_liquidity c e pid sh mins = Some c' ->
  exists p p' out acc acc', is_guard c e = true /\ running c = Some tt /\ ex_pool c pid = Some p /\
    pl_remove_liquidity p (ex_self c) sh mins false = Some (p', out) /\
    ex_account c (cf_owner (ex_cfg c)) = Some acc /\ ac_deposit_all acc (pl_tokens p') out = Some acc' /\ ac_covered acc' /\
    c' = ex_put (ex_put_pool c pid p') (cf_owner (ex_cfg c)) acc'.
Proof.
  unfold ex_remove_fee_liquidity. intros H. grd H. apply guard_call_inv in G as [_ G]. grd H. bnd H p Hp. bnd H q Hq. destruct q as [p' out].
  bnd H acc Hacc. bnd H acc' Hacc'. apply ex_save_inv in H as [? ->]. exists p, p', out, acc, acc'. split_and!; auto.
Qed.
Lemma ex_withdraw_owner_inv c e t x s c' ps :
  ex_withdraw_owner c e t x s = Some (c', ps) ->
  exists acc acc', is_guard c e = true /\ running c = Some tt /\ 0 < x /\ ex_account c (cf_owner (ex_cfg c)) = Some acc /\
    ac_withdraw acc t x = Some acc' /\ c' = ex_put c (cf_owner (ex_cfg c)) acc' /\ ps = [ex_send c (cf_owner (ex_cfg c)) t x s].
Proof.
  unfold ex_withdraw_owner. intros H. grd H. apply guard_call_inv in G as [_ G]. grd H. grd H. apply N.ltb_lt in G1. bnd H acc Hacc.
  bnd H acc' Hacc'. injection H as <- <-. eauto 10.
Qed.
Lemma ex_retrieve_inv c e t x c' ps :
  ex_retrieve c e t x = Some (c', ps) ->
  e_caller e = cf_owner (ex_cfg c) /\ 0 < x /\ c' = c /\ ps = [PRetrieve t (cf_owner (ex_cfg c)) x].
Proof.
  unfold ex_retrieve. intros H. grd H. apply owner_call_inv in G as [_ G]. grd H. apply N.ltb_lt in G0. injection H as <- <-. done.
Qed.
