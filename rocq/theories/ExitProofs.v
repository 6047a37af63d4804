(** * Withdrawals, claims and redemptions succeed: proofs *)
From Verif Require Import Base BaseLemmas SimplePool SimplePoolProofs SpecSimple SimplePoolInv StableMath StablePool
  SpecStable StablePoolProofs StablePoolInv Rates Echo Twap SpecTwap PropTwap.
From Verif Require Import PropSimple PropStable.
From Verif Require Import Account Pool Exchange SpecExchange AccountProofs PoolFacts
  ExchangeProofs ExchangeInv ExchangeEffect ExchangeFrames SpecWorld WorldProofs PropWorld SpecSwap SpecHistory HistoryProofs
  TwapInv SpecRecords PropRecords SpecExit.

(** ** Guards *)
Lemma one_yocto_intro e : e_attached e = 1 -> one_yocto e = Some tt.
Proof. intros E. apply ensure_intro. now rewrite E. Qed.
Lemma running_intro c : cf_running (ex_cfg c) = true -> running c = Some tt.
Proof. apply ensure_intro. Qed.
Lemma no_frozen_intro c ts : (forall t, t ∈ ts -> t ∉ cf_frozen (ex_cfg c)) -> no_frozen c ts = Some tt.
Proof.
  intros H. apply ensure_intro. apply forallb_forall. intros t Ht. apply elem_of_list_In in Ht. apply H in Ht.
  now rewrite bool_decide_eq_false_2.
Qed.
Lemma next_time_intro w now : w_now w <= now < 2 ^ 64 -> next_time w now = Some tt.
Proof. intros []. apply ensure_intro. apply andb_true_iff. now rewrite N.leb_le, N.ltb_lt. Qed.
Lemma ready_call w e a x c' ps :
  ready w e a -> ex_call (w_ex w) e x = Some (c', ps) -> w_step w (EvCall e x) = Some (w_queue w c' (w_hold w) (w_flights w) ps (e_now e)).
Proof.
  intros (Ha & _ & Hs & Hn & _) H. unfold w_step. cbv zeta. rewrite (next_time_intro _ _ Hn). cbn [mbind option_bind].
  rewrite ensure_intro. 2: { subst a. apply negb_true_iff. now apply String.eqb_neq. }
  cbn [mbind option_bind]. rewrite H. reflexivity.
Qed.

(** ** Accounts *)
Lemma usage_same a t x y : ac_tokens a !! t = Some y -> ac_storage_usage (ac_set_tokens a (<[t := x]> (ac_tokens a))) = ac_storage_usage a.
Proof. intros H. unfold ac_storage_usage. cbn [ac_set_tokens ac_legacy ac_tokens]. now rewrite map_size_insert_Some by eauto. Qed.
Lemma ac_withdraw_new a t x :
  ac_legacy a !! t = None -> 0 < x <= ac_held a t ->
  exists a', ac_withdraw a t x = Some a' /\ ac_storage_usage a' = ac_storage_usage a /\ ac_near a' = ac_near a.
Proof.
  intros Hl [Hx Hle]. unfold ac_held, ac_get_balance in Hle. unfold ac_withdraw. rewrite (proj2 (N.ltb_lt _ _) Hx), Hl in *.
  destruct (ac_tokens a !! t) as [y|] eqn:Ey; cbn [default from_option Datatypes.id] in Hle; [|lia].
  cbn [mbind option_bind]. rewrite csub_intro by done. cbn [mbind option_bind]. eexists. split; [reflexivity|]. split; [|done]. eapply usage_same; eauto.
Qed.
Lemma ac_withdraw_old a t x :
  ac_disjoint a -> 0 < x <= ac_held a t -> exists a', ac_withdraw a t x = Some a' /\ ac_near a' = ac_near a.
Proof.
  intros Hd [Hx Hle]. unfold ac_held, ac_get_balance in Hle. unfold ac_withdraw. rewrite (proj2 (N.ltb_lt _ _) Hx).
  destruct (ac_legacy a !! t) as [y|] eqn:El.
  - rewrite (Hd _ _ El) in Hle. cbn [default from_option Datatypes.id] in Hle. rewrite csub_intro by done. cbn [mbind option_bind]. eauto.
  - destruct (ac_tokens a !! t) as [y|] eqn:Ey; cbn [default from_option Datatypes.id] in Hle; [|lia].
    cbn [mbind option_bind]. rewrite csub_intro by done. cbn [mbind option_bind]. eauto.
Qed.
Lemma size_delete_le {A} (m : gmap AccountId A) t : (size (delete t m) <= size m)%nat.
Proof.
  destruct (m !! t) as [x|] eqn:E; [|now rewrite delete_notin].
  rewrite map_size_delete_Some by eauto. lia.
Qed.
Lemma usage_le a b :
  (size (ac_legacy a) <= size (ac_legacy b))%nat -> (size (ac_tokens a) <= size (ac_tokens b))%nat -> ac_storage_usage a <= ac_storage_usage b.
Proof. intros H1 H2. unfold ac_storage_usage. apply N.mul_le_mono_r. apply N.add_le_mono; [apply N.add_le_mono; [done|]|]; apply N.mul_le_mono_r; lia. Qed.
(** Taking everything of a token out and its entry away. *)
Lemma ac_withdraw_whole a t :
  ac_disjoint a -> 0 < ac_held a t ->
  exists a1 a2, ac_withdraw a t (ac_held a t) = Some a1 /\ ac_unregister a1 t = Some a2 /\
    ac_storage_usage a2 <= ac_storage_usage a /\ ac_near a2 = ac_near a.
Proof.
  intros Hd Hx. unfold ac_held, ac_get_balance in *. unfold ac_withdraw.
  destruct (ac_legacy a !! t) as [y|] eqn:El.
  - rewrite (Hd _ _ El) in *. cbn [default from_option Datatypes.id] in *. rewrite (proj2 (N.ltb_lt _ _) Hx).
    rewrite csub_intro by done. cbn [mbind option_bind]. eexists. eexists. split; [reflexivity|]. unfold ac_unregister. cbn [ac_legacy ac_tokens ac_near ac_shadow].
    rewrite lookup_delete, lookup_insert. cbn [default from_option Datatypes.id]. rewrite N.sub_diag. cbn [ensure N.eqb mbind option_bind].
    split; [reflexivity|]. split; [|done]. apply usage_le; cbn [ac_legacy ac_tokens].
    + etransitivity; apply size_delete_le.
    + rewrite delete_insert_delete. apply size_delete_le.
  - destruct (ac_tokens a !! t) as [y|] eqn:Ey; cbn [default from_option Datatypes.id] in *; [|lia].
    rewrite (proj2 (N.ltb_lt _ _) Hx). cbn [mbind option_bind]. rewrite csub_intro by done. cbn [mbind option_bind]. eexists. eexists. split; [reflexivity|].
    unfold ac_unregister, ac_set_tokens. cbn [ac_legacy ac_tokens ac_near ac_shadow].
    rewrite El, lookup_insert. cbn [default from_option Datatypes.id]. rewrite N.sub_diag. cbn [ensure N.eqb mbind option_bind].
    split; [reflexivity|]. split; [|done]. apply usage_le; cbn [ac_legacy ac_tokens].
    + apply size_delete_le.
    + rewrite delete_insert_delete. apply size_delete_le.
Qed.
Lemma ex_save_intro c a acc : ac_storage_usage acc <= ac_near acc -> ex_save c a acc = Some (ex_put c a acc).
Proof. intros H. unfold ex_save. rewrite ensure_intro by now apply N.leb_le. reflexivity. Qed.

(** ** Payments *)
Lemma ex_send_pays w e x c' a t n s :
  ready w e a -> n <= w_hold w t -> ex_call (w_ex w) e x = Some (c', [ex_send (w_ex w) a t n s]) ->
  exists w2, pays w e x a t n w2 /\ w_ex w2 = c'.
Proof.
  intros Hr Hn H. pose proof (ready_call _ _ _ _ _ _ Hr H) as Hs. unfold w_queue in Hs. cbn [enqueue] in Hs.
  assert (E : exists w2, w_step (mkWorld c' (w_hold w) (<[w_next w := Leaving (ex_send (w_ex w) a t n s)]> (w_flights w)) (w_next w + 1) (e_now e))
    (EvRemote (w_next w) true n) = Some w2 /\ w_hold w2 t + n = w_hold w t /\ w_ex w2 = c').
  { unfold w_step. cbv zeta. cbn [w_flights w_hold w_ex w_next w_now]. rewrite lookup_insert. cbn [mbind option_bind].
    unfold ex_send. destruct (_ && _).
    - rewrite ensure_intro by (cbn [negb orb]; now apply N.leb_le). cbn [mbind option_bind]. eexists. split; [reflexivity|].
      cbn [w_hold w_ex]. rewrite debit_hold_at, only_same. split; [lia|done].
    - rewrite ensure_intro by (cbn [negb orb]; now apply N.leb_le). cbn [mbind option_bind]. eexists. split; [reflexivity|].
      cbn [w_hold w_ex]. rewrite debit_hold_at, only_same. split; [lia|done]. }
  destruct E as (w2 & Hr2 & Hh & Hx). exists w2. split; [|done]. eexists. exists (ex_send (w_ex w) a t n s). split; [exact Hs|].
  cbn [w_flights]. rewrite lookup_insert. split; [done|]. split; [apply ex_send_transfers|]. split; [exact Hr2|exact Hh].
Qed.
Lemma held_le_hold t w0 w a : w_start w0 -> standard t w0 w -> held_by (w_ex w) a t <= w_hold w t.
Proof.
  intros Hs [Hb Hx]. pose proof (C01_solvent_partial _ _ _ Hs Hb Hx). pose proof (held_by_le (w_ex w) a t). unfold owed in *. lia.
Qed.
Lemma lost_le_total c a t : lost_of c a t <= total_lost c t.
Proof.
  unfold lost_of, total_lost. pose proof (msum_lookup_le (fun _ (m : gmap AccountId N) => default 0 (m !! t)) (ex_lost c) a) as H.
  destruct (ex_lost c !! a); cbn in *; lia.
Qed.

(** ** Credits *)
Lemma ac_deposit_intro a t x :
  ac_disjoint a -> ac_held a t + x < W128 ->
  exists a', ac_deposit a t x = Some a' /\ ac_near a' = ac_near a /\
    (forall u, u <> t -> ac_tokens a' !! u = ac_tokens a !! u) /\
    ac_storage_usage a' <= ac_storage_usage a + (if decide (ac_tokens a !! t = None) then 148 * 10 ^ 19 else 0).
Proof.
  intros Hd Hx. unfold ac_held, ac_get_balance in Hx. unfold ac_deposit. destruct (N.ltb_spec 0 x) as [Hp|Hp].
  2: { exists a. split_and!; auto. lia. }
  assert (Hnew : forall z l, (size l <= size (ac_legacy a))%nat -> ac_storage_usage (mkAccount (ac_near a) l (<[t := z]> (ac_tokens a)) (ac_shadow a))
    <= ac_storage_usage a + (if decide (ac_tokens a !! t = None) then 148 * 10 ^ 19 else 0)).
  { intros z l Hl. destruct (decide _) as [En|En].
    - unfold ac_storage_usage. cbn [ac_legacy ac_tokens]. rewrite map_size_insert_None by done. unfold TOKEN_ENTRY_STORAGE, STORAGE_BYTE_COST, LEGACY_ENTRY_STORAGE. lia.
    - rewrite N.add_0_r. apply usage_le; cbn [ac_legacy ac_tokens]; [done|]. rewrite map_size_insert_Some; [done|]. destruct (ac_tokens a !! t); [eauto|done]. }
  destruct (ac_legacy a !! t) as [y|] eqn:El.
  - rewrite (Hd _ _ El) in Hx. cbn [default from_option Datatypes.id] in Hx. rewrite cadd_intro by lia. cbn [mbind option_bind].
    eexists. split; [reflexivity|]. cbn [ac_near ac_tokens]. split; [done|]. split; [intros u Hu; now rewrite lookup_insert_ne by done|].
    apply Hnew. apply size_delete_le.
  - destruct (ac_tokens a !! t) as [y|] eqn:Ey; cbn [default from_option Datatypes.id] in Hx.
    + rewrite cadd_intro by lia. cbn [mbind option_bind]. eexists. split; [reflexivity|]. unfold ac_set_tokens. cbn [ac_near ac_tokens].
      split; [done|]. split; [intros u Hu; now rewrite lookup_insert_ne by done|]. apply Hnew. done.
    + eexists. split; [reflexivity|]. unfold ac_set_tokens. cbn [ac_near ac_tokens].
      split; [done|]. split; [intros u Hu; now rewrite lookup_insert_ne by done|]. apply Hnew. done.
Qed.
Lemma new_entries_cons a t ts :
  new_entries a (t :: ts) = (if decide (ac_tokens a !! t = None) then 1 else 0) + new_entries a ts.
Proof. unfold new_entries. rewrite filter_cons. destruct (decide _); cbn [length]; lia. Qed.
Lemma new_entries_same a b ts : (forall t, t ∈ ts -> ac_tokens b !! t = ac_tokens a !! t) -> new_entries b ts = new_entries a ts.
Proof.
  induction ts as [|t ts IH]; [done|]. intros H. rewrite !new_entries_cons. rewrite IH by (intros u Hu; apply H; now right).
  rewrite (H t) by left. done.
Qed.
Lemma ac_deposit_all_intro ts : forall a xs,
  ac_disjoint a -> NoDup ts -> length xs = length ts -> (forall t, t ∈ ts -> ac_held a t + beside t ts xs < W128) ->
  exists a', ac_deposit_all a ts xs = Some a' /\ ac_near a' = ac_near a /\
    ac_storage_usage a' <= ac_storage_usage a + new_entries a ts * (148 * 10 ^ 19).
Proof.
  induction ts as [|t ts IH]; intros a [|x xs] Hd Hn Hl H; try discriminate Hl.
  - exists a. cbn [ac_deposit_all]. split_and!; auto. lia.
  - cbn [ac_deposit_all]. apply NoDup_cons in Hn as [Hnt Hn].
    destruct (ac_deposit_intro a t x Hd) as (a1 & H1 & Hnear & Htok & Hu).
    { specialize (H t ltac:(left)). rewrite beside_cons, String.eqb_refl in H. exact H. }
    rewrite H1. cbn [mbind option_bind]. pose proof (ac_deposit_spec _ _ _ _ Hd H1) as ((Hd1 & _) & Hh & _).
    destruct (IH a1 xs) as (a2 & H2 & Hnear2 & Hu2); auto.
    { intros u Hu'. assert (u <> t) by (intros ->; contradiction). rewrite Hh. rewrite only_ne by done. rewrite N.add_0_r.
      specialize (H u ltac:(now right)). rewrite beside_cons in H. destruct (String.eqb_spec t u) as [->|]; [done|exact H]. }
    exists a2. split; [done|]. split; [congruence|]. rewrite new_entries_cons.
    rewrite (new_entries_same a a1) in Hu2. 2: { intros u Hu'. apply Htok. intros ->. contradiction. }
    clear -Hu Hu2. destruct (decide _); lia.
Qed.

(** ** Redemptions *)
Lemma share_amount r s S : s <= S -> 0 < S -> r * s / S <= r.
Proof. intros H H0. apply N.div_le_upper_bound; [lia|]. clear -H. nia. Qed.
Lemma W128_sq a b : a < W128 -> b < W128 -> a * b < W256.
Proof.
  intros Ha Hb. assert (E : W256 = W128 * W128) by (vm_compute; reflexivity). rewrite E. clear E. pose proof W128_pos. generalize dependent W128. intros. nia.
Qed.
Lemma sp_redeem_all_intro S s rs :
  0 < S -> s <= S -> S < W128 -> Forall (fun r => r < W128) rs ->
  exists ls, sp_redeem_all S s rs (repeat 0 (length rs)) = Some ((fun r => r * s / S) <$> rs, ls).
Proof.
  intros H0 Hs HS. induction rs as [|r rs IH]; intros Hr; [eexists; reflexivity|]. inversion Hr as [|? ? Hr1 Hr2]; subst. cbn beta in Hr1.
  destruct (IH Hr2) as [ls Hls]. cbn [length repeat sp_redeem_all]. unfold sp_redeem.
  rewrite cmul_intro by (apply W128_sq; lia). cbn [mbind option_bind]. rewrite cdiv_intro by done. cbn [mbind option_bind].
  pose proof (share_amount r s S Hs H0). rewrite fit_intro by lia. cbn [mbind option_bind]. rewrite ensure_intro by (apply N.leb_le, N.le_0_l). cbn [mbind option_bind].
  rewrite csub_intro by done. cbn [mbind option_bind]. rewrite Hls. cbn [mbind option_bind]. eexists. reflexivity.
Qed.
Lemma from_c_intro k d c : d <= kept_decimals k -> from_c k d c = Some (in_units (kept_decimals k) d c).
Proof.
  intros Hd. rewrite kept_is_target in *. unfold from_c, in_units. rewrite (proj2 (N.leb_le _ _) Hd).
  assert (H : 10 ^ (target_decimal k - d) < W128).
  { eapply N.le_lt_trans; [apply N.pow_le_mono_r with (c := 24); [lia|destruct k; cbn [target_decimal]; lia]|vm_compute; reflexivity]. }
  unfold cpow. rewrite fit_intro by exact H. cbn [mbind option_bind]. apply cdiv_intro. pose proof (N.pow_nonzero 10 (target_decimal k - d)). lia.
Qed.
Lemma st_redeem_all_intro k S s ds : forall cs,
  0 < S -> s <= S -> S < W128 -> length ds = length cs -> Forall (fun c => c < W128) cs -> Forall (fun d => d <= kept_decimals k) ds ->
  Forall (fun c => min_reserve k <= c - c * s / S) cs ->
  exists ls, st_redeem_all k S s ds cs (repeat 0 (length cs)) = Some (zip_with (fun d c => in_units (kept_decimals k) d (c * s / S)) ds cs, ls).
Proof.
  induction ds as [|d ds IH]; intros [|c cs] H0 Hs HS Hl Hc Hd Hm; try discriminate Hl; [eexists; reflexivity|].
  inversion Hc as [|? ? Hc1 Hc2]; subst. inversion Hd as [|? ? Hd1 Hd2]; subst. inversion Hm as [|? ? Hm1 Hm2]; subst. cbn beta in Hc1, Hd1, Hm1.
  destruct (IH cs) as [ls Hls]; auto. cbn [length repeat st_redeem_all zip_with]. unfold st_redeem.
  rewrite cmul_intro by (apply W128_sq; lia). cbn [mbind option_bind]. rewrite cdiv_intro by done. cbn [mbind option_bind].
  pose proof (share_amount c s S Hs H0). rewrite fit_intro by lia. cbn [mbind option_bind]. rewrite csub_intro by done. cbn [mbind option_bind].
  rewrite ensure_intro by now apply N.leb_le. cbn [mbind option_bind]. rewrite from_c_intro by done. cbn [mbind option_bind].
  rewrite ensure_intro by (apply N.leb_le, N.le_0_l). cbn [mbind option_bind]. rewrite Hls. cbn [mbind option_bind]. eexists. reflexivity.
Qed.
Lemma share_entry (m : gmap AccountId N) a s : 0 < s -> s <= shares_get m a -> exists x, m !! a = Some x /\ s <= x.
Proof. unfold shares_get. intros H0 H. destruct (m !! a) as [x|]; cbn in H; [eauto|lia]. Qed.
Lemma exact_decimals q : st_wf q -> (forall t, t ∈ st_tokens q -> st_dec q t <= kept_decimals (st_kind q)) -> Forall (fun d => d <= kept_decimals (st_kind q)) (st_decimals q).
Proof.
  intros Hwf H. apply Forall_lookup. intros i d Hd. destruct Hwf as (Hn & Hl & Hrest).
  destruct (lookup_lt_is_Some_2 (st_tokens q) i) as [t Ht]; [rewrite <- Hl; eapply lookup_lt_Some; exact Hd|].
  rewrite <- (st_dec_idx q i t d) by (auto; split; auto). apply H. eapply elem_of_list_lookup_2; exact Ht.
Qed.
Lemma pl_wf_supply p : pl_wf p -> pl_supply p < W128 /\ forall a, pl_share_of p a <= pl_supply p.
Proof.
  destruct p as [q|q]; cbn [pl_wf pl_supply pl_share_of]; intros Hwf.
  - destruct Hwf as (_ & _ & _ & _ & HS & E). split; [done|]. intros a. rewrite <- E. apply shares_get_le.
  - destruct Hwf as (_ & _ & _ & _ & HS & E & _). split; [done|]. intros a. rewrite <- E. apply shares_get_le.
Qed.
Lemma worth_length p s : pl_wf p -> length (worth p s) = length (pl_tokens p).
Proof.
  destruct p as [q|q]; cbn [pl_wf pl_tokens worth]; intros Hwf.
  - rewrite fmap_length. destruct Hwf as (_ & -> & (x & y & -> & _) & _). done.
  - rewrite zip_with_length. destruct Hwf as (_ & -> & -> & _). lia.
Qed.
Lemma pl_remove_intro p a s (v : bool) :
  pl_wf p -> 0 < s <= pl_supply p -> leaves_enough p s -> (forall t, t ∈ pl_tokens p -> pl_exact p t) ->
  (if v then True else s <= pl_share_of p a) ->
  exists p', pl_remove_liquidity p a s (repeat 0 (length (pl_tokens p))) v = Some (p', worth p s).
Proof.
  intros Hwf [H0 Hs] Hle Hex Hv. pose proof (pl_wf_supply _ Hwf) as [HS _]. destruct p as [q|q]; cbn [pl_wf pl_supply pl_tokens pl_share_of worth pl_remove_liquidity] in *.
  - destruct Hwf as (_ & Hl & (x & y & Ha & Hx & Hy & _) & _). unfold sp_remove_liquidity. rewrite Hl. rewrite ensure_intro by done. cbn [mbind option_bind].
    assert (E : exists m, (if v then Some (sp_shares q) else prev ← sp_shares q !! a; _ ← ensure (s <=? prev); Some (<[a:=prev - s]> (sp_shares q))) = Some m).
    { destruct v; [eauto|]. destruct (share_entry _ _ _ H0 Hv) as (z & -> & Hz). cbn [mbind option_bind]. rewrite ensure_intro by now apply N.leb_le. cbn [mbind option_bind]. eauto. }
    destruct E as [m ->]. cbn [mbind option_bind]. destruct (sp_redeem_all_intro (sp_supply q) s (sp_amounts q)) as [ls Hls]; [lia|done|done|rewrite Ha; repeat constructor; assumption|].
    rewrite Ha in Hls at 2. cbn [length] in Hls. rewrite Hls. cbn [mbind option_bind]. rewrite csub_intro by done. cbn [mbind option_bind]. eauto.
  - pose proof (exact_decimals q Hwf Hex) as Hd. destruct Hwf as (_ & Hl & Hlc & Hc & _). unfold st_remove_by_shares. rewrite repeat_length. rewrite ensure_intro by now apply Nat.eqb_eq. cbn [mbind option_bind].
    assert (E : exists m, (if v then Some (st_shares q) else prev ← st_shares q !! a; _ ← ensure (s <=? prev); Some (st_burn (st_shares q) a prev s)) = Some m).
    { destruct v; [eauto|]. destruct (share_entry _ _ _ H0 Hv) as (z & -> & Hz). cbn [mbind option_bind]. rewrite ensure_intro by now apply N.leb_le. cbn [mbind option_bind]. eauto. }
    destruct E as [m ->]. cbn [mbind option_bind]. destruct (st_redeem_all_intro (st_kind q) (st_supply q) s (st_decimals q) (st_c q)) as [ls Hls]; auto; [lia|congruence|].
    rewrite <- Hlc, Hls. cbn [mbind option_bind]. rewrite csub_intro by done. cbn [mbind option_bind]. eauto.
Qed.

(** ** The observation before a redemption *)
Lemma accumulate_intro el cum : forall am, el < 2 ^ 32 -> Forall (fun x => x < W128) am -> length cum = length am ->
  exists r, twap_accumulate el cum am = Some r.
Proof.
  induction cum as [|c cum IH]; intros [|a am] He Ha Hl; try discriminate Hl; [eexists; reflexivity|].
  inversion Ha as [|? ? Ha1 Ha2]; subst. destruct (IH am) as [r Hr]; auto. cbn [twap_accumulate].
  rewrite cmul_intro. 2: { apply W128_sq; [done|]. eapply N.lt_trans; [exact He|]. vm_compute. reflexivity. }
  cbn [mbind option_bind]. rewrite Hr. eexists. reflexivity.
Qed.
Lemma twap_update_intro h i now am iv :
  twap_history h i -> tw_last i <= now < W32 -> Forall (fun x => x < W128) am -> length (tw_cum i) = length am ->
  exists i', twap_update i now am iv = Some i'.
Proof.
  intros Hh [Hn HW] Ham Hl. apply twap_ok_history in Hh. pose proof (tk_records _ _ Hh) as Hne. pose proof (tk_ok _ _ Hh) as Hok.
  unfold twap_update. destruct (lookup_lt_is_Some_2 (tw_records i) (pred (length (tw_records i)))) as [rl Hrl].
  { destruct (tw_records i); [done|cbn; lia]. }
  pose proof (Forall_lookup_1 _ _ _ _ Hok Hrl) as Hro. apply ro_le in Hro.
  rewrite Hrl. cbn [mbind option_bind]. rewrite (csub_intro now (tw_last i)) by exact Hn. cbn [mbind option_bind]. destruct (0 <? now - tw_last i); [|eauto].
  destruct (accumulate_intro (now - tw_last i) (tw_cum i) am) as [r Hr]; auto.
  { eapply N.le_lt_trans; [apply N.le_sub_l|]. exact HW. }
  rewrite Hr. cbn [mbind option_bind]. rewrite csub_intro by lia. cbn [mbind option_bind]. eauto.
Qed.
Lemma sec_exact now : now < 2 ^ 32 * 10 ^ 9 -> nano_to_sec now = now / 10 ^ 9.
Proof. intros H. unfold nano_to_sec. apply N.mod_small. apply N.div_lt_upper_bound; [vm_compute; discriminate|]. rewrite N.mul_comm. exact H. Qed.
Lemma worth_stands p : worth p (one_share p) = stands_for p.
Proof. destruct p; reflexivity. Qed.
Lemma ex_update_twap_intro w e pid p :
  records_sound w -> w_ok w -> w_now w <= e_now e < 2 ^ 32 * 10 ^ 9 -> ex_pool (w_ex w) pid = Some p ->
  (forall t, t ∈ pl_tokens p -> pl_exact p t) ->
  (is_Some (ex_twap (w_ex w) !! pid) -> one_share p < pl_supply p -> leaves_enough p (one_share p)) ->
  exists c1, ex_update_twap (w_ex w) e pid = Some c1.
Proof.
  intros Hrec Hok [Hn HW] Hp Hex Hobs. unfold ex_update_twap. destruct (ex_twap (w_ex w) !! pid) as [i|] eqn:Ei; [|eauto].
  destruct (Hrec _ _ Ei) as (h & p' & Hh & Hlast & Hp' & Hlen). rewrite Hp in Hp'. injection Hp' as <-.
  pose proof (ex_wf_pool _ _ _ _ (proj1 Hok) Hp) as Hwf. apply pl_reachable_wf in Hwf.
  unfold ex_unit_amounts. rewrite Hp. cbn [mbind option_bind]. change (10 ^ pl_share_decimal p) with (one_share p). destruct (N.ltb_spec (one_share p) (pl_supply p)) as [Hlt|Hge]; [|eauto].
  destruct (pl_remove_intro p "@view" (one_share p) true) as [p' Hr]; auto.
  { split; [|lia]. pose proof (N.pow_nonzero 10 (pl_share_decimal p)) as Hnz. change (10 ^ pl_share_decimal p) with (one_share p) in Hnz. lia. }
  rewrite Hr. cbn [mbind option_bind]. pose proof (pl_remove_small _ _ _ _ _ _ _ Hr) as [Hsm Hl]. rewrite repeat_length in Hl.
  destruct (twap_update_intro h i (nano_to_sec (e_now e)) (worth p (one_share p)) (cf_interval (ex_cfg (w_ex w)))) as [i' Hi']; auto.
  { split; [|apply sec_small]. rewrite sec_exact by done. etransitivity; [exact Hlast|]. apply N.div_le_mono; [vm_compute; discriminate|exact Hn]. }
  { congruence. }
  rewrite Hi'. cbn [mbind option_bind]. eauto.
Qed.

(** ** Old-style entries are moved by credits *)
Lemma ac_deposit_moves a t x a' : ac_deposit a t x = Some a' ->
  (forall u, ac_legacy a !! u = None -> ac_legacy a' !! u = None) /\ (0 < x -> ac_legacy a' !! t = None).
Proof.
  unfold ac_deposit. destruct (N.ltb_spec 0 x); [|intros [= <-]; split; [auto|lia]].
  destruct (ac_legacy a !! t) as [y|] eqn:El; intros H'.
  - bnd H' z Hz. injection H' as <-. cbn [ac_legacy]. split; [|intros _; apply lookup_delete]. intros u Hu. rewrite lookup_delete_None. auto.
  - destruct (ac_tokens a !! t); [bnd H' z Hz|]; injection H' as <-; cbn [ac_set_tokens ac_legacy]; auto.
Qed.
Lemma ac_deposit_all_moves ts : forall a xs a', ac_deposit_all a ts xs = Some a' ->
  (forall u, ac_legacy a !! u = None -> ac_legacy a' !! u = None) /\ (forall t, 0 < beside t ts xs -> ac_legacy a' !! t = None).
Proof.
  induction ts as [|t ts IH]; intros a xs a' H.
  - cbn [ac_deposit_all] in H. injection H as <-. split; [auto|]. intros t Ht. rewrite beside_nil_l in Ht. lia.
  - destruct xs as [|x xs]; [discriminate H|]. cbn [ac_deposit_all] in H. apply bind_Some in H as (a1 & H1 & H).
    apply ac_deposit_moves in H1 as [A B]. apply IH in H as [C D]. split; [auto|].
    intros u Hu. rewrite beside_cons in Hu. destruct (String.eqb_spec t u) as [E|E]; [rewrite <- E; auto|auto].
Qed.

(** ** Redemption *)
Lemma backed_reach t w0 w : w_backed t w0 w -> w_reach w0 w.
Proof. induction 1; [constructor|econstructor; eauto]. Qed.

Lemma ex_remove_intro w0 w e a pid p s :
  w_start w0 -> records_sound w0 -> w_reach w0 w -> (forall t, t ∈ pl_tokens p -> standard t w0 w) ->
  ready w e a -> e_now e < 2 ^ 32 * 10 ^ 9 -> ex_pool (w_ex w) pid = Some p -> (forall t, t ∈ pl_tokens p -> ~ frozen w t) ->
  room_for (w_ex w) a (pl_tokens p) -> 0 < s <= free_shares (w_ex w) pid a ->
  (is_Some (ex_twap (w_ex w) !! pid) -> one_share p < pl_supply p -> leaves_enough p (one_share p)) ->
  leaves_enough p s ->
  exists c', ex_remove_liquidity (w_ex w) e pid s (repeat 0 (length (pl_tokens p))) = Some (c', worth p s).
Proof.
  intros H0 Hrec0 Hreach Hstd Hr HW Hp Hfr (acc & Hacc & Hroom) [Hs0 Hs] Hobs Hle.
  pose proof (w_reach_ok _ _ (w_start_ok _ H0) Hreach) as Hok. pose proof (C63_history _ _ (w_start_ok _ H0) Hrec0 Hreach) as Hrec.
  destruct Hr as (Ha & Hy & Hself & [Hn HW64] & Hrun). subst a.
  assert (Hex : forall t, t ∈ pl_tokens p -> pl_exact p t).
  { intros t Ht. apply Hstd in Ht as [_ Hx]. eapply Forall_lookup_1 in Hx; [exact Hx|]. exact Hp. }
  pose proof (ex_wf_pool _ _ _ _ (proj1 Hok) Hp) as Hwf. apply pl_reachable_wf in Hwf.
  pose proof (ex_wf_account _ _ _ _ (proj1 Hok) Hacc) as Hdj.
  assert (Hsh : s <= pl_share_of p (e_caller e)). { unfold free_shares, shares_at in Hs. rewrite Hp in Hs. lia. }
  pose proof (pl_wf_supply _ Hwf) as [_ Hsup]. specialize (Hsup (e_caller e)).
  destruct (ex_update_twap_intro w e pid p) as [c1 Hc1]; auto.
  destruct (pl_remove_intro p (e_caller e) s false) as [p' Hp']; auto; [lia|].
  pose proof (pl_remove_spec p (ex_rates (w_ex w)) (e_now e) _ _ _ _ _ Hwf Hp') as (Hst & _ & Hres & _ & _).
  pose proof (pl_step_same _ _ _ _ Hwf Hst) as (_ & Htok & _).
  destruct (ac_deposit_all_intro (pl_tokens p) acc (worth p s)) as (acc' & Hacc' & Hnear & Husage); auto.
  { now apply pl_wf_nodup. }
  { now apply worth_length. }
  { intros t Ht. destruct (Hstd t Ht) as [Hb Hx]. pose proof (C01_solvent_partial _ _ _ H0 Hb Hx) as Hsolv.
    destruct (w_backed_sound _ _ _ H0 Hb) as (_ & _ & Hh & _). pose proof (held_by_le (w_ex w) (e_caller e) t) as Hd.
    rewrite (held_by_account _ _ _ _ Hacc) in Hd. pose proof (pl_reserve_le _ _ _ t Hp). specialize (Hres t). unfold owed in Hsolv. lia. }
  unfold ex_remove_liquidity. rewrite one_yocto_intro by done. cbn [mbind option_bind]. rewrite running_intro by done. cbn [mbind option_bind].
  rewrite Hc1. cbn [mbind option_bind]. apply ex_update_twap_frame in Hc1 as (tw & ->).
  change (ex_pool (ex_set_twap (w_ex w) tw) pid) with (ex_pool (w_ex w) pid). rewrite Hp. cbn [mbind option_bind].
  change (ex_account (ex_set_twap (w_ex w) tw) (e_caller e)) with (ex_account (w_ex w) (e_caller e)). rewrite Hacc. cbn [mbind option_bind].
  assert (E : match ac_shadow acc !! pid with Some r => free ← sh_free r (pl_share_balance p (e_caller e)); ensure (s <=? free) | None => Some tt end = Some tt).
  { rewrite pl_share_balance_of. unfold free_shares, farm_at, burrow_at, shadow_at, shares_at in Hs. rewrite Hp, Hacc in Hs.
    destruct (ac_shadow acc !! pid) as [r|]; [|done]. cbn [default from_option Datatypes.id] in Hs. unfold sh_free.
    rewrite csub_intro by lia. cbn [mbind option_bind]. apply ensure_intro. now apply N.leb_le. }
  rewrite E. cbn [mbind option_bind]. rewrite no_frozen_intro by exact Hfr. cbn [mbind option_bind]. rewrite Hp'. cbn [mbind option_bind].
  rewrite Htok, Hacc'. cbn [mbind option_bind]. rewrite ex_save_intro by (rewrite Hnear; lia). cbn [mbind option_bind]. eauto.
Qed.
