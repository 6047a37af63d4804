(** * Pool operations of every kind: effect on reserves and shares *)
From Verif Require Import Base BaseLemmas SimplePool SimplePoolProofs SpecSimple SimplePoolInv SimpleFacts
  StableMath StablePool SpecStable StableMathProofs StablePoolProofs StablePoolInv Rates Account Pool Exchange SpecExchange AccountProofs.

Definition pl_wf (p : Pool) : Prop := match p with PSimple q => sp_wf q | PStable q => st_wf q end.
(** One operation of the pool's own model. *)
Definition pl_step (rs : RateState) (now : N) (p p' : Pool) : Prop :=
  match p, p' with
  | PSimple q, PSimple q' => exists o, sp_exec q o = Some q'
  | PStable q, PStable q' => exists o, st_exec q (pl_env rs now q) o = Some q'
  | _, _ => False
  end.
Definition pl_decimals (p : Pool) : list N := match p with PSimple _ => [] | PStable q => st_decimals q end.
(** What never changes in a pool. *)
Definition pl_same (p p' : Pool) : Prop :=
  pl_kind p' = pl_kind p /\ pl_tokens p' = pl_tokens p /\ pl_decimals p' = pl_decimals p.
Lemma pl_same_refl p : pl_same p p.
Proof. done. Qed.
Lemma pl_same_trans p q r : pl_same p q -> pl_same q r -> pl_same p r.
Proof. intros (? & ? & ?) (? & ? & ?). unfold pl_same. split_and!; congruence. Qed.

Lemma pe_now_pl rs now q : pe_now (pl_env rs now q) = now.
Proof. unfold pl_env, rs_pool_env. now destruct (st_kind q). Qed.

Lemma pl_reachable_wf now p : pl_reachable now p -> pl_wf p.
Proof. destruct p; cbn; [apply sp_reachable_wf|]. intros (n & _ & H). eapply st_reachable_wf; eauto. Qed.
Lemma pl_reachable_mono now now' p : now <= now' -> pl_reachable now p -> pl_reachable now' p.
Proof. intros Hle. destruct p; cbn; [done|]. intros (n & Hn & H). exists n. split; [lia|done]. Qed.
Lemma pl_step_reachable rs now now' p p' :
  pl_reachable now p -> now <= now' -> now' < 2 ^ 64 -> pl_step rs now' p p' -> pl_reachable now' p'.
Proof.
  intros Hr Hle HW Hs. destruct p as [q|q], p' as [q'|q']; cbn in *; try done.
  - destruct Hs as [o Ho]. eapply sp_reach_step; eauto.
  - destruct Hs as [o Ho], Hr as (n & Hn & Hr). exists now'. split; [lia|].
    rewrite <- (pe_now_pl rs now' q) at 1. eapply st_reach_step; rewrite ?pe_now_pl; eauto; rewrite ?pe_now_pl; lia.
Qed.
Lemma pl_step_wf rs now p p' : pl_wf p -> pl_step rs now p p' -> pl_wf p'.
Proof.
  destruct p, p'; cbn; try done; intros Hwf [o Ho]; [eapply sp_exec_wf|eapply st_exec_wf]; eauto.
Qed.
Lemma pl_step_same rs now p p' : pl_wf p -> pl_step rs now p p' -> pl_same p p'.
Proof.
  unfold pl_same. destruct p, p'; cbn [pl_step pl_kind pl_tokens pl_decimals pl_wf]; try done; intros Hwf [o Ho].
  - split_and!; auto. eapply sp_exec_tokens; eauto.
  - apply st_exec_frame in Ho as (-> & -> & -> & _). done.
Qed.
Lemma pl_wf_nodup p : pl_wf p -> NoDup (pl_tokens p).
Proof. destruct p; cbn; intros H; apply H. Qed.
Lemma pl_same_exact p p' t : pl_same p p' -> pl_exact p' t -> pl_exact p t.
Proof.
  destruct p, p'; intros (Hk & Ht & Hd); cbn in *; try done. unfold st_dec. injection Hk as <-. now rewrite Ht, Hd.
Qed.
Lemma pl_reserve_notin p t : t ∉ pl_tokens p -> pl_reserve p t = 0.
Proof.
  destruct p; cbn; intros H.
  - unfold sp_reserve. fold (beside t (sp_tokens p) (sp_amounts p)). now apply beside_notin_l.
  - now apply st_reserve_notin.
Qed.
Lemma pl_share_balance_of p a : pl_share_balance p a = pl_share_of p a.
Proof. destruct p; done. Qed.

(** ** Swaps *)
Lemma sp_trade_shares p f r e h :
  shares_get (sp_shares p) h <=
  shares_get (credit (match referral_info f with Some (rid, _) => credit (sp_shares p) rid r | None => sp_shares p end)
                (exchange_id f) e) h.
Proof.
  rewrite shares_get_credit. destruct (referral_info f) as [[rid ?]|]; [rewrite shares_get_credit|]; lia.
Qed.
Lemma pl_swap_spec p rs now ti a to mn f p' out :
  pl_wf p -> pl_swap p rs now ti a to mn f false = Some (p', out) ->
  pl_step rs now p p' /\ ti <> to /\ mn <= out /\ ti ∈ pl_tokens p /\ to ∈ pl_tokens p /\
  (forall t, pl_reserve p' t + only to t out <= pl_reserve p t + only ti t a) /\
  (is_simple p -> forall t, pl_reserve p' t + only to t out = pl_reserve p t + only ti t a) /\
  (forall h, pl_share_of p h <= pl_share_of p' h).
Proof.
  intros Hwf H. destruct p as [q|q]; cbn [pl_swap pl_wf] in *; apply bind_Some in H as ([q' o] & H & He);
    injection He as <- <-; cbn [pl_step pl_tokens pl_reserve is_simple pl_share_of].
  - pose proof (swap_reserves _ _ _ _ _ _ _ _ _ Hwf H) as (Hne & Hmn & _ & H1 & H2 & _ & H3 & _ & _ & H4 & _).
    assert (Heq : forall t, sp_reserve q' t + only to t o = sp_reserve q t + only ti t a).
    { intros t. unfold only. destruct (String.eqb_spec to t) as [E1|E1], (String.eqb_spec ti t) as [E2|E2]; try congruence; try (subst t; lia).
      rewrite H4 by congruence. lia. }
    split; [exists (SwapOp ti a to mn f); cbn [sp_exec]; now rewrite H|].
    apply sp_swap_inv in H as (_ & _ & i & j & x & y & Hi & Hj & Hij & _ & _ & _ & _ & _ & _ & _ & H).
    apply sp_update_inv in H as (? & ? & r & e & _ & _ & _ & _ & -> & _); [|done].
    split_and!; eauto using elem_of_list_lookup_2, position_lookup.
    + intros t. rewrite Heq. lia.
    + intros h. unfold sp_share_of. cbn [sp_shares]. apply sp_trade_shares.
  - pose proof (st_swap_reserve _ _ _ _ _ _ _ _ _ Hwf H) as (H1 & H2 & H3).
    split; [exists (StSwap ti a to mn f); cbn [st_exec]; now rewrite H|].
    apply st_swap_inv in H as (ix & iy & rates & r & x & y & di & do_ & cin & m & s2 & adm & Hne & Hixy & Hti & Hto & _ & _ & _ & _
      & _ & _ & _ & _ & _ & Hmn & _ & _ & _ & _ & -> & _ & _ & Hsh & _).
    split_and!; eauto using elem_of_list_lookup_2; try done.
    + intros t. unfold only. destruct (String.eqb_spec to t) as [E1|E1], (String.eqb_spec ti t) as [E2|E2]; try congruence; try (subst t; lia).
      rewrite H3 by congruence. lia.
Qed.
Lemma pl_swap_by_output_spec p rs now ti b to mx f p' ain :
  pl_wf p -> pl_swap_by_output p ti b to mx f false = Some (p', ain) ->
  pl_step rs now p p' /\ ti <> to /\ (forall m, mx = Some m -> ain <= m) /\ ti ∈ pl_tokens p /\ to ∈ pl_tokens p /\ is_simple p /\
  (forall t, pl_reserve p' t + only to t b = pl_reserve p t + only ti t ain) /\
  (forall h, pl_share_of p h <= pl_share_of p' h).
Proof.
  intros Hwf H. destruct p as [q|q]; cbn [pl_swap_by_output pl_wf] in *; [|done]. apply bind_Some in H as ([q' o] & H & He);
    injection He as <- <-; cbn [pl_step pl_tokens pl_reserve is_simple pl_share_of].
  pose proof (swap_by_output_reserves _ _ _ _ _ _ _ _ _ Hwf H) as (Hne & Hmx & _ & H1 & H2 & _ & H3 & _ & _ & H4 & _).
  split; [exists (SwapByOutputOp ti b to mx f); cbn [sp_exec]; now rewrite H|].
  apply sp_swap_by_output_inv in H as (_ & _ & i & j & x & y & Hi & Hj & Hij & _ & _ & _ & _ & _ & _ & _ & _ & H).
  apply sp_update_inv in H as (? & ? & r & e & _ & _ & _ & _ & -> & _); [|done].
  split_and!; eauto using elem_of_list_lookup_2, position_lookup.
  - intros t. unfold only. destruct (String.eqb_spec to t) as [E1|E1], (String.eqb_spec ti t) as [E2|E2]; try congruence; try (subst t; lia).
    rewrite H4 by congruence. lia.
  - intros h. unfold sp_share_of. cbn [sp_shares]. apply sp_trade_shares.
Qed.

(** ** Liquidity *)
Lemma sp_reserve_two p t x y A B :
  sp_tokens p = [A; B] -> sp_amounts p = [x; y] -> sp_reserve p t = beside t [A; B] [x; y].
Proof. intros HT HA. unfold sp_reserve, beside. now rewrite HT, HA. Qed.
Lemma beside_two t A B x y : beside t [A; B] [x; y] = if String.eqb A t then x else if String.eqb B t then y else 0.
Proof. unfold beside. cbn [lookup_beside]. destruct (String.eqb A t); [done|]. now destruct (String.eqb B t). Qed.
Lemma pl_add_spec p rs now s am p' taken sh :
  pl_wf p -> pl_add_liquidity p s am false = Some (p', taken, sh) ->
  pl_step rs now p p' /\ is_simple p /\ 0 < sh /\
  (forall t, pl_reserve p' t = pl_reserve p t + beside t (pl_tokens p) taken) /\
  Forall2 (fun got offered => got <= offered) taken am /\ length taken = length (pl_tokens p) /\
  (forall h, pl_share_of p' h = pl_share_of p h + only s h sh).
Proof.
  intros Hwf H. destruct p as [q|q]; cbn [pl_add_liquidity pl_wf] in *; [|done].
  apply bind_Some in H as ([[q' tk] s'] & H & He). injection He as <- <- <-. cbn [pl_step pl_tokens pl_reserve is_simple pl_share_of].
  split; [exists (AddOp s am); cbn [sp_exec]; now rewrite H|].
  pose proof Hwf as (Hnd & Hlen & _).
  destruct (sp_tokens q) as [|A [|B [|]]] eqn:HT; try done.
  destruct (sp_add_inv _ _ _ _ _ _ _ Hwf H) as (x & y & a & b & Hxy & -> & Ha & Hb & Hsh & HS &
    ta & tb & -> & Hta & Htb & -> & Hc).
  split_and!; auto.
  - intros t. rewrite (sp_reserve_two q t x y A B) by done. erewrite sp_reserve_two; [|cbn [sp_tokens]; exact HT|reflexivity].
    rewrite !beside_two. destruct (String.eqb A t); [done|]. destruct (String.eqb B t); done.
  - destruct Hc as [(_ & -> & -> & _)|(HS0 & Hx & Hy & Hsh' & -> & ->)]; [repeat constructor; lia|].
    repeat constructor; apply taken_le_offer; lia.
  - intros h. unfold sp_share_of. cbn [sp_shares]. change (default 0 (?m !! ?k)) with (shares_get m k).
    rewrite shares_get_credit. done.
Qed.
Lemma pl_add_stable_spec p rs now s am mn f p' sh :
  pl_wf p -> pl_add_stable_liquidity p rs now s am mn f false = Some (p', sh) ->
  pl_step rs now p p' /\ ~ is_simple p /\ mn <= sh /\ length am = length (pl_tokens p) /\
  (forall t, pl_reserve p' t <= pl_reserve p t + beside t (pl_tokens p) am) /\
  (forall t, pl_exact p t -> pl_reserve p' t = pl_reserve p t + beside t (pl_tokens p) am) /\
  (forall h, pl_share_of p h <= pl_share_of p' h).
Proof.
  intros Hwf H. destruct p as [q|q]; cbn [pl_add_stable_liquidity pl_wf] in *; [done|].
  apply bind_Some in H as ([q' s'] & H & He). injection He as <- <-. cbn [pl_step pl_tokens pl_reserve is_simple pl_share_of pl_exact].
  split; [exists (StAdd s am mn f); cbn [st_exec]; now rewrite H|].
  assert (Hres : forall t, st_reserve q' t <= st_reserve q t + beside t (st_tokens q) am /\
    (st_dec q t <= kept_decimals (st_kind q) -> st_reserve q' t = st_reserve q t + beside t (st_tokens q) am)).
  { intros t. eapply st_add_reserve; eauto. }
  apply st_add_inv in H as (rates & cam & c' & fee & m & s2 & Hlen & _ & _ & Hmn & _ & _ & -> & _ & _ & _ & Hsh & _).
  split_and!; auto; try apply Hres; try done.
Qed.
Lemma pl_remove_spec p rs now s sh mins p' out :
  pl_wf p -> pl_remove_liquidity p s sh mins false = Some (p', out) ->
  pl_step rs now p p' /\ sh <= pl_share_of p s /\
  (forall t, pl_reserve p' t + beside t (pl_tokens p) out <= pl_reserve p t) /\
  (is_simple p -> forall t, pl_reserve p' t + beside t (pl_tokens p) out = pl_reserve p t) /\
  (forall h, pl_share_of p' h + only s h sh = pl_share_of p h).
Proof.
  intros Hwf H. destruct p as [q|q]; cbn [pl_remove_liquidity pl_wf] in *; apply bind_Some in H as ([q' o] & H & He);
    injection He as <- <-; cbn [pl_step pl_tokens pl_reserve is_simple pl_share_of].
  - split; [exists (RemoveOp s sh mins); cbn [sp_exec]; now rewrite H|].
    pose proof Hwf as (Hnd & Hlen & _).
    destruct (sp_tokens q) as [|A [|B [|]]] eqn:HT; try done.
    destruct (sp_remove_inv _ _ _ _ _ _ _ Hwf H) as (x & y & m1 & m2 & Hxy & -> & HS & Hx & Hy & -> &
      _ & _ & Hsh & Hlx & Hly & (b & Hb & Hsb) & ->).
    assert (Heq : forall t, sp_reserve (mkSimplePool (sp_tokens q) [x - x * sh / sp_supply q; y - y * sh / sp_supply q]
      (sp_fee q) (<[s:=sp_share_balance_of q s - sh]> (sp_shares q)) (sp_supply q - sh)) t
      + beside t [A; B] [x * sh / sp_supply q; y * sh / sp_supply q] = sp_reserve q t).
    { intros t. rewrite (sp_reserve_two q t x y A B) by done. erewrite sp_reserve_two; [|cbn [sp_tokens]; exact HT|reflexivity].
      rewrite !beside_two. destruct (String.eqb A t); [lia|]. destruct (String.eqb B t); lia. }
    assert (Hs : sp_share_of q s = b) by (unfold sp_share_of; now rewrite Hb).
    split_and!; auto; [lia|intros t; rewrite Heq; lia|].
    intros h. unfold sp_share_of. cbn [sp_shares]. unfold only. destruct (String.eqb_spec s h) as [<-|].
    + rewrite lookup_insert, Hb. unfold sp_share_balance_of. rewrite (shares_get_Some _ _ _ Hb). cbn [default from_option Datatypes.id]. lia.
    + rewrite lookup_insert_ne by done. lia.
  - split; [exists (StRemoveShares s sh mins); cbn [st_exec]; now rewrite H|].
    assert (Hres : forall t, st_reserve q' t + beside t (st_tokens q) o <= st_reserve q t).
    { intros t. eapply st_remove_shares_reserve; eauto. }
    apply st_remove_shares_inv in H as (c' & m & Hlen & Hred & Hle & -> & prev & Hprev & Hsh & Hms & Hm1 & Hm2).
    assert (Hs : st_share_of q s = prev) by (unfold st_share_of; now rewrite Hprev).
    split_and!; auto; [lia|done|].
    intros h. unfold st_share_of, st_set_supply, st_set_shares, st_set_c. cbn [st_shares]. unfold only.
    destruct (String.eqb_spec s h) as [<-|].
    + rewrite Hm1, Hprev. cbn [default from_option Datatypes.id]. lia.
    + rewrite Hm2 by done. lia.
Qed.
Lemma pl_remove_tokens_spec p rs now s am mx f p' burn :
  pl_wf p -> pl_remove_by_tokens p rs now s am mx f false = Some (p', burn) ->
  pl_step rs now p p' /\ burn <= mx /\ burn <= pl_share_of p s /\ length am = length (pl_tokens p) /\
  (forall t, pl_exact p t -> pl_reserve p' t + beside t (pl_tokens p) am <= pl_reserve p t) /\
  (forall h, pl_share_of p h <= pl_share_of p' h + only s h burn) /\
  (forall t, pl_reserve p' t + beside t (pl_tokens p) am <= pl_reserve p t + pl_rounding p am t).
Proof.
  intros Hwf H. destruct p as [q|q]; cbn [pl_remove_by_tokens pl_wf] in *; [done|].
  apply bind_Some in H as ([q' s'] & H & He). injection He as <- <-. cbn [pl_step pl_tokens pl_reserve is_simple pl_share_of pl_exact].
  split; [exists (StRemoveTokens s am mx f); cbn [st_exec]; now rewrite H|].
  assert (Hres : forall t, st_reserve q' t + beside t (st_tokens q) am <= st_reserve q t + pl_rounding (PStable q) am t).
  { intros t. eapply st_remove_tokens_reserve; eauto. }
  apply st_remove_tokens_inv in H as (rates & cam & c' & fee & m & s2 & Hlen & Hcam & Hc' & _ & _ & _ & _ & Hb & ->
    & Hs2 & (prev & Hprev & Hbp & Hbm & Hms & Hoth & Hown) & HW).
  assert (Hs : st_share_of q s = prev) by (unfold st_share_of; now rewrite Hprev).
  split_and!; auto; [lia|intros t Ht; specialize (Hres t); cbn [pl_rounding] in Hres;
    rewrite (proj2 (N.sub_0_le _ _) Ht) in Hres; change (10 ^ 0) with 1 in Hres; rewrite N.mod_1_r in Hres; lia|].
  intros h. unfold st_share_of, st_set_supply, st_set_shares, st_set_c. cbn [st_shares]. fold (shares_get m h) (shares_get (st_shares q) h).
  unfold only. destruct (String.eqb_spec s h) as [<-|]; [done|]. specialize (Hoth h). rewrite N.add_0_r. apply Hoth. done.
Qed.

(** ** Operations that leave the reserves alone *)
Lemma st_reserve_frame q q' t :
  st_kind q' = st_kind q -> st_tokens q' = st_tokens q -> st_decimals q' = st_decimals q -> st_c q' = st_c q ->
  st_reserve q' t = st_reserve q t.
Proof. intros H1 H2 H3 H4. unfold st_reserve, st_dec, st_kept. now rewrite H1, H2, H3, H4. Qed.
Lemma pl_transfer_spec p rs now s r a p' :
  s <> r -> pl_share_transfer p s r a = Some p' ->
  pl_step rs now p p' /\ a <= pl_share_of p s /\
  (forall t, pl_reserve p' t = pl_reserve p t) /\
  (forall h, pl_share_of p' h + only s h a = pl_share_of p h + only r h a) /\ pl_supply p' = pl_supply p.
Proof.
  intros Hne H. destruct p as [q|q]; cbn [pl_share_transfer] in H; apply fmap_Some in H as (q' & H & ->);
    cbn [pl_step pl_reserve pl_share_of].
  - split; [exists (TransferOp s r a); done|].
    apply sp_transfer_inv in H as (b & bo & Hb & Hab & Hr & _ & ->).
    assert (Hs : sp_share_of q s = b) by (unfold sp_share_of; now rewrite Hb).
    rewrite lookup_insert_ne in Hr by done.
    split_and!; [lia|done| |done].
    intros h. unfold sp_share_of, sp_set_shares, only. cbn [sp_shares].
    destruct (String.eqb_spec s h) as [E1|E1], (String.eqb_spec r h) as [E2|E2]; try congruence; try subst h.
    + rewrite lookup_insert_ne, lookup_insert, Hb by done. cbn [default from_option Datatypes.id]. lia.
    + rewrite lookup_insert, Hr. cbn [default from_option Datatypes.id]. lia.
    + now rewrite !lookup_insert_ne by done.
  - split; [exists (StTransfer s r a); done|].
    apply st_transfer_inv in H as (b & bo & Hb & Hab & Hr & _ & ->).
    assert (Hs : st_share_of q s = b) by (unfold st_share_of; now rewrite Hb).
    rewrite lookup_insert_ne in Hr by done.
    split_and!; [lia|done| |done].
    intros h. unfold st_share_of, st_set_shares, only. cbn [st_shares].
    destruct (String.eqb_spec s h) as [E1|E1], (String.eqb_spec r h) as [E2|E2]; try congruence; try subst h.
    + rewrite lookup_insert_ne, lookup_insert, Hb by done. cbn [default from_option Datatypes.id]. lia.
    + rewrite lookup_insert, Hr. cbn [default from_option Datatypes.id]. lia.
    + now rewrite !lookup_insert_ne by done.
Qed.
(** A transfer to oneself is possible with donation_share called by the exchange itself only. *)
Lemma pl_register_spec p rs now a p' :
  pl_share_register p a = Some p' ->
  pl_step rs now p p' /\ (forall t, pl_reserve p' t = pl_reserve p t) /\ (forall h, pl_share_of p' h = pl_share_of p h).
Proof.
  intros H. destruct p as [q|q]; cbn [pl_share_register] in H; apply fmap_Some in H as (q' & H & ->);
    cbn [pl_step pl_reserve pl_share_of].
  - split; [exists (RegisterOp a); done|]. unfold sp_share_register, sp_share_has_registered in H.
    apply bind_Some in H as ([] & Hx & H). apply ensure_Some in Hx. bool_inv. apply eq_None_not_Some in Hx. injection H as <-.
    split; [done|]. intros h. unfold sp_share_of, sp_set_shares. cbn [sp_shares].
    destruct (decide (h = a)) as [->|]; [now rewrite lookup_insert, Hx|now rewrite lookup_insert_ne by congruence].
  - split; [exists (StRegister a); done|]. apply st_register_inv in H as [Hx ->].
    split; [done|]. intros h. unfold st_share_of, st_set_shares. cbn [st_shares].
    destruct (decide (h = a)) as [->|]; [now rewrite lookup_insert, Hx|now rewrite lookup_insert_ne by congruence].
Qed.
Lemma pl_unregister_spec p rs now a p' :
  pl_share_unregister p a = Some p' ->
  pl_step rs now p p' /\ pl_share_of p a = 0 /\ (forall t, pl_reserve p' t = pl_reserve p t) /\ (forall h, pl_share_of p' h = pl_share_of p h).
Proof.
  intros H. destruct p as [q|q]; cbn [pl_share_unregister] in H; apply fmap_Some in H as (q' & H & ->);
    cbn [pl_step pl_reserve pl_share_of].
  - split; [exists (UnregisterOp a); done|]. unfold sp_share_unregister in H.
    apply bind_Some in H as (z & Hx & H). apply bind_Some in H as ([] & Hz & H). apply ensure_Some, N.eqb_eq in Hz. subst z. injection H as <-.
    split; [unfold sp_share_of; now rewrite Hx|].
    split; [done|]. intros h. unfold sp_share_of, sp_set_shares. cbn [sp_shares].
    destruct (decide (h = a)) as [->|]; [now rewrite lookup_delete, Hx|now rewrite lookup_delete_ne by congruence].
  - split; [exists (StUnregister a); done|]. apply st_unregister_inv in H as [Hx ->].
    split; [unfold st_share_of; now rewrite Hx|].
    split; [done|]. intros h. unfold st_share_of, st_set_shares. cbn [st_shares].
    destruct (decide (h = a)) as [->|]; [now rewrite lookup_delete, Hx|now rewrite lookup_delete_ne by congruence].
Qed.
Lemma pl_fee_spec p rs now fee :
  fee < FEE_DIVISOR ->
  pl_step rs now p (pl_modify_total_fee p fee) /\ (forall t, pl_reserve (pl_modify_total_fee p fee) t = pl_reserve p t) /\
  (forall h, pl_share_of (pl_modify_total_fee p fee) h = pl_share_of p h).
Proof.
  intros Hf. apply N.ltb_lt in Hf. destruct p as [q|q]; cbn [pl_modify_total_fee pl_step pl_reserve pl_share_of].
  - split; [exists (SetFeeOp fee); cbn [sp_exec]; now rewrite Hf|done].
  - split; [exists (StSetFee fee); cbn [st_exec]; now rewrite Hf|done].
Qed.
Lemma pl_ramp_spec p rs now amp time p' :
  pl_ramp p rs now amp time = Some p' ->
  pl_step rs now p p' /\ (forall t, pl_reserve p' t = pl_reserve p t) /\ (forall h, pl_share_of p' h = pl_share_of p h).
Proof.
  intros H. destruct p as [q|q]; cbn [pl_ramp] in H; [done|]. apply fmap_Some in H as (q' & H & ->).
  cbn [pl_step pl_reserve pl_share_of]. split; [exists (StRamp amp time); done|].
  apply st_ramp_inv in H as (? & ? & _ & _ & _ & _ & _ & _ & _ & _ & ->). done.
Qed.
Lemma pl_stop_ramp_spec p rs now p' :
  pl_stop_ramp p rs now = Some p' ->
  pl_step rs now p p' /\ (forall t, pl_reserve p' t = pl_reserve p t) /\ (forall h, pl_share_of p' h = pl_share_of p h).
Proof.
  intros H. destruct p as [q|q]; cbn [pl_stop_ramp] in H; [done|]. apply fmap_Some in H as (q' & H & ->).
  cbn [pl_step pl_reserve pl_share_of]. split; [exists StStopRamp; done|].
  apply st_stop_inv in H as (? & ? & _ & _ & ->). done.
Qed.
