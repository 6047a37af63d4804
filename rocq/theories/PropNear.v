(** * C70: NEAR is conserved *)
From Verif Require Import PropSimple PropStable.
From Verif Require Import Base BaseLemmas SimplePool SimplePoolProofs SpecSimple SimplePoolInv StableMath StablePool
  SpecStable StablePoolProofs StablePoolInv Rates Echo Twap Account Pool Exchange SpecExchange AccountProofs PoolFacts
  ExchangeProofs ExchangeInv ExchangeEffect ExchangeFrames SpecWorld WorldProofs ExExample PropWorld SpecSwap SpecHistory HistoryProofs
  SpecAccess AccessProofs SpecNear.

(** ** The NEAR of an account *)
Ltac near_tac H :=
  repeat match type of H with
  | mbind _ _ = Some _ => let y := fresh "y" in let Hy := fresh "Hy" in apply bind_Some in H as (y & Hy & H)
  | (if ?b then _ else _) = Some _ => destruct b
  | (match ?b with Some _ => _ | None => _ end) = Some _ => destruct b
  end; injection H as <-; reflexivity.
Lemma deposit_near a t x a' : ac_deposit a t x = Some a' -> ac_near a' = ac_near a.
Proof. unfold ac_deposit. intros H. near_tac H. Qed.
Lemma withdraw_near a t x a' : ac_withdraw a t x = Some a' -> ac_near a' = ac_near a.
Proof. unfold ac_withdraw. intros H. near_tac H. Qed.
Lemma unregister_near a t a' : ac_unregister a t = Some a' -> ac_near a' = ac_near a.
Proof. unfold ac_unregister. intros H. near_tac H. Qed.
Lemma shadow_near a pid act x a' : ac_update_shadow a pid act x = Some a' -> ac_near a' = ac_near a.
Proof. unfold ac_update_shadow. intros H. near_tac H. Qed.
Lemma deposit_all_near ts : forall a xs a', ac_deposit_all a ts xs = Some a' -> ac_near a' = ac_near a.
Proof.
  induction ts as [|t ts IH]; intros a [|x xs] a' H; cbn [ac_deposit_all] in H; try discriminate H; try (injection H as <-; done).
  bnd H b Hb. apply IH in H. apply deposit_near in Hb. congruence.
Qed.
Lemma withdraw_all_near ts : forall a xs a', ac_withdraw_all a ts xs = Some a' -> ac_near a' = ac_near a.
Proof.
  induction ts as [|t ts IH]; intros a [|x xs] a' H; cbn [ac_withdraw_all] in H; try discriminate H; try (injection H as <-; done).
  bnd H b Hb. apply IH in H. apply withdraw_near in Hb. congruence.
Qed.
Lemma unregister_all_near ts : forall a a', ac_unregister_all a ts = Some a' -> ac_near a' = ac_near a.
Proof.
  induction ts as [|t ts IH]; intros a a' H; cbn [ac_unregister_all] in H; [injection H as <-; done|].
  bnd H b Hb. apply IH in H. apply unregister_near in Hb. congruence.
Qed.
Lemma register_near ts : forall a, ac_near (ac_register a ts) = ac_near a.
Proof. induction ts as [|t ts IH]; intros a; cbn [ac_register]; [done|]. rewrite IH. now destruct (ac_get_balance a t). Qed.
Lemma deposit_list_near l : forall a a', ac_deposit_list a l = Some a' -> ac_near a' = ac_near a.
Proof.
  induction l as [|[t x] l IH]; intros a a' H; cbn [ac_deposit_list] in H; [injection H as <-; done|].
  bnd H b Hb. apply IH in H. apply deposit_near in Hb. congruence.
Qed.
Lemma va_take_near l : forall a v a' v', va_take a v l = Some (a', v') -> ac_near a' = ac_near a.
Proof.
  induction l as [|[t x] l IH]; intros a v a' v' H; cbn [va_take] in H; [injection H as <- _; done|].
  bnd H b Hb. bnd H d Hd. apply IH in H. apply withdraw_near in Hb. congruence.
Qed.
Lemma exec_action_near c e acc r a prev c' acc' x : ex_exec_action c e acc r a prev = Some (c', acc', x) -> ac_near acc' = ac_near acc.
Proof.
  unfold ex_exec_action. intros H. destruct a; bnd H z Hz.
  - bnd H b Hb. bnd H q Hq. destruct q as [c1 out]. bnd H d Hd. injection H as _ <- _. apply withdraw_near in Hb. apply deposit_near in Hd. congruence.
  - bnd H q Hq. destruct q as [c1 out]. injection H as _ <- _. done.
Qed.
Lemma swap_loop_near e r l : forall c acc prev c' acc' x, ex_swap_loop c e acc r l prev = Some (c', acc', x) -> ac_near acc' = ac_near acc.
Proof.
  induction l as [|a l IH]; intros c acc prev c' acc' x H; cbn [ex_swap_loop] in H; [injection H as _ <- _; done|].
  bnd H q Hq. destruct q as [[c1 b] y]. apply exec_action_near in Hq. apply IH in H. congruence.
Qed.
Lemma finalize_near acc pi prev acc' : ex_finalize acc pi prev = Some acc' -> ac_near acc' = ac_near acc.
Proof. unfold ex_finalize. intros H. destruct pi; [bnd H x Hx; now apply withdraw_near in H|now injection H as <-]. Qed.
Lemma output_loop_near e r l : forall c acc pi prev c' acc' x, ex_output_loop c e acc r l pi prev = Some (c', acc', x) -> ac_near acc' = ac_near acc.
Proof.
  induction l as [|a l IH]; intros c acc pi prev c' acc' x H; cbn [ex_output_loop] in H.
  - bnd H b Hb. injection H as _ <- _. now apply finalize_near in Hb.
  - bnd H b Hb. bnd H q Hq. destruct q as [[c1 d] y]. apply exec_action_near in Hq. apply IH in H.
    assert (Eb : ac_near b = ac_near acc); [|congruence].
    destruct a as [|pid ti am to mx]; [discriminate Hb|]. destruct am as [x0|].
    + bnd Hb f Hf. apply finalize_near in Hf. apply deposit_near in Hb. congruence.
    + bnd Hb t Ht. grd Hb. now injection Hb as <-.
Qed.
Lemma execute_near c e acc r l prev skip c' acc' res : ex_execute c e acc r l prev skip = Some (c', acc', res) -> ac_near acc' = ac_near acc.
Proof.
  unfold ex_execute. intros H. grd H. grd H. bnd H a0 Ha0. bnd H q Hq. destruct q as [[c1 acc1] x]. bnd H u Hu. injection H as _ <- _.
  destruct (is_swap a0); [now apply swap_loop_near in Hq|now apply output_loop_near in Hq].
Qed.

(** ** The total *)
Definition near_at (c : Exchange) (a : AccountId) : N := match ex_account c a with Some acc => ac_near acc | None => 0 end.
Lemma near_at_account c a acc : ex_account c a = Some acc -> near_at c a = ac_near acc.
Proof. unfold near_at. now intros ->. Qed.
Lemma total_near_ext c c' : ex_accounts c' = ex_accounts c -> total_near c' = total_near c.
Proof. unfold total_near. now intros ->. Qed.
Lemma near_at_ext c c' a : ex_accounts c' = ex_accounts c -> near_at c' a = near_at c a.
Proof. unfold near_at, ex_account. now intros ->. Qed.
Lemma total_near_put c a acc : total_near (ex_put c a acc) + near_at c a = total_near c + ac_near acc.
Proof.
  unfold total_near, near_at, ex_account. cbn [ex_put ex_set_accounts ex_accounts].
  pose proof (msum_insert (fun (_ : AccountId) v => near_of v) (ex_accounts c) a (VACurrent acc)) as H. unfold contrib in H.
  destruct (ex_accounts c !! a) as [v|]; cbn [fmap option_fmap option_map]; unfold near_of in *; change (into_current (VACurrent acc)) with acc in H; lia.
Qed.
Lemma total_near_delete c a : total_near (ex_set_accounts c (delete a (ex_accounts c))) + near_at c a = total_near c.
Proof.
  unfold total_near, near_at, ex_account. cbn [ex_set_accounts ex_accounts].
  pose proof (msum_delete_gen (fun (_ : AccountId) v => near_of v) (ex_accounts c) a) as H. unfold contrib in H.
  destruct (ex_accounts c !! a) as [v|]; cbn [fmap option_fmap option_map]; unfold near_of in *; lia.
Qed.
Lemma near_at_le c a : near_at c a <= total_near c.
Proof. pose proof (total_near_delete c a). lia. Qed.
(** Saving an account with the same NEAR changes nothing. *)
Lemma total_near_same c c1 a acc acc' : ex_accounts c1 = ex_accounts c -> ex_account c a = Some acc -> ac_near acc' = ac_near acc ->
  total_near (ex_put c1 a acc') = total_near c.
Proof.
  intros Hc Ha Hn. pose proof (total_near_put c1 a acc') as H. rewrite (near_at_ext c c1) in H by done. rewrite (near_at_account _ _ _ Ha) in H.
  rewrite (total_near_ext c c1) in H by done. lia.
Qed.
Lemma near_sent_app l l' : near_sent (l ++ l') = near_sent l + near_sent l'.
Proof. unfold near_sent. rewrite fmap_app. induction l as [|p l IH]; [done|]. cbn [fmap list_fmap app lsum]. rewrite IH. lia. Qed.
Lemma near_sent_send c a t x s : near_sent [ex_send c a t x s] = 0.
Proof. unfold ex_send. destruct (_ && _); reflexivity. Qed.
Lemma near_sent_refund a x : near_sent (refund_to a x) = x.
Proof. unfold refund_to. destruct (N.ltb_spec 0 x); unfold near_sent; cbn [fmap list_fmap lsum]; lia. Qed.
Lemma check_storage_near e ps : check_storage e = Some ps -> near_sent ps + e_grow e = e_attached e.
Proof.
  unfold check_storage. intros H. bnd H r Hr. apply csub_Some in Hr as [-> Hle]. injection H as <-.
  change (near_sent (refund_to (e_caller e) (e_attached e - e_grow e)) + e_grow e = e_attached e). rewrite near_sent_refund. lia.
Qed.

(** ** Calls *)
(** The equation of C70 with [f] for what is given back. *)
Definition balanced (c c' : Exchange) (ps : list Promise) (kept att freed : N) : Prop :=
  total_near c' + near_sent ps + kept = total_near c + att + freed.
Lemma balanced_quiet c c' ps att : total_near c' = total_near c -> near_sent ps = 0 -> balanced c c' ps att att 0.
Proof. unfold balanced. lia. Qed.
Lemma settings_sent c e x c' ps : is_settings x = true -> ex_call c e x = Some (c', ps) -> near_sent ps = 0.
Proof.
  intros Hs H. destruct x; try discriminate Hs; clear Hs; cbn [ex_call] in H; try (apply quiet_inv in H as [H ->]; reflexivity).
  apply ex_retrieve_inv in H as (_ & _ & -> & ->). reflexivity.
Qed.
Lemma liq_sent (b : bool) a pid x : near_sent (if b then [PRemoveShadow a pid x] else []) = 0.
Proof. destruct b; reflexivity. Qed.
Lemma donate_share_near c e pid am unreg c' ps : ex_donate_share c e pid am unreg = Some (c', ps) ->
  balanced c c' ps (e_attached e) (e_attached e) (e_freed e).
Proof.
  unfold ex_donate_share. intros H. grd H. grd H. bnd H p Hp. cbv zeta in H. grd H. bnd H p1 Hp1. bnd H p2 Hp2. unfold balanced.
  destruct (N.ltb_spec 0 (e_freed e)) as [L|L].
  - destruct (ex_account (ex_put_pool c pid p2) (e_caller e)) as [acc|] eqn:Ea.
    + bnd H near Hn. apply cadd_Some in Hn as [-> _]. bnd H c2 Hc2. injection H as <- <-. apply ex_save_inv in Hc2 as [_ ->].
      pose proof (total_near_put (ex_put_pool c pid p2) (e_caller e) (ac_set_near acc (ac_near acc + e_freed e))) as T.
      rewrite (near_at_account _ _ _ Ea), (total_near_ext c (ex_put_pool c pid p2)) in T by reflexivity.
      change (near_sent []) with 0. cbn [ac_near ac_set_near] in T. lia.
    + injection H as <- <-. rewrite (total_near_ext c) by reflexivity. unfold near_sent. cbn [fmap list_fmap lsum]. lia.
  - injection H as <- <-. rewrite (total_near_ext c) by reflexivity. change (near_sent []) with 0. lia.
Qed.
Lemma near_put2 c a acc acc' b bcc bcc' : ex_account c a = Some acc -> ac_near acc' = ac_near acc ->
  ex_account (ex_put c a acc') b = Some bcc -> ac_near bcc' = ac_near bcc -> total_near (ex_put (ex_put c a acc') b bcc') = total_near c.
Proof.
  intros H1 H2 H3 H4. erewrite (total_near_same (ex_put c a acc')); [|reflexivity|eassumption|done].
  eapply total_near_same; [reflexivity|eassumption|done].
Qed.
Lemma near_more c a x : total_near (ex_put c a (ac_set_near (ex_account_or_new c a) (ac_near (ex_account_or_new c a) + x))) = total_near c + x.
Proof.
  pose proof (total_near_put c a (ac_set_near (ex_account_or_new c a) (ac_near (ex_account_or_new c a) + x))) as T.
  change (ac_near (ac_set_near (ex_account_or_new c a) (ac_near (ex_account_or_new c a) + x))) with (ac_near (ex_account_or_new c a) + x) in T.
  unfold near_at in T. unfold ex_account_or_new in *. destruct (ex_account c a) as [acc|]; cbn [from_option Datatypes.id] in *; [lia|]. change (ac_near ac_new) with 0 in *. lia.
Qed.
Lemma near_liq c vic va va2 x pid p' liq la la' ps k : ex_account c vic = Some va -> ac_near va2 = ac_near va ->
  ex_account (ex_put c vic (ac_set_near va2 (ac_near va2 + x))) liq = Some la -> ac_near la' = ac_near la -> near_sent ps = 0 ->
  balanced c (ex_put (ex_put_pool (ex_put c vic (ac_set_near va2 (ac_near va2 + x))) pid p') liq la') ps k k x.
Proof.
  intros H1 H2 H3 H4 H5. unfold balanced. rewrite H5. set (c1 := ex_put c vic (ac_set_near va2 (ac_near va2 + x))) in *.
  rewrite (total_near_same c1 (ex_put_pool c1 pid p') liq la la') by auto.
  pose proof (total_near_put c vic (ac_set_near va2 (ac_near va2 + x))) as T. fold c1 in T. rewrite (near_at_account _ _ _ H1) in T.
  change (ac_near (ac_set_near va2 (ac_near va2 + x))) with (ac_near va2 + x) in T. lia.
Qed.
Ltac nears :=
  repeat match goal with
  | H : (if ?b then _ else Some _) = Some _ |- _ => destruct b; [|injection H as <-]
  | H : ac_deposit _ _ _ = Some _ |- _ => apply deposit_near in H
  | H : ac_withdraw _ _ _ = Some _ |- _ => apply withdraw_near in H
  | H : ac_deposit_all _ _ _ = Some _ |- _ => apply deposit_all_near in H
  | H : ac_withdraw_all _ _ _ = Some _ |- _ => apply withdraw_all_near in H
  | H : ac_unregister _ _ = Some _ |- _ => apply unregister_near in H
  | H : ac_unregister_all _ _ = Some _ |- _ => apply unregister_all_near in H
  | H : ac_deposit_list _ _ = Some _ |- _ => apply deposit_list_near in H
  | H : va_take _ _ _ = Some _ |- _ => apply va_take_near in H
  | H : ac_update_shadow _ _ _ _ = Some _ |- _ => apply shadow_near in H
  | H : ex_execute _ _ _ _ _ _ _ = Some _ |- _ =>
      lazymatch goal with _ : pool_frame _ _ |- _ => fail | _ => pose proof (execute_near _ _ _ _ _ _ _ _ _ _ H); pose proof (ex_execute_frame _ _ _ _ _ _ _ _ _ _ H) end
  end.
(** C70. NEAR is conserved by every call: what the accounts are credited afterwards, what is sent away and what the exchange keeps
    is what the accounts were credited before, what was attached and what freed storage had cost. *)
Theorem C70_call c e x c' ps : ex_call c e x = Some (c', ps) ->
  total_near c' + near_sent ps + kept e x = total_near c + e_attached e + (if releases x then e_freed e else 0).
Proof.
  intros H. change (balanced c c' ps (kept e x) (e_attached e) (if releases x then e_freed e else 0)).
  destruct (is_settings x) eqn:Es.
  { pose proof (settings_sent _ _ _ _ _ Es H) as Hn. apply settings_call in H as [(_ & _ & Ha & _) _]; [|done].
    destruct x; try discriminate Es; apply balanced_quiet; auto using total_near_ext. }
  assert (Hd : (exists pid am u, x = CDonateShare pid am u) \/ forall pid am u, x <> CDonateShare pid am u)
    by (destruct x; first [left; eauto; fail|right; discriminate]).
  destruct Hd as [(pid & am & u & ->)|Hd]; [now apply donate_share_near in H|].
  call_cases x Es H; cbn [kept charges releases]; try (exfalso; eapply Hd; reflexivity); clear Hd.
  all: try (apply balanced_quiet; reflexivity).
  all: nears.
  all: try (apply balanced_quiet; [eapply total_near_same; [reflexivity|eassumption|congruence]|first [reflexivity|apply near_sent_send]]; fail).
  all: try (match goal with Hs : check_storage _ = Some _ |- balanced _ _ _ (e_grow _) _ _ => apply check_storage_near in Hs end;
    unfold balanced; rewrite (total_near_ext c) by reflexivity; lia).
  1-4: match goal with F : pool_frame _ _ |- _ => destruct F as (_ & _ & Ha & _) end; apply balanced_quiet; [eapply total_near_same; [exact Ha|eassumption|congruence]|reflexivity].
  1-2: match goal with Hs : check_storage _ = Some _ |- _ => apply check_storage_near in Hs end;
    unfold balanced; rewrite (total_near_ext (ex_put (ex_set_twap c tw) (e_caller e) acc')) by reflexivity;
    (erewrite (total_near_same c (ex_set_twap c tw)); [lia|reflexivity|eassumption|congruence]).
  - apply balanced_quiet; [|reflexivity]. eapply total_near_same; [reflexivity|eassumption|apply register_near].
  - apply balanced_quiet; [now apply total_near_ext|apply near_sent_send].
  - unfold balanced. change (total_near c + near_sent (refund_to (e_caller e) (e_freed e)) + e_attached e = total_near c + e_attached e + e_freed e).
    rewrite near_sent_refund. lia.
  - apply balanced_quiet; [|reflexivity]. eapply near_put2; eauto. rewrite ex_account_put. destruct (String.eqb_spec (e_caller e) receiver); done.
  - apply balanced_quiet; [|reflexivity]. eapply near_put2; eauto. rewrite ex_account_put. destruct (String.eqb_spec (e_caller e) receiver); done.
  - apply balanced_quiet; [|reflexivity]. eapply near_put2; eauto; congruence.
  - apply balanced_quiet; [|reflexivity]. eapply near_put2; eauto; congruence.
  - match goal with Hs : check_storage _ = Some _ |- _ => apply check_storage_near in Hs end.
    unfold balanced. rewrite near_sent_app. change (near_sent [PShadow act (e_caller e) pid x (e_grow e)]) with 0.
    erewrite (total_near_same c c); [|reflexivity|eassumption|done]. replace (kept e (CShadow act pid amount)) with (e_grow e); [lia|]. now destruct act.
  - unfold balanced. change (near_sent [PShadow act (e_caller e) pid x 0]) with 0.
    replace (kept e (CShadow act pid amount)) with (e_attached e); [lia|]. now destruct act.
  - eapply near_liq; eauto; congruence.
  - eapply near_liq; eauto; congruence.
  - unfold balanced. rewrite near_sent_refund. lia.
  - unfold balanced. rewrite near_sent_refund. rewrite near_more. lia.
  - unfold balanced. rewrite near_more. change (near_sent []) with 0. lia.
  - unfold balanced. pose proof (total_near_put c (e_caller e) (ac_set_near acc (ac_near acc - y))) as T.
    erewrite near_at_account in T by eassumption. change (ac_near (ac_set_near acc (ac_near acc - y))) with (ac_near acc - y) in T.
    unfold near_sent. cbn [fmap list_fmap lsum]. lia.
  - unfold balanced. pose proof (total_near_delete c (e_caller e)) as T. erewrite near_at_account in T by eassumption.
    unfold near_sent. cbn [fmap list_fmap lsum]. lia.
Qed.
(** Only swaps and the removal of shadows keep more than one yocto or the price of storage. *)
Lemma owner_yocto c e u : owner_call c e = Some u -> e_attached e = 1.
Proof. destruct u. now intros [H _]%owner_call_inv. Qed.
Lemma guard_yocto c e u : guard_call c e = Some u -> e_attached e = 1.
Proof. destruct u. now intros [H _]%guard_call_inv. Qed.
Theorem C70_kept c e x c' ps : ex_call c e x = Some (c', ps) -> swallows x = false ->
  kept e x <= (if charges x then N.min (e_grow e) (e_attached e) else 1).
Proof.
  intros H Hs. unfold kept. destruct (charges x) eqn:Ec.
  - apply N.min_glb; [done|]. destruct x; try discriminate Ec; cbn [ex_call] in H; try (apply keep2_inv in H as (?res & H)); call_inv H.
    all: try (match goal with Hc : check_storage _ = Some _ |- _ => apply check_storage_near in Hc end; lia).
    destruct act; discriminate.
  - destruct x; try discriminate Ec; try discriminate Hs; try (destruct act; discriminate); clear Ec; cbn [ex_call] in H.
    all: try lia.
    all: try (apply quiet_inv in H as [H ->]); try (apply quiet2_inv in H as (?res & H & ->)); try (apply keep2_inv in H as (?res & H)); open_call H.
    all: try (bnd H u Hu; first [apply owner_yocto in Hu|apply guard_yocto in Hu|destruct u; apply one_yocto_inv in Hu]; lia).
    all: try (call_inv H; lia).
    + bnd H u Hu. unfold not_payable in Hu. apply ensure_Some, N.eqb_eq in Hu. lia.
    + bnd H u Hu. destruct (rate_admin_owner_only a); [apply owner_yocto in Hu|apply guard_yocto in Hu]; lia.
Qed.

(** ** Histories *)
Lemma check_deposit_near a t x a' b : ac_deposit_with_storage_check a t x = Some (a', b) -> ac_near a' = ac_near a.
Proof.
  unfold ac_deposit_with_storage_check. intros H. destruct (ac_tokens a !! t); [bnd H z Hz; injection H as <- _; reflexivity|].
  destruct (ac_legacy a !! t); [bnd H z Hz; injection H as <- _; reflexivity|]. cbv zeta in H. destruct (_ <=? _); injection H as <- _; reflexivity.
Qed.
Lemma recredit_near c e s t x c' : recredit c e s t x c' -> total_near c' = total_near c.
Proof.
  intros H. destruct H as [acc acc' Hacc Hd|m Hd Hsp Hm|acc Hd Hsp Hdep].
  - apply check_deposit_near in Hd. eapply total_near_same; [reflexivity|eassumption|done].
  - now apply total_near_ext.
  - apply deposit_near in Hdep. pose proof (total_near_put c (cf_owner (ex_cfg c)) acc) as T. rewrite Hdep in T. unfold near_at, ex_account_or_new in T.
    destruct (ex_account c (cf_owner (ex_cfg c))); cbn [from_option Datatypes.id] in T; [lia|]. change (ac_near ac_new) with 0 in T. lia.
Qed.
Lemma mft_transfer_near c id s r am c' x : ex_mft_transfer c id s r am = Some (c', x) -> total_near c' = total_near c.
Proof.
  intros H. apply ex_mft_transfer_inv in H as (Hne & _ & H). destruct (mft_pool_of id).
  - destruct H as (p & p' & _ & _ & _ & _ & ->). now apply total_near_ext.
  - destruct H as (sa & sa' & ra & ra' & H1 & H2 & H3 & H4 & _ & _ & ->). nears. eapply near_put2; eauto.
    rewrite ex_account_put. destruct (String.eqb_spec s r); done.
Qed.
(** What incoming tokens do to the NEAR of the accounts: a hot zap pays for the storage it takes. *)
Theorem C70_transfer c e s x m c' ps : ex_ft_on_transfer c e s x m = Some (c', ps) ->
  near_sent ps = 0 /\ total_near c' + match m with MsgHotZap _ _ _ _ => e_grow e | _ => 0 end = total_near c.
Proof.
  unfold ex_ft_on_transfer. intros H. cbv zeta in H. grd H. grd H. destruct m as [|r l echo su rc skip|r l infos skip].
  - grd H. bnd H c1 H1. injection H as <- <-. split; [done|]. apply ex_deposit_inv in H1 as (acc & acc' & H1 & _ & H2 & _ & ->). nears.
    rewrite N.add_0_r. eapply total_near_same; [reflexivity|eassumption|done].
  - grd H. grd H. bnd H u Hu. bnd H d Hd. destruct d as [c1 outs]. grd H. injection H as <- <-. apply ex_direct_frame in Hd as (_ & _ & A & _).
    split; [|rewrite N.add_0_r; now apply total_near_ext]. clear. induction outs as [|o outs IH]; [done|]. rewrite fmap_cons.
    match goal with |- near_sent (?a :: ?b) = 0 => change (near_sent (a :: b)) with (near_sent ([a] ++ b)) end. rewrite near_sent_app.
    replace (near_sent [_]) with 0; [exact IH|]. destruct echo; [done|]. now rewrite near_sent_send.
  - bnd H c1 H1. injection H as <- <-. split; [done|].
    apply ex_hot_zap_inv in H1 as (acc & ts & c2 & outs & m & c3 & m' & acc' & _ & _ & Hacc & _ & _ & _ & Hd & _ & Hz & Hle & Hl & _ & ->).
    apply ex_direct_frame in Hd as (_ & _ & A & _). apply ex_zap_loop_frame in Hz as (_ & _ & B & _). nears.
    pose proof (total_near_put c3 s acc') as T. rewrite Hl in T. cbn [ac_near ac_set_near] in T.
    rewrite (near_at_ext c c3), (total_near_ext c c3), (near_at_account _ _ _ Hacc) in T by congruence. lia.
Qed.
(** The callback of the stake contracts: a removal credits the price of freed storage, a refused stake returns what was charged. *)
Theorem C70_shadow_callback c e act s pid x fee ok c' ps : ex_callback_shadow c e act s pid x fee ok = Some (c', ps) ->
  near_sent ps = (if negb ok && is_cast act then fee else 0) /\
  total_near c' = total_near c + (if ok && negb (is_cast act) then e_freed e else 0).
Proof.
  intros H. apply ex_callback_shadow_inv in H as [(-> & Hc & -> & ->)|[(-> & Hc & -> & acc & acc1 & Hacc & Hu & _ & ->)|(-> & acc & acc1 & Hacc & Hu & _ & -> & ->)]].
  - rewrite Hc. split; [done|]. cbn. lia.
  - rewrite Hc. split; [done|]. cbn [negb andb]. apply shadow_near in Hu.
    pose proof (total_near_put c s (ac_set_near acc1 (ac_near acc1 + e_freed e))) as T. rewrite (near_at_account _ _ _ Hacc) in T.
    change (ac_near (ac_set_near acc1 (ac_near acc1 + e_freed e))) with (ac_near acc1 + e_freed e) in T. lia.
  - cbn [negb andb]. split.
    + destruct (is_cast act); [|done]. change (near_sent (refund_to s fee) = fee). apply near_sent_refund.
    + rewrite N.add_0_r. eapply total_near_same; [reflexivity|eassumption|]. destruct act; nears; congruence.
Qed.
Lemma step_near w ev w' : w_step w ev = Some w' -> refund_freed w ev ->
  total_near (w_ex w') + near_out w ev <= total_near (w_ex w) + near_in w ev.
Proof.
  intros H Hr. unfold w_step in H. cbv zeta in H. destruct ev; unfold near_out, near_in.
  - bnd H u Hu. bnd H u' Hu'. bnd H q Hq'. destruct q as [c' ps]. rewrite Hq'.
    injection H as <-. destruct (w_queue_ex w c' (w_hold w) (w_flights w) ps (e_now e)) as (-> & _ & _).
    apply C70_call in Hq'. unfold kept in Hq'. destruct (charges x); [lia|]. lia.
  - bnd H u Hu. injection H as <-. cbn [w_ex]. lia.
  - bnd H u Hu. bnd H f Hf. rewrite Hf. destruct f as [t s x msg| |]; try discriminate H.
    bnd H u' Hu'. destruct (ex_ft_on_transfer _ _ _ _ _) as [[c' ps]|] eqn:E.
    + injection H as <-. destruct (w_queue_ex w c' (w_hold w) (delete id (w_flights w)) ps (e_now e)) as (-> & _ & _).
      pose proof E as [_ T]%C70_transfer. destruct msg; try lia. rewrite E. lia.
    + injection H as <-. cbn [w_ex]. destruct msg; try lia. rewrite E. lia.
  - bnd H u Hu. injection H as <-. cbn [w_ex]. lia.
  - bnd H f Hf. destruct f as [|p|]; try discriminate H. destruct p; try discriminate H; bnd H u Hu; injection H as <-; cbn [w_ex]; lia.
  - bnd H u Hu. bnd H f Hf. rewrite Hf. destruct f as [| |p ok]; try discriminate H.
    destruct p; try discriminate H; injection H as <-; cbn [w_ex].
    + destruct (ex_callback_withdraw _ _ _ _ _ _) eqn:E; cbn [from_option Datatypes.id]; [|lia]. unfold ex_callback_withdraw in E. destruct ok; [injection E as <-; lia|].
      apply ex_handle_fail_inv, recredit_near in E. lia.
    + destruct (ex_callback_withdraw _ _ _ _ _ _) eqn:E; cbn [from_option Datatypes.id]; [|lia]. unfold ex_callback_withdraw in E. destruct ok; [injection E as <-; lia|].
      apply ex_handle_fail_inv, recredit_near in E. lia.
    + destruct (ex_callback_near _ _ _ _ _) as [[c' ps]|] eqn:E; cbn [from_option Datatypes.id fmap option_fmap option_map fst].
      * unfold ex_callback_near in E. destruct ok.
        -- injection E as <- <-. unfold near_sent. cbn [fmap list_fmap lsum]. lia.
        -- bnd E t Ht. bnd E c1 H1. injection E as <- <-. apply ex_handle_fail_inv, recredit_near in H1. change (near_sent []) with 0. lia.
      * lia.
  - bnd H u Hu. bnd H f Hf. destruct f as [|p|]; try discriminate H. destruct p; try discriminate H; injection H as <-; cbn [w_ex].
    destruct (ex_mft_resolve _ _ _ _ _ _) eqn:E; cbn [from_option Datatypes.id]; [|lia].
    apply ex_mft_resolve_inv in E as [[-> _]|(bal & _ & _ & _ & E)]; [lia|]. apply mft_transfer_near in E. lia.
  - bnd H u Hu. bnd H f Hf. unfold refund_freed in Hr. rewrite Hf in *. destruct f as [|p|]; try discriminate H.
    destruct p; try discriminate H; injection H as <-; cbn [w_ex].
    destruct (ex_callback_shadow _ _ _ _ _ _ _ _) as [[c' ps]|] eqn:E; cbn [from_option Datatypes.id fmap option_fmap option_map fst]; [|lia].
    apply C70_shadow_callback in E as [E1 E2]. rewrite E1, E2. destruct ok, (is_cast act); cbn [negb andb]; lia.
  - bnd H u Hu. bnd H c' Hc'. injection H as <-. cbn [w_ex]. unfold ex_oracle in Hc'. bnd Hc' r Hrr. injection Hc' as <-. rewrite (total_near_ext (w_ex w)) by reflexivity. lia.
  - bnd H u Hu. bnd H q Hq'. destruct q as [c' ps].
    injection H as <-. destruct (w_queue_ex w c' (w_hold w) (w_flights w) ps (e_now e)) as (-> & _ & _).
    pose proof Hq' as [_ T]%C70_transfer. destruct m; try lia. rewrite Hq'. lia.
  - injection H as <-. cbn [w_ex]. lia.
Qed.
(** C71. As long as the storage paid for a refused stake is freed again, the exchange has all NEAR credited to the accounts and never pays
    NEAR that it has not got. *)
Theorem C71_backed w0 h0 w h : near_ledger_fair w0 h0 w h -> total_near (w_ex w0) <= h0 ->
  total_near (w_ex w) <= h /\ forall ev w', refund_freed w ev -> w_step w ev = Some w' -> near_out w ev <= h + near_in w ev.
Proof.
  intros H H0.
  assert (Hb : total_near (w_ex w) <= h).
  { induction H as [|w h ev w' H IH Hr Hs]; [done|]. pose proof (step_near _ _ _ Hs Hr). lia. }
  split; [done|]. intros ev w' Hr Hs. pose proof (step_near _ _ _ Hs Hr). lia.
Qed.

(** ** Examples *)
(** Runs events together with the ledger. *)
Fixpoint near_run (w : World) (h : N) (l : list Event) : option (World * N) :=
  match l with [] => Some (w, h) | ev :: r => w' ← w_step w ev; near_run w' (h + near_in w ev - near_out w ev) r end.
Definition fair_ev (w : World) (ev : Event) : bool :=
  match ev with
  | EvShadowCallback id e false => match w_flights w !! id with Some (Leaving (PShadow _ _ _ _ fee)) => fee <=? e_freed e | _ => true end
  | _ => true
  end.
Fixpoint fair_run (w : World) (h : N) (l : list Event) : option (World * N) :=
  match l with [] => Some (w, h) | ev :: r => _ ← ensure (fair_ev w ev); w' ← w_step w ev; fair_run w' (h + near_in w ev - near_out w ev) r end.
Lemma fair_ev_fair w ev : fair_ev w ev = true -> refund_freed w ev.
Proof.
  unfold fair_ev, refund_freed. destruct ev; try done. destruct ok; try done. destruct (w_flights w !! id) as [[|[]|]|]; try done. intros H. now apply N.leb_le.
Qed.
Lemma fair_run_ledger w0 h0 l : forall w h w' h', near_ledger_fair w0 h0 w h -> fair_run w h l = Some (w', h') -> near_ledger_fair w0 h0 w' h'.
Proof.
  induction l as [|ev l IH]; intros w h w' h' Hr H; cbn [fair_run] in H; [injection H as <- <-; done|].
  grd H. bnd H w1 H1. eapply IH; [|exact H]. econstructor; eauto. now apply fair_ev_fair.
Qed.
Definition measured_ev (k : N) (w : World) (ev : Event) (w' : World) : bool :=
  match ev with
  | EvCall e (CShadow _ _ _) | EvShadowCallback _ e _ =>
      (e_grow e =? k * (records (w_ex w') - records (w_ex w))) && (e_freed e =? k * (records (w_ex w) - records (w_ex w')))
  | _ => true
  end.
Fixpoint measured_run (k : N) (w : World) (h : N) (l : list Event) : option (World * N) :=
  match l with
  | [] => Some (w, h)
  | ev :: r => w' ← w_step w ev; _ ← ensure (measured_ev k w ev w'); measured_run k w' (h + near_in w ev - near_out w ev) r
  end.
Lemma measured_ev_measured k w ev w' : measured_ev k w ev w' = true -> measured k w ev w'.
Proof.
  unfold measured_ev, measured. destruct ev; try done; [destruct x; try done|]; intros H; apply andb_true_iff in H as [A B]; apply N.eqb_eq in A, B; done.
Qed.
Lemma measured_run_ledger k w0 h0 l : forall w h w' h', near_ledger_measured k w0 h0 w h -> measured_run k w h l = Some (w', h') -> near_ledger_measured k w0 h0 w' h'.
Proof.
  induction l as [|ev l IH]; intros w h w' h' Hr H; cbn [measured_run] in H; [injection H as <- <-; done|].
  bnd H w1 H1. grd H. eapply IH; [|exact H]. econstructor; eauto. now apply measured_ev_measured.
Qed.

(** After a swap, a stake that is refused and one that is accepted and removed again, storage costing 70 per stake,
    bob takes half of their NEAR. *)
Definition stake_env (t : N) (near grow freed : N) : Env := mkEnv t "al" near grow freed true.
Definition near_events : list Event :=
  [ EvCall (env 120 "bo" 1) (CSwap [ASwap 0 "a" (Some 1000) "b" 0] None true);
    EvCall (stake_env 121 100 70 0) (CShadow ToFarming 0 (Some 1000));
    EvShadowCallback (w_next w_rich + 1) (mkEnv 122 "ref" 0 0 70 true) false;
    EvCall (stake_env 123 100 70 0) (CShadow ToBurrowland 0 (Some 2000));
    EvShadowCallback (w_next w_rich + 3) (mkEnv 124 "ref" 0 0 0 true) true;
    EvCall (stake_env 125 0 0 0) (CShadow FromBurrowland 0 None);
    EvShadowCallback (w_next w_rich + 4) (mkEnv 126 "ref" 0 0 70 true) true;
    EvCall (env 127 "bo" 1) (CStorageWithdraw (10 ^ 23)) ].
Definition all_events : list Event := ex_events ++ rich_events ++ near_events.
Definition w_near : World * N := default (w_fresh, 0) (fair_run w_fresh 0 all_events).
Example C71_ex : near_ledger_fair w_fresh 0 w_near.1 w_near.2 /\ total_near (w_ex w_near.1) = 3 * 10 ^ 24 - 10 ^ 23 + 70 /\
  near_at (w_ex w_near.1) "al" = 10 ^ 24 + 70 /\ w_near.2 = total_near (w_ex w_near.1) + 5 /\ records (w_ex w_near.1) = 0.
Proof.
  split; [|split_and!; vm_compute; reflexivity].
  eapply (fair_run_ledger _ _ all_events); [apply nf_start|]. apply (run_pair (w_fresh, 0)). vm_compute. reflexivity.
Qed.
(** The same history is one in which every stake record costs 70. *)
Definition w_meas : World * N := default (w_fresh, 0) (measured_run 70 w_fresh 0 all_events).
Example C71_ex_measured : near_ledger_measured 70 w_fresh 0 w_meas.1 w_meas.2 /\ w_meas.2 = w_near.2.
Proof.
  split; [|vm_compute; reflexivity]. eapply (measured_run_ledger _ _ _ all_events); [apply nm_start|]. apply (run_pair (w_fresh, 0)). vm_compute. reflexivity.
Qed.

(** Without that condition C71 fails although every record costs exactly 70: al stakes twice at once and pays for the record with the
    first stake; the first is refused and its price returned, although the record stays for the second; removing the
    second credits the price once more.  Al ends with 70 more than they paid, out of the NEAR of everybody else. *)
Definition race_events : list Event :=
  [ EvCall (stake_env 120 70 70 0) (CShadow ToBurrowland 0 (Some 1000));
    EvCall (stake_env 121 0 0 0) (CShadow ToFarming 0 (Some 2000));
    EvShadowCallback (w_next w_rich) (mkEnv 122 "ref" 0 0 0 true) false;
    EvShadowCallback (w_next w_rich + 1) (mkEnv 123 "ref" 0 0 0 true) true;
    EvCall (stake_env 124 0 0 0) (CShadow FromFarming 0 None);
    EvShadowCallback (w_next w_rich + 2) (mkEnv 125 "ref" 0 0 70 true) true ].
Definition w_race : World * N := default (w_fresh, 0) (measured_run 70 w_fresh 0 (ex_events ++ rich_events ++ race_events)).
Theorem C71_race_refuted : exists w h, near_ledger_measured 70 w_fresh 0 w h /\ total_near (w_ex w_fresh) = 0 /\
  near_at (w_ex w) "al" = 10 ^ 24 + 70 /\ records (w_ex w) = 0 /\ h < total_near (w_ex w).
Proof.
  exists w_race.1, w_race.2. split; [|split_and!; vm_compute; reflexivity].
  eapply (measured_run_ledger _ _ _ (ex_events ++ rich_events ++ race_events)); [apply nm_start|]. apply (run_pair (w_fresh, 0)). vm_compute. reflexivity.
Qed.
(** Swaps keep whatever is attached to them, although they need none of it. *)
Definition swap_all : option (Exchange * list Promise) :=
  ex_call (w_ex w_rich) (env 120 "bo" (10 ^ 25)) (CSwap [ASwap 0 "a" (Some 1000) "b" 0] None true).
Definition swap_fst : Exchange * list Promise := default (ex_fresh, []) swap_all.
Theorem C70_swap_refuted : exists w e x c' ps, w_reach w_fresh w /\ ex_call (w_ex w) e x = Some (c', ps) /\
  e_attached e = 10 ^ 25 /\ e_grow e = 0 /\ near_sent ps = 0 /\ total_near c' = total_near (w_ex w).
Proof.
  exists w_rich, (env 120 "bo" (10 ^ 25)), (CSwap [ASwap 0 "a" (Some 1000) "b" 0] None true), swap_fst.1, swap_fst.2.
  split; [|split; [|split_and!; vm_compute; reflexivity]].
  - eapply w_run_reach; [|apply w_rich_runs]. eapply w_run_reach; [apply w_reach_refl|apply w_live_runs].
  - change (swap_all = Some (swap_fst.1, swap_fst.2)). apply (run_pair (ex_fresh, []) swap_all). vm_compute. reflexivity.
Qed.
(** A stake with 100 attached keeps 70 for storage and returns 30; a claim of storage pays from the account. *)
Definition stake_all : option (Exchange * list Promise) := ex_call (w_ex w_rich) (stake_env 121 100 70 0) (CShadow ToFarming 0 (Some 1000)).
Example C70_ex : (near_sent ∘ snd <$> stake_all) = Some 30 /\ kept (stake_env 121 100 70 0) (CShadow ToFarming 0 (Some 1000)) = 70 /\
  (near_sent ∘ snd <$> ex_call (w_ex w_rich) (env 121 "bo" 1) (CStorageWithdraw 1000)) = Some 1000.
Proof. split_and!; vm_compute; reflexivity. Qed.
Print Assumptions C70_call.
Print Assumptions C70_kept.
Print Assumptions C70_transfer.
Print Assumptions C70_shadow_callback.
Print Assumptions C70_swap_refuted.
Print Assumptions C71_backed.
Print Assumptions C71_race_refuted.
