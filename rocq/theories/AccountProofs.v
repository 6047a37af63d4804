(** * Account operations: effect on balances *)
From Verif Require Import Base BaseLemmas SpecSimple SpecStable Account Exchange SpecExchange.

Lemma only_same t x : only t t x = x.
Proof. unfold only. now rewrite String.eqb_refl. Qed.
Lemma only_ne t u x : t <> u -> only t u x = 0.
Proof. intros H. unfold only. now apply String.eqb_neq in H as ->. Qed.
Lemma only_zero t u : only t u 0 = 0.
Proof. unfold only. now destruct (String.eqb t u). Qed.

Lemma ac_new_disjoint : ac_disjoint ac_new.
Proof. intros t x H. done. Qed.
Lemma ac_new_held t : ac_held ac_new t = 0.
Proof. done. Qed.

Lemma held_legacy a t x : ac_disjoint a -> ac_legacy a !! t = Some x -> ac_held a t = x.
Proof. intros Hd H. unfold ac_held, ac_get_balance. now rewrite (Hd _ _ H), H. Qed.
Lemma held_tokens a t x : ac_tokens a !! t = Some x -> ac_held a t = x.
Proof. intros H. unfold ac_held, ac_get_balance. now rewrite H. Qed.

(** Moving the entry of [t] to the new-style map with value [z]. *)
Definition ac_move (a : Account) (t : AccountId) (z : N) : Account :=
  mkAccount (ac_near a) (delete t (ac_legacy a)) (<[t := z]> (ac_tokens a)) (ac_shadow a).
Lemma ac_move_spec a t z :
  ac_disjoint a ->
  ac_disjoint (ac_move a t z) /\ ac_get_balance (ac_move a t z) t = Some z /\
  (forall u, u <> t -> ac_get_balance (ac_move a t z) u = ac_get_balance a u).
Proof.
  intros Hd. unfold ac_move. split_and!.
  - intros u x. cbn [ac_legacy ac_tokens]. intros H. apply lookup_delete_Some in H as [Hne H].
    rewrite lookup_insert_ne by done. eauto.
  - unfold ac_get_balance; cbn [ac_legacy ac_tokens]. now rewrite lookup_insert.
  - intros u Hne. unfold ac_get_balance; cbn [ac_legacy ac_tokens].
    rewrite lookup_insert_ne, lookup_delete_ne by done. done.
Qed.
Lemma ac_move_tokens a t z :
  ac_legacy a !! t = None -> ac_set_tokens a (<[t := z]> (ac_tokens a)) = ac_move a t z.
Proof. intros H. unfold ac_set_tokens, ac_move. rewrite delete_notin by done. done. Qed.

Lemma ac_move_held a t z u : ac_disjoint a -> ac_held (ac_move a t z) u = if String.eqb t u then z else ac_held a u.
Proof.
  intros Hd. destruct (ac_move_spec a t z Hd) as (_ & H1 & H2). unfold ac_held.
  destruct (String.eqb_spec t u) as [<-|Hne]; [now rewrite H1|]. rewrite H2; congruence.
Qed.

(** Facts shared by every change of balances. *)
Definition ac_frame (a a' : Account) : Prop :=
  ac_disjoint a' /\ ac_near a' = ac_near a /\ ac_shadow a' = ac_shadow a.
Lemma ac_frame_trans a b c : ac_frame a b -> ac_frame b c -> ac_frame a c.
Proof. intros (? & ? & ?) (? & ? & ?). unfold ac_frame; split_and!; first [done|congruence]. Qed.
Lemma ac_frame_refl a : ac_disjoint a -> ac_frame a a.
Proof. done. Qed.

Lemma ac_deposit_cases a t x a' :
  ac_deposit a t x = Some a' ->
  (x = 0 /\ a' = a) \/
  (0 < x /\ a' = ac_move a t (x + default 0 (match ac_legacy a !! t with Some y => Some y | None => ac_tokens a !! t end))).
Proof.
  unfold ac_deposit. destruct (N.ltb_spec 0 x) as [Hx|Hx]; [|intros [= <-]; left; split; [lia|done]].
  intros H. right. split; [done|]. destruct (ac_legacy a !! t) as [y|] eqn:El.
  - inv. subst. done.
  - destruct (ac_tokens a !! t) as [y|] eqn:Et; inv; subst; cbn [default from_option Datatypes.id].
    + now rewrite ac_move_tokens.
    + rewrite N.add_0_r. now rewrite ac_move_tokens.
Qed.

Lemma ac_deposit_spec a t x a' :
  ac_disjoint a -> ac_deposit a t x = Some a' ->
  ac_frame a a' /\ (forall u, ac_held a' u = ac_held a u + only t u x) /\
  (forall u, u <> t -> ac_get_balance a' u = ac_get_balance a u) /\
  (0 < x -> ac_get_balance a' t = Some (ac_held a t + x)).
Proof.
  intros Hd H. apply ac_deposit_cases in H as [[-> ->]|[Hx ->]].
  - split; [now apply ac_frame_refl|]. split; [intros u; rewrite only_zero; lia|]. split; [done|lia].
  - assert (Hh : default 0 (match ac_legacy a !! t with Some y => Some y | None => ac_tokens a !! t end) = ac_held a t).
    { unfold ac_held, ac_get_balance. destruct (ac_legacy a !! t) as [y|] eqn:El.
      - now rewrite (Hd _ _ El).
      - now destruct (ac_tokens a !! t). }
    rewrite Hh. destruct (ac_move_spec a t (x + ac_held a t) Hd) as (H1 & H2 & H3).
    split; [split; [exact H1|done]|]. split; [|split; [exact H3|intros _; rewrite H2; f_equal; lia]].
    intros u. rewrite ac_move_held by done. unfold only. destruct (String.eqb_spec t u) as [<-|]; lia.
Qed.

Lemma ac_withdraw_spec a t x a' :
  ac_disjoint a -> ac_withdraw a t x = Some a' ->
  ac_frame a a' /\ (forall u, ac_held a' u + only t u x = ac_held a u) /\
  (forall u, u <> t -> ac_get_balance a' u = ac_get_balance a u) /\
  (0 < x -> ac_get_balance a t = Some (ac_held a t) /\ ac_get_balance a' t = Some (ac_held a t - x)) /\
  x <= ac_held a t.
Proof.
  intros Hd. unfold ac_withdraw. destruct (N.ltb_spec 0 x) as [Hx|Hx].
  2: { assert (x = 0) as -> by lia. intros [= <-]. split; [now apply ac_frame_refl|].
       split; [intros u; rewrite only_zero; lia|]. split; [done|]. split; lia. }
  intros H.
  assert (exists y, ac_get_balance a t = Some y /\ x <= y /\ a' = ac_move a t (y - x)) as (y & Hy & Hle & ->).
  { unfold ac_get_balance. destruct (ac_legacy a !! t) as [y|] eqn:El.
    - apply bind_Some in H as (z & Hz & H). apply csub_Some in Hz as [-> Hle]. inv. subst.
      rewrite (Hd _ _ El). eauto.
    - apply bind_Some in H as (y & Hy & H). apply bind_Some in H as (z & Hz & H). apply csub_Some in Hz as [-> Hle].
      inv. subst. rewrite Hy. rewrite ac_move_tokens by done. eauto. }
  assert (Hh : ac_held a t = y) by (unfold ac_held; now rewrite Hy).
  destruct (ac_move_spec a t (y - x) Hd) as (H1 & H2 & H3).
  split; [split; [exact H1|done]|]. split; [|split; [exact H3|split; [intros _; rewrite Hh; auto|lia]]].
  intros u. rewrite ac_move_held by done. unfold only. destruct (String.eqb_spec t u) as [<-|]; lia.
Qed.

(** ** Lists of tokens *)
Lemma beside_nil_l u xs : beside u [] xs = 0.
Proof. done. Qed.
Lemma beside_cons u t ts x xs :
  beside u (t :: ts) (x :: xs) = if String.eqb t u then x else beside u ts xs.
Proof. unfold beside. cbn [lookup_beside]. now destruct (String.eqb t u). Qed.
Lemma beside_notin_l u ts xs : u ∉ ts -> beside u ts xs = 0.
Proof.
  revert xs; induction ts as [|t ts IH]; intros xs Hn; [done|]. destruct xs as [|x xs]; [done|].
  rewrite beside_cons. apply not_elem_of_cons in Hn as [Hne Hn].
  destruct (String.eqb_spec t u); [congruence|]. auto.
Qed.
Lemma beside_split u t ts x xs :
  NoDup (t :: ts) -> beside u (t :: ts) (x :: xs) = only t u x + beside u ts xs.
Proof.
  intros Hnd. apply NoDup_cons in Hnd as [Hn _]. rewrite beside_cons. unfold only.
  destruct (String.eqb_spec t u) as [<-|]; [|lia]. rewrite beside_notin_l by done. lia.
Qed.
Lemma amount_in_zip u ts xs : NoDup ts -> amount_in_list u (zip ts xs) = beside u ts xs.
Proof.
  revert xs; induction ts as [|t ts IH]; intros xs Hnd; [done|]. destruct xs as [|x xs]; [done|].
  rewrite beside_split by done. cbn [zip zip_with amount_in_list]. apply NoDup_cons in Hnd as [_ Hnd].
  now rewrite <- IH.
Qed.
Lemma amount_in_app u l1 l2 : amount_in_list u (l1 ++ l2) = amount_in_list u l1 + amount_in_list u l2.
Proof. induction l1 as [|[t x] l IH]; cbn [app amount_in_list]; [done|]. rewrite IH. lia. Qed.

Lemma ac_withdraw_all_spec a ts xs a' :
  ac_disjoint a -> NoDup ts -> ac_withdraw_all a ts xs = Some a' ->
  ac_frame a a' /\ (forall u, ac_held a' u + beside u ts xs = ac_held a u) /\
  (forall u, u ∉ ts -> ac_get_balance a' u = ac_get_balance a u).
Proof.
  revert a xs; induction ts as [|t ts IH]; intros a xs Hd Hnd H.
  - cbn [ac_withdraw_all] in H. injection H as <-. split; [now apply ac_frame_refl|]. split; [|done].
    intros u. unfold beside. cbn. lia.
  - destruct xs as [|x xs]; [done|]. cbn [ac_withdraw_all] in H. apply bind_Some in H as (a1 & H1 & H).
    apply ac_withdraw_spec in H1 as (Hf & Hh & Hg & _); [|done].
    pose proof Hnd as Hnd'. apply NoDup_cons in Hnd' as [_ Hnd'].
    apply IH in H as (Hf2 & Hh2 & Hg2); [|apply Hf|done].
    split; [eapply ac_frame_trans; eauto|]. split.
    + intros u. rewrite beside_split by done. specialize (Hh u). specialize (Hh2 u). lia.
    + intros u Hu. apply not_elem_of_cons in Hu as [Hu1 Hu2]. rewrite Hg2, Hg; auto.
Qed.
Lemma ac_deposit_all_spec a ts xs a' :
  ac_disjoint a -> NoDup ts -> ac_deposit_all a ts xs = Some a' ->
  ac_frame a a' /\ (forall u, ac_held a' u = ac_held a u + beside u ts xs) /\
  (forall u, u ∉ ts -> ac_get_balance a' u = ac_get_balance a u).
Proof.
  revert a xs; induction ts as [|t ts IH]; intros a xs Hd Hnd H.
  - cbn [ac_deposit_all] in H. injection H as <-. split; [now apply ac_frame_refl|]. split; [|done].
    intros u. unfold beside. cbn. lia.
  - destruct xs as [|x xs]; [done|]. cbn [ac_deposit_all] in H. apply bind_Some in H as (a1 & H1 & H).
    apply ac_deposit_spec in H1 as (Hf & Hh & Hg & _); [|done].
    pose proof Hnd as Hnd'. apply NoDup_cons in Hnd' as [_ Hnd'].
    apply IH in H as (Hf2 & Hh2 & Hg2); [|apply Hf|done].
    split; [eapply ac_frame_trans; eauto|]. split.
    + intros u. rewrite beside_split by done. specialize (Hh u). specialize (Hh2 u). lia.
    + intros u Hu. apply not_elem_of_cons in Hu as [Hu1 Hu2]. rewrite Hg2, Hg; auto.
Qed.
Lemma ac_deposit_list_spec a l a' :
  ac_disjoint a -> ac_deposit_list a l = Some a' ->
  ac_frame a a' /\ (forall u, ac_held a' u = ac_held a u + amount_in_list u l).
Proof.
  revert a; induction l as [|[t x] l IH]; intros a Hd H; cbn [ac_deposit_list amount_in_list] in *.
  - injection H as <-. split; [now apply ac_frame_refl|]. intros; lia.
  - apply bind_Some in H as (a1 & H1 & H). apply ac_deposit_spec in H1 as (Hf & Hh & _ & _); [|done].
    apply IH in H as (Hf2 & Hh2); [|apply Hf]. split; [eapply ac_frame_trans; eauto|].
    intros u. rewrite Hh2, Hh. lia.
Qed.
Lemma va_take_spec acc va l acc' va' :
  ac_disjoint acc -> ac_disjoint va -> va_take acc va l = Some (acc', va') ->
  ac_frame acc acc' /\ ac_frame va va' /\
  (forall u, ac_held acc' u + amount_in_list u l = ac_held acc u) /\
  (forall u, ac_held va' u = ac_held va u + amount_in_list u l).
Proof.
  revert acc va; induction l as [|[t x] l IH]; intros acc va Hd Hv H; cbn [va_take amount_in_list] in *.
  - injection H as <- <-. split_and!; try now apply ac_frame_refl. all: intros; lia.
  - apply bind_Some in H as (a1 & H1 & H). apply bind_Some in H as (v1 & H2 & H).
    apply ac_withdraw_spec in H1 as (Hf & Hh & _ & _); [|done].
    apply ac_deposit_spec in H2 as (Hf2 & Hh2 & _ & _); [|done].
    apply IH in H as (Hf3 & Hf4 & Hh3 & Hh4); [|apply Hf|apply Hf2].
    split_and!; try (eapply ac_frame_trans; eauto).
    + intros u. specialize (Hh u). specialize (Hh3 u). lia.
    + intros u. rewrite Hh4, Hh2. lia.
Qed.

(** The positive entries of a virtual account are all it holds. *)
Lemma amount_in_msum u (m : gmap AccountId N) l :
  l ≡ₚ map_to_list m -> amount_in_list u l = default 0 (m !! u).
Proof.
  revert l. induction m as [|t x m Hn IH] using map_ind; intros l Hl.
  - rewrite map_to_list_empty in Hl. apply Permutation_nil_r in Hl as ->. now rewrite lookup_empty.
  - rewrite map_to_list_insert in Hl by done.
    assert (Hp : forall l1 l2 : list (AccountId * N), l1 ≡ₚ l2 -> amount_in_list u l1 = amount_in_list u l2).
    { clear. induction 1 as [|[]| [] []|]; cbn [amount_in_list]; try lia; congruence. }
    rewrite (Hp _ _ Hl). cbn [amount_in_list]. rewrite (IH (map_to_list m)) by done.
    unfold only. destruct (String.eqb_spec t u) as [<-|Hne].
    + rewrite Hn, lookup_insert. cbn. lia.
    + now rewrite lookup_insert_ne by done.
Qed.
Lemma amount_in_filter u l : amount_in_list u (filter (fun x => (0 <? x.2) = true) l) = amount_in_list u l.
Proof.
  induction l as [|[t x] l IH]; [done|]. rewrite filter_cons. cbn [snd].
  destruct (decide ((0 <? x) = true)) as [H|H].
  - cbn [amount_in_list]. now rewrite IH.
  - cbn [amount_in_list]. rewrite IH. apply not_true_iff_false, N.ltb_ge in H.
    assert (x = 0) as -> by lia. rewrite only_zero. lia.
Qed.
Lemma va_out_amount acc u : amount_in_list u (va_out acc) = default 0 (ac_tokens acc !! u).
Proof. unfold va_out. rewrite amount_in_filter. now apply amount_in_msum. Qed.
Lemma va_out_held acc u : ac_legacy acc = ∅ -> amount_in_list u (va_out acc) = ac_held acc u.
Proof.
  intros H. rewrite va_out_amount. unfold ac_held, ac_get_balance. rewrite H, lookup_empty.
  now destruct (ac_tokens acc !! u).
Qed.

(** Legacy entries never appear by themselves. *)
Lemma ac_deposit_legacy a t x a' : ac_deposit a t x = Some a' -> ac_legacy a = ∅ -> ac_legacy a' = ∅.
Proof.
  intros H Hl. apply ac_deposit_cases in H as [[_ ->]|[_ ->]]; [done|]. unfold ac_move. cbn [ac_legacy].
  rewrite Hl. apply delete_empty.
Qed.
Lemma ac_withdraw_legacy a t x a' : ac_withdraw a t x = Some a' -> ac_legacy a = ∅ -> ac_legacy a' = ∅.
Proof.
  intros H Hl. unfold ac_withdraw in H. rewrite Hl, lookup_empty in H.
  destruct (0 <? x); inv; subst; done.
Qed.
Lemma va_take_legacy acc va l acc' va' : va_take acc va l = Some (acc', va') -> ac_legacy va = ∅ -> ac_legacy va' = ∅.
Proof.
  revert acc va; induction l as [|[t x] l IH]; intros acc va H Hl; cbn [va_take] in H; [now injection H as <- <-|].
  apply bind_Some in H as (a1 & H1 & H). apply bind_Some in H as (v1 & H2 & H). eapply IH; eauto using ac_deposit_legacy.
Qed.

(** ** Registering *)
Lemma ac_register_spec a ts :
  ac_disjoint a ->
  ac_frame a (ac_register a ts) /\ (forall u, ac_held (ac_register a ts) u = ac_held a u).
Proof.
  revert a; induction ts as [|t ts IH]; intros a Hd; cbn [ac_register]; [now split|].
  destruct (ac_get_balance a t) as [y|] eqn:E; [now apply IH|].
  assert (El : ac_legacy a !! t = None).
  { unfold ac_get_balance in E. destruct (ac_tokens a !! t); [done|]. done. }
  rewrite ac_move_tokens by done. destruct (ac_move_spec a t 0 Hd) as (H1 & _).
  destruct (IH _ H1) as (Hf & Hh). split.
  - eapply ac_frame_trans; [|exact Hf]. split; [exact H1|done].
  - intros u. rewrite Hh, ac_move_held by done. destruct (String.eqb_spec t u) as [<-|]; [|done].
    unfold ac_held. now rewrite E.
Qed.
Lemma ac_unregister_spec a t a' :
  ac_disjoint a -> ac_unregister a t = Some a' ->
  ac_frame a a' /\ ac_held a t = 0 /\ (forall u, ac_held a' u = ac_held a u) /\
  ac_get_balance a' t = None /\ (forall u, u <> t -> ac_get_balance a' u = ac_get_balance a u).
Proof.
  intros Hd H. unfold ac_unregister in H. apply bind_Some in H as ([] & H1 & H). apply bind_Some in H as ([] & H2 & H).
  apply ensure_Some, N.eqb_eq in H1. apply ensure_Some, N.eqb_eq in H2. injection H as <-.
  assert (Hz : ac_held a t = 0).
  { unfold ac_held, ac_get_balance. destruct (ac_tokens a !! t); [done|]. done. }
  set (a' := mkAccount _ _ _ _).
  assert (Hn : ac_get_balance a' t = None).
  { unfold ac_get_balance, a'; cbn [ac_legacy ac_tokens]. now rewrite !lookup_delete. }
  assert (Ho : forall u, u <> t -> ac_get_balance a' u = ac_get_balance a u).
  { intros u Hu. unfold ac_get_balance, a'; cbn [ac_legacy ac_tokens]. rewrite !lookup_delete_ne by done. done. }
  split_and!; auto; try done.
  - split; [|done]. intros u x. unfold a'; cbn [ac_legacy ac_tokens]. intros Hl. apply lookup_delete_Some in Hl as [Hne Hl].
    rewrite lookup_delete_ne by done. eauto.
  - intros u. destruct (decide (u = t)) as [->|Hu].
    + rewrite Hz. unfold ac_held. now rewrite Hn.
    + unfold ac_held. now rewrite Ho.
Qed.
Lemma ac_unregister_all_spec a ts a' :
  ac_disjoint a -> ac_unregister_all a ts = Some a' -> ac_frame a a' /\ (forall u, ac_held a' u = ac_held a u).
Proof.
  revert a; induction ts as [|t ts IH]; intros a Hd H; cbn [ac_unregister_all] in H; [injection H as <-; now split|].
  apply bind_Some in H as (a1 & H1 & H). apply ac_unregister_spec in H1 as (Hf & _ & Hh & _ & _); [|done].
  apply IH in H as (Hf2 & Hh2); [|apply Hf]. split; [eapply ac_frame_trans; eauto|]. intros u. now rewrite Hh2, Hh.
Qed.

(** ** The storage-checked deposit of the failure callback *)
Lemma ac_check_deposit_spec a t x a' ok :
  ac_disjoint a -> ac_deposit_with_storage_check a t x = Some (a', ok) ->
  if ok then ac_frame a a' /\ (forall u, ac_held a' u = ac_held a u + only t u x) /\ (ac_covered a -> ac_covered a')
  else a' = a.
Proof.
  intros Hd H. unfold ac_deposit_with_storage_check in H. destruct (ac_tokens a !! t) as [y|] eqn:Et.
  { apply bind_Some in H as (z & Hz & H). apply cadd_Some in Hz as [-> _]. injection H as <- <-.
    assert (El : ac_legacy a !! t = None) by (destruct (ac_legacy a !! t) eqn:E; [rewrite (Hd _ _ E) in Et; done|done]).
    rewrite ac_move_tokens by done. destruct (ac_move_spec a t (y + x) Hd) as (H1 & _).
    split_and!; [now split|..].
    - intros u. rewrite ac_move_held by done. unfold only. destruct (String.eqb_spec t u) as [<-|]; [|lia].
      now rewrite (held_tokens _ _ _ Et).
    - unfold ac_covered, ac_storage_usage, ac_move; cbn [ac_near ac_legacy ac_tokens].
      rewrite delete_notin by done. rewrite map_size_insert_Some by eauto. done. }
  destruct (ac_legacy a !! t) as [y|] eqn:El.
  { apply bind_Some in H as (z & Hz & H). apply cadd_Some in Hz as [-> _]. injection H as <- <-.
    split_and!; try done.
    - split; [|done]. intros u w. unfold ac_set_legacy; cbn [ac_legacy ac_tokens]. destruct (decide (u = t)) as [->|Hu]; [done|].
      rewrite lookup_insert_ne by done. eauto.
    - intros u. unfold ac_held, ac_get_balance, ac_set_legacy; cbn [ac_legacy ac_tokens]. unfold only.
      destruct (String.eqb_spec t u) as [<-|Hne].
      + rewrite Et, El, lookup_insert. cbn. lia.
      + rewrite lookup_insert_ne by done. lia.
    - unfold ac_covered, ac_storage_usage, ac_set_legacy; cbn [ac_near ac_legacy ac_tokens].
      rewrite map_size_insert_Some by eauto. done. }
  destruct (_ <=? _) eqn:Es; injection H as <- <-; [|done].
  apply N.leb_le in Es. rewrite ac_move_tokens in * by done. destruct (ac_move_spec a t x Hd) as (H1 & _).
  split_and!; [now split| |done].
  intros u. rewrite ac_move_held by done. unfold only. destruct (String.eqb_spec t u) as [<-|]; [|lia].
  unfold ac_held, ac_get_balance. rewrite Et, El. cbn. lia.
Qed.

(** ** Shadow records do not touch balances *)
Lemma ac_update_shadow_spec a pid act x a' :
  ac_update_shadow a pid act x = Some a' ->
  exists r, sh_update (default (mkShadow 0 0) (ac_shadow a !! pid)) act x = Some r /\
    default (mkShadow 0 0) (ac_shadow a' !! pid) = r /\
    (forall q, q <> pid -> ac_shadow a' !! q = ac_shadow a !! q) /\
    a' = ac_set_shadow a (ac_shadow a').
Proof.
  unfold ac_update_shadow. intros H. apply bind_Some in H as (r & Hr & H). injection H as <-.
  exists r. unfold ac_set_shadow; cbn [ac_near ac_legacy ac_tokens ac_shadow].
  split_and!; auto.
  - destruct ((sh_burrow r =? 0) && (sh_farm r =? 0)) eqn:E.
    + apply andb_true_iff in E as [E1 E2]. apply N.eqb_eq in E1, E2. rewrite lookup_delete. destruct r; cbn in *. now subst.
    + now rewrite lookup_insert.
  - intros q Hq. destruct (_ && _); [now rewrite lookup_delete_ne by congruence|now rewrite lookup_insert_ne by congruence].
Qed.
