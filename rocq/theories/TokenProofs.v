(** * The wrapped-NEAR contract: its books *)
From Verif Require Import Base BaseLemmas SimplePool SpecSimple StableMath StablePool SpecStable Rates Account Pool Exchange SpecExchange Token SpecWorld SpecToken ExchangeInv.

Lemma token_insert m s n a b v : token_of (mkToken (<[a := v]> m) s n) b = if String.eqb a b then v else token_of (mkToken m s n) b.
Proof.
  unfold token_of. cbn [tk_bal]. destruct (String.eqb_spec a b) as [->|Hne]; [now rewrite lookup_insert|now rewrite lookup_insert_ne].
Qed.
(** What one of the basic operations does: the books of accounts other than the named one stay. *)
Lemma tk_deposit_inv k a x k' : tk_deposit k a x = Some k' ->
  exists b, tk_bal k !! a = Some b /\ b + x < W128 /\ tk_supply k + x < W128 /\ k' = mkToken (<[a := b + x]> (tk_bal k)) (tk_supply k + x) (tk_near k).
Proof.
  unfold tk_deposit. intros H. bnd H b Hb. bnd H b' Hb'. apply cadd_Some in Hb' as [-> ?]. bnd H s' Hs'. apply cadd_Some in Hs' as [-> ?].
  injection H as <-. eauto 6.
Qed.
Lemma tk_withdraw_inv k a x k' : tk_withdraw k a x = Some k' ->
  exists b, tk_bal k !! a = Some b /\ x <= b /\ x <= tk_supply k /\ k' = mkToken (<[a := b - x]> (tk_bal k)) (tk_supply k - x) (tk_near k).
Proof.
  unfold tk_withdraw. intros H. bnd H b Hb. bnd H b' Hb'. apply csub_Some in Hb' as [-> ?]. bnd H s' Hs'. apply csub_Some in Hs' as [-> ?].
  injection H as <-. eauto 6.
Qed.
Lemma tk_transfer_inv k s r x k' : tk_transfer k s r x = Some k' ->
  exists bs br, s <> r /\ 0 < x /\ tk_bal k !! s = Some bs /\ tk_bal k !! r = Some br /\ x <= bs /\ x <= tk_supply k /\ br + x < W128 /\
    tk_supply k < W128 /\ k' = mkToken (<[r := br + x]> (<[s := bs - x]> (tk_bal k))) (tk_supply k) (tk_near k).
Proof.
  unfold tk_transfer. intros H. bnd H u Hu. apply ensure_Some in Hu. apply negb_true_iff, String.eqb_neq in Hu.
  bnd H u' Hu'. apply ensure_Some, N.ltb_lt in Hu'. bnd H k1 H1.
  apply tk_withdraw_inv in H1 as (bs & Hbs & A & B & ->). apply tk_deposit_inv in H as (br & Hbr & C & D & ->). cbn [tk_bal tk_supply tk_near] in *.
  rewrite lookup_insert_ne in Hbr by done. rewrite (N.sub_add x) in D |- * by exact B. exists bs, br. eauto 12.
Qed.
Lemma tk_ft_transfer_inv k s r x y k' : tk_ft_transfer k s r x y = Some k' -> y = 1 /\ tk_transfer (tk_attach k 1) s r x = Some k'.
Proof. unfold tk_ft_transfer. intros H. bnd H u Hu. apply ensure_Some, N.eqb_eq in Hu. now subst y. Qed.
Lemma tk_pay_inv k x k' : tk_pay k x = Some k' -> x <= tk_near k /\ k' = mkToken (tk_bal k) (tk_supply k) (tk_near k - x).
Proof. unfold tk_pay. intros H. bnd H n Hn. apply csub_Some in Hn as [-> ?]. injection H as <-. auto. Qed.
Lemma tk_register_inv k a k' : tk_register k a = Some k' -> tk_bal k !! a = None /\ k' = mkToken (<[a := 0]> (tk_bal k)) (tk_supply k) (tk_near k).
Proof. unfold tk_register. destruct (tk_bal k !! a); [done|]. intros H. injection H as <-. auto. Qed.

(** ** Transfers *)
Lemma transfer_effect k s r x y k' : tk_ft_transfer k s r x y = Some k' ->
  s <> r /\ 0 < x <= token_of k s /\ token_of k' s + x = token_of k s /\ token_of k' r = token_of k r + x /\
  (forall b, b <> s -> b <> r -> token_of k' b = token_of k b) /\ (forall b, is_Some (tk_bal k' !! b) <-> is_Some (tk_bal k !! b)) /\
  tk_supply k' = tk_supply k /\ tk_near k' = tk_near k + 1 /\ is_Some (tk_bal k !! s) /\ is_Some (tk_bal k !! r).
Proof.
  intros H. apply tk_ft_transfer_inv in H as [_ H]. apply tk_transfer_inv in H as (bs & br & Hne & Hx & Hs & Hr & A & B & C & D & ->).
  cbn [tk_attach tk_bal tk_supply tk_near] in *.
  assert (Es : token_of k s = bs) by (unfold token_of; now rewrite Hs). assert (Er : token_of k r = br) by (unfold token_of; now rewrite Hr).
  rewrite Es, Er. split; [exact Hne|]. split; [lia|].
  split; [rewrite !token_insert, (proj2 (String.eqb_neq r s)), String.eqb_refl by auto; lia|].
  split; [rewrite token_insert, String.eqb_refl; lia|].
  split; [|split; [|split; [reflexivity|split; [reflexivity|split; [rewrite Hs; eauto|rewrite Hr; eauto]]]]].
  - intros b Hb Hb'. rewrite !token_insert. rewrite (proj2 (String.eqb_neq r b)), (proj2 (String.eqb_neq s b)) by auto. reflexivity.
  - intros b. cbn [tk_bal]. destruct (decide (r = b)) as [->|N1]; [rewrite lookup_insert, Hr; split; eauto|].
    rewrite lookup_insert_ne by done. destruct (decide (s = b)) as [->|N2]; [rewrite lookup_insert, Hs; split; eauto|]. now rewrite lookup_insert_ne.
Qed.
(** ** Refunds *)
Definition tk_wf (k : Token) : Prop := tokens_of_all k = tk_supply k /\ tk_supply k < W128.
Lemma token_of_le k a : token_of k a <= tokens_of_all k.
Proof.
  unfold tokens_of_all, token_of. pose proof (msum_lookup_le (fun (_ : AccountId) v => v) (tk_bal k) a) as H.
  destruct (tk_bal k !! a); cbn [contrib default] in *; exact H.
Qed.
Lemma all_insert m s n a v : tokens_of_all (mkToken (<[a := v]> m) s n) + token_of (mkToken m s n) a = tokens_of_all (mkToken m s n) + v.
Proof.
  unfold tokens_of_all, token_of. cbn [tk_bal]. pose proof (msum_insert (fun (_ : AccountId) v => v) m a v) as H.
  destruct (m !! a); cbn [contrib default] in *; exact H.
Qed.
Lemma two_tokens k a b : a <> b -> token_of k a + token_of k b <= tokens_of_all k.
Proof.
  intros Hne. destruct k as [m s n]. unfold tokens_of_all, token_of. cbn [tk_bal].
  pose proof (msum_delete_gen (fun (_ : AccountId) v => v) m a) as H. pose proof (msum_lookup_le (fun (_ : AccountId) v => v) (delete a m) b) as H2.
  rewrite lookup_delete_ne in H2 by done. destruct (m !! a), (m !! b); cbn [contrib from_option] in *; unfold id in *; lia.
Qed.
Lemma resolve_effect k s r x ans k' u b : s <> r -> tk_resolve k s r x ans = Some (k', u, b) ->
  let back := N.min (token_of k r) (match ans with Some v => N.min x v | None => x end) in
  token_of k' r + back = token_of k r /\
  (is_Some (tk_bal k !! s) -> token_of k' s = token_of k s + back /\ u + back = x /\ b = 0 /\ tk_supply k' = tk_supply k) /\
  (tk_bal k !! s = None -> token_of k' s = 0 /\ u = x /\ b = back /\ tk_supply k' + back = tk_supply k) /\
  (forall c, c <> s -> c <> r -> token_of k' c = token_of k c) /\ (forall c, is_Some (tk_bal k' !! c) <-> is_Some (tk_bal k !! c)) /\ tk_near k' = tk_near k.
Proof.
  intros Hne H. unfold tk_resolve in H. cbv zeta in H |- *. set (un := match ans with Some v => N.min x v | None => x end) in *.
  assert (Hun : un <= x) by (unfold un; destruct ans; lia).
  destruct ((0 <? un) && (0 <? default 0 (tk_bal k !! r))) eqn:E.
  - apply andb_true_iff in E as [E1 E2]. apply N.ltb_lt in E1, E2. fold (token_of k r) in *. set (rf := N.min (token_of k r) un) in *.
    assert (Hrf : rf <= token_of k r /\ rf <= un) by (unfold rf; lia). destruct Hrf as [R1 R2].
    assert (Hr : exists br, tk_bal k !! r = Some br) by (unfold token_of in E2; destruct (tk_bal k !! r); [eauto|cbn in E2; lia]). destruct Hr as [br Hr].
    rewrite lookup_insert_ne in H by auto. destruct (tk_bal k !! s) as [sb|] eqn:Hs.
    + bnd H sb' Hsb. apply cadd_Some in Hsb as [-> Hb]. injection H as <- <- <-. rewrite !token_insert.
      rewrite String.eqb_refl, (proj2 (String.eqb_neq s r)), String.eqb_refl by auto.
      split_and!; auto; try (cbn [tk_bal]; lia); try (intros; split_and!; auto; try lia; unfold token_of; rewrite Hs; reflexivity); try done.
      * intros c Hc Hc'. rewrite !token_insert. rewrite (proj2 (String.eqb_neq s c)), (proj2 (String.eqb_neq r c)) by auto. reflexivity.
      * intros c. cbn [tk_bal]. destruct (decide (s = c)) as [->|N1]; [rewrite lookup_insert, Hs; split; eauto|].
        rewrite lookup_insert_ne by done. destruct (decide (r = c)) as [->|N2]; [rewrite lookup_insert, Hr; split; eauto|]. now rewrite lookup_insert_ne.
    + bnd H s' Hs'. apply csub_Some in Hs' as [-> Hb]. injection H as <- <- <-. rewrite !token_insert.
      rewrite String.eqb_refl, (proj2 (String.eqb_neq r s)) by auto.
      split_and!; auto; try (cbn [tk_bal tk_supply]; lia); try (intros []; discriminate); try reflexivity.
      * intros _. split_and!; auto; [unfold token_of; cbn [tk_bal]; now rewrite Hs|cbn [tk_supply]; lia].
      * intros c Hc Hc'. rewrite !token_insert. rewrite (proj2 (String.eqb_neq r c)) by auto. reflexivity.
      * intros c. cbn [tk_bal]. destruct (decide (r = c)) as [->|N2]; [rewrite lookup_insert, Hr; split; eauto|]. now rewrite lookup_insert_ne.
  - injection H as <- <- <-. fold (token_of k r) in E. assert (Hz : N.min (token_of k r) un = 0).
    { apply andb_false_iff in E as [E|E]; apply N.ltb_ge in E; lia. }
    rewrite Hz. split_and!; auto; try lia; try (intros; split_and!; auto; lia); try done.
    intros Hs. split_and!; auto; try lia. unfold token_of. now rewrite Hs.
Qed.
(** No refund overflows. *)
Lemma resolve_runs k s r x ans : tk_wf k -> s <> r -> exists k' u b, tk_resolve k s r x ans = Some (k', u, b).
Proof.
  intros [Ha Hw] Hne. unfold tk_resolve. cbv zeta. fold (token_of k r). set (un := match ans with Some v => N.min x v | None => x end).
  destruct ((0 <? un) && (0 <? token_of k r)); [|eauto]. rewrite lookup_insert_ne by auto. pose proof (two_tokens k s r Hne) as H2. pose proof (token_of_le k r) as H1.
  destruct (tk_bal k !! s) as [sb|] eqn:Hs.
  - assert (token_of k s = sb) by (unfold token_of; now rewrite Hs). rewrite cadd_intro by lia. eauto.
  - rewrite csub_intro by lia. eauto.
Qed.
(** ** Calls by one account leave the others alone *)
Definition receiver_of (x : TokenCall) : option AccountId := match x with TkTransfer r _ _ => Some r | _ => None end.
Lemma tk_attach_token k x b : token_of (tk_attach k x) b = token_of k b.
Proof. reflexivity. Qed.
Lemma call_frame m k a x k' b : tk_call m k a x = Some k' -> b <> a -> receiver_of x <> Some b ->
  token_of k' b = token_of k b /\ (is_Some (tk_bal k !! b) -> is_Some (tk_bal k' !! b)).
Proof.
  intros H Hb Hr. destruct x; cbn [tk_call receiver_of] in *.
  - apply transfer_effect in H as (_ & _ & _ & _ & Hf & Hd & _). assert (b <> to) by congruence. split; [auto|]. apply Hd.
  - unfold tk_near_deposit in H. bnd H u Hu. cbv zeta in H. destruct (tk_bal k !! a) eqn:Ea.
    + apply tk_deposit_inv in H as (b0 & _ & _ & _ & ->). rewrite token_insert, (proj2 (String.eqb_neq a b)) by auto.
      cbn [tk_bal tk_attach]. rewrite lookup_insert_ne by auto. auto.
    + bnd H u' Hu'. bnd H k1 H1. apply tk_register_inv in H1 as [_ ->]. apply tk_deposit_inv in H as (b0 & _ & _ & _ & ->).
      cbn [tk_bal tk_attach tk_supply tk_near]. rewrite !token_insert, (proj2 (String.eqb_neq a b)) by auto. rewrite !lookup_insert_ne by auto. auto.
  - unfold tk_near_withdraw in H. bnd H u Hu. bnd H k1 H1. bnd H y Hy. apply tk_withdraw_inv in H1 as (b0 & _ & _ & _ & ->). apply tk_pay_inv in H as [_ ->].
    cbn [tk_bal tk_attach tk_supply tk_near]. rewrite token_insert, (proj2 (String.eqb_neq a b)) by auto. rewrite lookup_insert_ne by auto. auto.
  - unfold tk_storage_deposit in H. cbv zeta in H. destruct (tk_bal k !! account) eqn:Ea.
    + destruct (0 <? attached); [apply tk_pay_inv in H as [_ ->]|injection H as <-]; auto.
    + bnd H u' Hu'. bnd H k1 H1. apply tk_register_inv in H1 as [_ ->].
      assert (Hk : exists n, k' = mkToken (<[account := 0]> (tk_bal k)) (tk_supply k) n).
      { destruct (0 <? attached - m); [apply tk_pay_inv in H as [_ ->]|injection H as <-]; eauto. }
      destruct Hk as [n ->]. rewrite token_insert. cbn [tk_bal]. destruct (String.eqb_spec account b) as [->|Hne].
      * split; [unfold token_of; now rewrite Ea|]. intros _. rewrite lookup_insert. eauto.
      * split; [reflexivity|]. now rewrite lookup_insert_ne.
  - unfold tk_storage_withdraw in H. bnd H u Hu. bnd H b0 Hb0. bnd H u' Hu'. injection H as <-. auto.
  - unfold tk_unregister in H. bnd H u Hu. cbv zeta in H. destruct (tk_bal k !! a) eqn:Ea; [|injection H as <-; auto].
    bnd H u' Hu'. bnd H s' Hs'. bnd H y Hy. apply tk_pay_inv in H as [_ ->]. unfold token_of. cbn [tk_bal]. rewrite lookup_delete_ne by auto. auto.
Qed.

(** ** What the contract owns against what it issued *)
Lemma all_insert_Some m s n a b v s' n' : m !! a = Some b -> tokens_of_all (mkToken (<[a := v]> m) s' n') + b = tokens_of_all (mkToken m s n) + v.
Proof. intros Hb. pose proof (all_insert m s n a v) as H. unfold token_of in H at 1. cbn [tk_bal] in H. rewrite Hb in H. exact H. Qed.
Lemma reg_insert_Some m s n a b v s' n' : m !! a = Some b -> registered (mkToken (<[a := v]> m) s' n') = registered (mkToken m s n).
Proof.
  intros Hb. unfold registered. cbn [tk_bal]. pose proof (msum_insert (fun (_ : AccountId) (_ : N) => 1) m a v) as H. rewrite Hb in H. cbn [contrib] in H. lia.
Qed.
Lemma all_insert_None m s n a v s' n' : m !! a = None -> tokens_of_all (mkToken (<[a := v]> m) s' n') = tokens_of_all (mkToken m s n) + v.
Proof. intros Hb. unfold tokens_of_all. cbn [tk_bal]. rewrite msum_insert_None by done. lia. Qed.
Lemma reg_insert_None m s n a v s' n' : m !! a = None -> registered (mkToken (<[a := v]> m) s' n') = registered (mkToken m s n) + 1.
Proof. intros Hb. unfold registered. cbn [tk_bal]. rewrite msum_insert_None by done. lia. Qed.
Lemma all_eq k : tokens_of_all k = tokens_of_all (mkToken (tk_bal k) (tk_supply k) (tk_near k)).
Proof. reflexivity. Qed.
Definition tk_moved (m : N) (k k' : Token) : Prop :=
  (tk_wf k -> tk_wf k') /\ tk_near k + tk_supply k' + m * registered k' <= tk_near k' + tk_supply k + m * registered k.
Lemma tk_moved_trans m k1 k2 k3 : tk_moved m k1 k2 -> tk_moved m k2 k3 -> tk_moved m k1 k3.
Proof. intros [A1 A2] [B1 B2]. split; [auto|]. lia. Qed.
Lemma transfer_moved m k s r x y k' : tk_ft_transfer k s r x y = Some k' -> tk_moved m k k'.
Proof.
  intros H. apply tk_ft_transfer_inv in H as [_ H]. apply tk_transfer_inv in H as (bs & br & Hne & Hx & Hs & Hr & A & B & C & D & ->).
  cbn [tk_attach tk_bal tk_supply tk_near] in *.
  assert (Hr' : <[s := bs - x]> (tk_bal k) !! r = Some br) by now rewrite lookup_insert_ne.
  split; [intros [Hw Hl]; split|]; cbn [tk_supply tk_near]; auto.
  - pose proof (all_insert_Some _ (tk_supply k) (tk_near k) r br (br + x) (tk_supply k) (tk_near k + 1) Hr') as E1.
    pose proof (all_insert_Some _ (tk_supply k) (tk_near k) s bs (bs - x) (tk_supply k) (tk_near k) Hs) as E2. rewrite all_eq in Hw. lia.
  - rewrite (reg_insert_Some _ (tk_supply k) (tk_near k) r br _ _ _ Hr'), (reg_insert_Some _ (tk_supply k) (tk_near k) s bs _ _ _ Hs).
    change (registered (mkToken (tk_bal k) (tk_supply k) (tk_near k))) with (registered k). lia.
Qed.
Lemma resolve_moved m k s r x ans k' u b : s <> r -> tk_resolve k s r x ans = Some (k', u, b) -> tk_moved m k k'.
Proof.
  intros Hne H. unfold tk_resolve in H. cbv zeta in H. set (un := match ans with Some v => N.min x v | None => x end) in *.
  destruct ((0 <? un) && (0 <? default 0 (tk_bal k !! r))) eqn:E; [|injection H as <- <- <-; split; [auto|lia]].
  apply andb_true_iff in E as [_ E2]. apply N.ltb_lt in E2. fold (token_of k r) in *. set (rf := N.min (token_of k r) un) in *.
  assert (Hrf : rf <= token_of k r) by (unfold rf; lia).
  assert (Hr : tk_bal k !! r = Some (token_of k r)) by (unfold token_of in E2 |- *; destruct (tk_bal k !! r); [reflexivity|cbn in E2; lia]).
  pose proof (fun n => all_insert_Some _ (tk_supply k) (tk_near k) r _ (token_of k r - rf) n (tk_near k) Hr) as E1.
  pose proof (fun n => reg_insert_Some _ (tk_supply k) (tk_near k) r _ (token_of k r - rf) n (tk_near k) Hr) as E3.
  change (registered (mkToken (tk_bal k) (tk_supply k) (tk_near k))) with (registered k) in E3. rewrite <- all_eq in E1.
  rewrite lookup_insert_ne in H by auto. destruct (tk_bal k !! s) as [sb|] eqn:Hs.
  - bnd H sb' Hsb. apply cadd_Some in Hsb as [-> Hb]. injection H as <- <- <-.
    assert (Hs' : <[r := token_of k r - rf]> (tk_bal k) !! s = Some sb) by (rewrite lookup_insert_ne by auto; exact Hs).
    split; [intros [Hw Hl]; split|]; cbn [tk_supply tk_near]; auto.
    + pose proof (all_insert_Some _ (tk_supply k) (tk_near k) s sb (sb + rf) (tk_supply k) (tk_near k) Hs') as E4. specialize (E1 (tk_supply k)). lia.
    + rewrite (reg_insert_Some _ (tk_supply k) (tk_near k) s sb _ _ _ Hs'), E3. lia.
  - bnd H s' Hs'. apply csub_Some in Hs' as [-> Hb]. injection H as <- <- <-.
    split; [intros [Hw Hl]; split|]; cbn [tk_supply tk_near].
    + specialize (E1 (tk_supply k - rf)). lia.
    + lia.
    + rewrite E3. lia.
Qed.
Lemma attach_moved m k x : tk_moved m k (tk_attach k x).
Proof. split; [auto|]. cbn [tk_attach tk_near tk_supply]. change (registered (tk_attach k x)) with (registered k). lia. Qed.
Lemma call_moved m k a x k' : tk_call m k a x = Some k' -> tk_moved m k k'.
Proof.
  intros H. destruct x; cbn [tk_call] in H.
  - eapply transfer_moved; eauto.
  - unfold tk_near_deposit in H. bnd H u Hu. cbv zeta in H. destruct (tk_bal k !! a) as [b|] eqn:Ea.
    + apply tk_deposit_inv in H as (b0 & Hb & A & B & ->). cbn [tk_attach tk_bal tk_supply tk_near] in *.
      split; [intros [Hw Hl]; split|]; cbn [tk_supply tk_near]; auto.
      * pose proof (all_insert_Some _ (tk_supply k) (tk_near k) a b0 (b0 + attached) (tk_supply k + attached) (tk_near k + attached) Hb) as E. rewrite all_eq in Hw. lia.
      * rewrite (reg_insert_Some _ (tk_supply k) (tk_near k) a b0 _ _ _ Hb). change (registered (mkToken (tk_bal k) (tk_supply k) (tk_near k))) with (registered k). lia.
    + bnd H u' Hu'. apply ensure_Some, N.leb_le in Hu'. bnd H k1 H1. apply tk_register_inv in H1 as [_ ->]. apply tk_deposit_inv in H as (b0 & Hb & A & B & ->).
      cbn [tk_attach tk_bal tk_supply tk_near] in *. rewrite lookup_insert in Hb. injection Hb as <-. rewrite insert_insert, N.add_0_l in *.
      split; [intros [Hw Hl]; split|]; cbn [tk_supply tk_near]; auto.
      * rewrite (all_insert_None _ (tk_supply k) (tk_near k)) by exact Ea. rewrite <- all_eq. lia.
      * rewrite (reg_insert_None _ (tk_supply k) (tk_near k)) by exact Ea. change (registered (mkToken (tk_bal k) (tk_supply k) (tk_near k))) with (registered k). lia.
  - unfold tk_near_withdraw in H. bnd H u Hu. apply ensure_Some, N.eqb_eq in Hu as ->. bnd H k1 H1. bnd H y Hy. apply cadd_Some in Hy as [-> Hy].
    apply tk_withdraw_inv in H1 as (b0 & Hb & A & B & ->). apply tk_pay_inv in H as [Hp ->]. cbn [tk_attach tk_bal tk_supply tk_near] in *.
    split; [intros [Hw Hl]; split|]; cbn [tk_supply tk_near].
    + pose proof (all_insert_Some _ (tk_supply k) (tk_near k) a b0 (b0 - amount) (tk_supply k - amount) (tk_near k + 1 - (amount + 1)) Hb) as E. rewrite all_eq in Hw. lia.
    + lia.
    + rewrite (reg_insert_Some _ (tk_supply k) (tk_near k) a b0 _ _ _ Hb). change (registered (mkToken (tk_bal k) (tk_supply k) (tk_near k))) with (registered k). lia.
  - unfold tk_storage_deposit in H. cbv zeta in H. destruct (tk_bal k !! account) eqn:Ea.
    + destruct (0 <? attached); [apply tk_pay_inv in H as [Hp ->]|injection H as <-; apply attach_moved]. cbn [tk_attach tk_bal tk_supply tk_near] in *.
      split; [auto|]. cbn [tk_near tk_supply]. change (registered (mkToken (tk_bal k) (tk_supply k) (tk_near k + attached - attached))) with (registered k). lia.
    + bnd H u' Hu'. apply ensure_Some, N.leb_le in Hu'. bnd H k1 H1. apply tk_register_inv in H1 as [_ ->]. cbn [tk_attach tk_bal tk_supply tk_near] in *.
      assert (Hk : exists n, k' = mkToken (<[account := 0]> (tk_bal k)) (tk_supply k) n /\ tk_near k + m <= n).
      { destruct (0 <? attached - m); [apply tk_pay_inv in H as [Hp ->]|injection H as <-]; cbn [tk_bal tk_supply tk_near] in *; (eexists; split; [reflexivity|lia]). }
      destruct Hk as (n & -> & Hn). split; [intros [Hw Hl]; split|]; cbn [tk_supply tk_near]; auto.
      * rewrite (all_insert_None _ (tk_supply k) (tk_near k)) by exact Ea. rewrite <- all_eq. lia.
      * rewrite (reg_insert_None _ (tk_supply k) (tk_near k)) by exact Ea. change (registered (mkToken (tk_bal k) (tk_supply k) (tk_near k))) with (registered k). lia.
  - unfold tk_storage_withdraw in H. bnd H u Hu. bnd H b0 Hb0. bnd H u' Hu'. injection H as <-. apply attach_moved.
  - unfold tk_unregister in H. bnd H u Hu. apply ensure_Some, N.eqb_eq in Hu as ->. cbv zeta in H. destruct (tk_bal k !! a) as [b|] eqn:Ea; [|injection H as <-; apply attach_moved].
    bnd H u' Hu'. bnd H s' Hs'. apply csub_Some in Hs' as [-> Hs']. bnd H y Hy. apply cadd_Some in Hy as [-> Hy]. apply tk_pay_inv in H as [Hp ->]. cbn [tk_attach tk_bal tk_supply tk_near] in *.
    assert (Hd : tokens_of_all k = b + msum (fun (_ : AccountId) v => v) (delete a (tk_bal k))) by exact (msum_delete (fun (_ : AccountId) v => v) _ _ _ Ea).
    assert (Hd2 : registered k = 1 + msum (fun (_ : AccountId) (_ : N) => 1) (delete a (tk_bal k))) by exact (msum_delete (fun (_ : AccountId) (_ : N) => 1) _ _ _ Ea).
    split; [intros [Hw Hl]; split|]; cbn [tk_supply tk_near].
    + unfold tokens_of_all at 1. cbn [tk_bal]. lia.
    + lia.
    + unfold registered at 1. cbn [tk_bal]. lia.
Qed.
