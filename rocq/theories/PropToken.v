(** * C96 wrapped NEAR is backed by NEAR, C97 the exchange and the books of a token contract agree *)
From Verif Require Import Base BaseLemmas SimplePool SpecSimple StableMath StablePool SpecStable Rates Account Pool Exchange SpecExchange Token
  SpecWorld SpecToken ExchangeProofs ExchangeInv WorldProofs TokenProofs ExExample PropWorld JointProofs.

(** ** C96: the token contract alone *)
Lemma tw_step_facts m w ev w' : Forall (fun q => q.1.1 <> q.1.2) (tw_open w) -> tw_step m w ev = Some w' ->
  tk_moved m (tw_token w) (tw_token w') /\ Forall (fun q => q.1.1 <> q.1.2) (tw_open w').
Proof.
  intros Hf H. destruct ev; cbn [tw_step] in H.
  - bnd H k Hk. injection H as <-. cbn. split; [eapply call_moved; eauto|done].
  - bnd H k Hk. injection H as <-. cbn. split; [eapply transfer_moved; eauto|]. apply transfer_effect in Hk as (Hne & _). now constructor.
  - bnd H q Hq. destruct q as [[s r] x]. bnd H q' Hq'. destruct q' as [[k u] b]. injection H as <-. cbn.
    pose proof (Forall_lookup_1 _ _ _ _ Hf Hq) as Hne. cbn in Hne. split; [eapply resolve_moved; eauto|]. now apply Forall_take_drop.
  - injection H as <-. cbn. split; [apply attach_moved|done].
Qed.
Definition tw_start (w : TokenWorld) : Prop := tokens_of_all (tw_token w) = tk_supply (tw_token w) /\ tk_supply (tw_token w) < W128 /\ tw_open w = [].
Lemma tw_reach_facts m w0 w : tw_start w0 -> tw_reach m w0 w ->
  tk_wf (tw_token w) /\ Forall (fun q => q.1.1 <> q.1.2) (tw_open w) /\ tk_moved m (tw_token w0) (tw_token w).
Proof.
  intros (A & B & C) H. induction H as [|w ev w' _ (H1 & H2 & H3) H].
  - split; [now split|]. split; [rewrite C; constructor|]. split; [auto|lia].
  - apply tw_step_facts in H as [M F]; [|done]. split; [now apply M|]. split; [done|]. eapply tk_moved_trans; eauto.
Qed.

(** In every execution from the deployment the accounts together have what was issued, every issued token and every
    storage deposit is covered by NEAR of the contract, ... *)
Theorem C96_backed m near w : tw_reach m (mkTokenWorld (tk_new near) []) w ->
  tokens_of_all (tw_token w) = tk_supply (tw_token w) /\ tk_supply (tw_token w) < W128 /\
  near + tk_supply (tw_token w) + m * registered (tw_token w) <= tk_near (tw_token w).
Proof.
  intros H. apply tw_reach_facts in H as ((A & B) & _ & (_ & C)).
  - split_and!; auto. cbn [tw_token tk_new tk_near tk_supply] in C.
    assert (E : registered (tk_new near) = 0) by (unfold registered; cbn [tk_new tk_bal]; apply msum_empty). rewrite E in C. lia.
  - split_and!; [|reflexivity|reflexivity]. cbn [tw_token]. unfold tokens_of_all. cbn [tk_new tk_bal tk_supply]. apply msum_empty.
Qed.
Print Assumptions C96_backed.
(** ... what it owns beyond that never shrinks, whatever happens, ... *)
Theorem C96_surplus m w0 w : tw_start w0 -> tw_reach m w0 w ->
  tk_near (tw_token w0) + tk_supply (tw_token w) + m * registered (tw_token w) <= tk_near (tw_token w) + tk_supply (tw_token w0) + m * registered (tw_token w0).
Proof. intros Hs H. apply tw_reach_facts in H as (_ & _ & (_ & C)); auto. Qed.
Print Assumptions C96_surplus.
(** ... hence whoever has wrapped NEAR can unwrap it at any time, all of it or a part, and the storage stays paid. *)
Theorem C96_unwrap m near w a x : tw_reach m (mkTokenWorld (tk_new near) []) w -> 0 < token_of (tw_token w) a -> x <= token_of (tw_token w) a -> x + 1 < W128 ->
  exists k, tk_near_withdraw (tw_token w) a x 1 = Some k /\ token_of k a + x = token_of (tw_token w) a /\ tk_near k + x = tk_near (tw_token w) /\
    near + tk_supply k + m * registered k <= tk_near k /\ (forall b, b <> a -> token_of k b = token_of (tw_token w) b).
Proof.
  intros Hr Ha Hx Hw. destruct (C96_backed _ _ _ Hr) as (A & B & C). pose proof (token_of_le (tw_token w) a) as Hle.
  assert (Hb : tk_bal (tw_token w) !! a = Some (token_of (tw_token w) a)).
  { unfold token_of in Ha |- *. destruct (tk_bal (tw_token w) !! a); [reflexivity|cbn in Ha; lia]. }
  assert (E : exists k, tk_near_withdraw (tw_token w) a x 1 = Some k).
  { unfold tk_near_withdraw. rewrite ensure_intro by reflexivity. cbn [mbind option_bind]. unfold tk_withdraw. cbn [tk_attach tk_bal tk_supply tk_near].
    rewrite Hb. cbn [mbind option_bind]. rewrite (csub_intro _ _ Hx). cbn [mbind option_bind]. rewrite csub_intro by lia. cbn [mbind option_bind].
    rewrite (cadd_intro _ _ _ Hw). cbn [mbind option_bind]. unfold tk_pay. cbn [tk_near]. rewrite csub_intro by lia. cbn [mbind option_bind]. eauto. }
  destruct E as [k E]. exists k. split; [exact E|].
  assert (Hc : tk_call m (tw_token w) a (TkNearWithdraw x 1) = Some k) by exact E.
  assert (Hst : tw_step m w (TvCall a (TkNearWithdraw x 1)) = Some (mkTokenWorld k (tw_open w))) by (cbn [tw_step]; rewrite Hc; reflexivity).
  destruct (C96_backed m near (mkTokenWorld k (tw_open w))) as (_ & _ & C'); [econstructor; eauto|]. cbn [tw_token] in C'.
  assert (Hf : forall b, b <> a -> token_of k b = token_of (tw_token w) b).
  { intros b Hne. now destruct (call_frame _ _ _ _ _ b Hc) as [Ef _]. }
  unfold tk_near_withdraw in E. bnd E u Hu. bnd E k1 H1. bnd E y Hy. apply cadd_Some in Hy as [-> _]. apply tk_withdraw_inv in H1 as (b0 & Hb0 & X & Y & ->). apply tk_pay_inv in E as [Hp ->].
  cbn [tk_attach tk_bal tk_supply tk_near] in *. rewrite Hb in Hb0. injection Hb0 as <-. rewrite token_insert, String.eqb_refl. split_and!; auto; lia.
Qed.
Print Assumptions C96_unwrap.
(** Depositing mints what was attached, less the storage price for a new account. *)
Theorem C96_wrap m k a x k' : tk_near_deposit m k a x = Some k' ->
  token_of k' a + (match tk_bal k !! a with Some _ => 0 | None => m end) = token_of k a + x /\ tk_near k' = tk_near k + x /\
  (forall b, b <> a -> token_of k' b = token_of k b).
Proof.
  intros H. assert (Hc : tk_call m k a (TkNearDeposit x) = Some k') by exact H.
  split; [|split; [|intros b Hne; now destruct (call_frame _ _ _ _ _ b Hc) as [Ef _]]];
    (unfold tk_near_deposit in H; bnd H u Hu; cbv zeta in H; destruct (tk_bal k !! a) as [b|] eqn:Ea;
     [apply tk_deposit_inv in H as (b0 & Hb & _ & _ & ->); cbn [tk_attach tk_bal tk_supply tk_near] in *
     |bnd H u' Hu'; apply ensure_Some, N.leb_le in Hu'; bnd H k1 H1; apply tk_register_inv in H1 as [_ ->]; apply tk_deposit_inv in H as (b0 & Hb & _ & _ & ->);
      cbn [tk_attach tk_bal tk_supply tk_near] in *; rewrite lookup_insert in Hb; injection Hb as <-]); try reflexivity.
  - rewrite token_insert, String.eqb_refl. assert (token_of k a = b) by (unfold token_of; now rewrite Ea). rewrite Ea in Hb. injection Hb as ->. lia.
  - rewrite token_insert, String.eqb_refl. assert (token_of k a = 0) by (unfold token_of; now rewrite Ea). lia.
Qed.
Print Assumptions C96_wrap.
(** Only the account itself, or the refund of a transfer it has received, takes tokens from an account; a refund is at most the
    amount of that transfer. *)
Theorem C96_own m w0 w ev w' b : tw_start w0 -> tw_reach m w0 w -> tw_step m w ev = Some w' -> token_of (tw_token w') b < token_of (tw_token w) b ->
  (exists x, ev = TvCall b x) \/ (exists r x y, ev = TvSend b r x y) \/
  (exists i ans s x, ev = TvAnswer i ans /\ tw_open w !! i = Some (s, b, x) /\ token_of (tw_token w) b <= token_of (tw_token w') b + x).
Proof.
  intros Hs Hr H Hlt. destruct (tw_reach_facts _ _ _ Hs Hr) as (_ & Hf & _). destruct ev; cbn [tw_step] in H.
  - bnd H k Hk. injection H as <-. cbn [tw_token] in Hlt. left. destruct (decide (b = a)) as [->|Hne]; [eauto|]. exfalso.
    destruct (decide (receiver_of x = Some b)) as [E|E].
    + destruct x as [r y z| | | | |]; try discriminate E. injection E as ->. apply transfer_effect in Hk as (_ & _ & _ & Er & _). lia.
    + destruct (call_frame _ _ _ _ _ b Hk) as [Ef _]; auto. lia.
  - bnd H k Hk. injection H as <-. cbn [tw_token] in Hlt. right. left. apply transfer_effect in Hk as (_ & _ & _ & Er & Ef & _).
    destruct (decide (b = a)) as [->|Hne]; [eauto|]. destruct (decide (b = to)) as [->|Hne']; [lia|]. rewrite Ef in Hlt by done. lia.
  - bnd H q Hq. destruct q as [[s r] x]. bnd H q' Hq'. destruct q' as [[k u] b']. injection H as <-. cbn [tw_token] in *. right. right.
    pose proof (Forall_lookup_1 _ _ _ _ Hf Hq) as Hne. cbn [fst snd] in Hne.
    destruct (resolve_effect _ _ _ _ _ _ _ _ Hne Hq') as (Er & E1 & E2 & Ef & _).
    destruct (decide (b = r)) as [->|Hb]; [exists i, ans, s, x; split_and!; auto; destruct ans; lia|]. exfalso.
    destruct (decide (b = s)) as [->|Hb']; [|rewrite Ef in Hlt by done; lia].
    destruct (tk_bal (tw_token w) !! s) as [v|] eqn:Es.
    + destruct E1 as [E1 _]; [eauto|]. lia.
    + unfold token_of in Hlt at 2. rewrite Es in Hlt. cbn in Hlt. lia.
  - injection H as <-. cbn [tw_token] in Hlt. rewrite tk_attach_token in Hlt. lia.
Qed.
Print Assumptions C96_own.
(** A transfer moves exactly its amount, ... *)
Theorem C96_transfer k s r x y k' : tk_ft_transfer k s r x y = Some k' ->
  token_of k' s + x = token_of k s /\ token_of k' r = token_of k r + x /\ (forall b, b <> s -> b <> r -> token_of k' b = token_of k b) /\ tk_supply k' = tk_supply k.
Proof. intros H. apply transfer_effect in H as (_ & _ & A & B & C & _ & D & _). auto. Qed.
Print Assumptions C96_transfer.
(** ... and the answer to a transfer with a message always can be processed: what was not used comes back to the sender as far
    as the receiver still has it, and the amount reported as used is what was kept.  If the sender has left, it is burned. *)
Theorem C96_answer m w0 w i s r x ans : tw_start w0 -> tw_reach m w0 w -> tw_open w !! i = Some (s, r, x) ->
  exists k u b back, tk_resolve (tw_token w) s r x ans = Some (k, u, b) /\ tw_step m w (TvAnswer i ans) = Some (mkTokenWorld k (take i (tw_open w) ++ drop (S i) (tw_open w))) /\
    back = N.min (token_of (tw_token w) r) (match ans with Some v => N.min x v | None => x end) /\ token_of k r + back = token_of (tw_token w) r /\
    (is_Some (tk_bal (tw_token w) !! s) -> token_of k s = token_of (tw_token w) s + back /\ u + back = x /\ tk_supply k = tk_supply (tw_token w)) /\
    (tk_bal (tw_token w) !! s = None -> tk_supply k + back = tk_supply (tw_token w)).
Proof.
  intros Hs Hr Hi. destruct (tw_reach_facts _ _ _ Hs Hr) as (Hw & Hf & _). pose proof (Forall_lookup_1 _ _ _ _ Hf Hi) as Hne. cbn [fst snd] in Hne.
  destruct (resolve_runs _ s r x ans Hw Hne) as (k & u & b & E). exists k, u, b, (N.min (token_of (tw_token w) r) (match ans with Some v => N.min x v | None => x end)).
  destruct (resolve_effect _ _ _ _ _ _ _ _ Hne E) as (A & B & C & _). split; [exact E|].
  split; [cbn [tw_step]; rewrite Hi; cbn [mbind option_bind]; rewrite E; reflexivity|]. split; [reflexivity|]. split; [exact A|]. split.
  - intros Hreg. destruct (B Hreg) as (B1 & B2 & _ & B4). auto.
  - intros Hn. now destruct (C Hn) as (_ & _ & _ & C4).
Qed.
Print Assumptions C96_answer.

(** Without force only an account without tokens can leave; leaving burns what the account has, and pays back the storage price
    and the yocto.  Storage deposits only register, and withdraw nothing. *)
Theorem C96_leave m k a force k' : tk_unregister m k a force 1 = Some k' -> is_Some (tk_bal k !! a) ->
  (force = false -> token_of k a = 0) /\ tk_supply k' + token_of k a = tk_supply k /\ tk_bal k' !! a = None /\ tk_near k' + m = tk_near k /\
  (forall b, b <> a -> tk_bal k' !! b = tk_bal k !! b).
Proof.
  intros H [b Ea]. unfold tk_unregister in H. bnd H u Hu. cbv zeta in H. rewrite Ea in H. bnd H u' Hu'. apply ensure_Some in Hu'. bnd H s' Hs'. apply csub_Some in Hs' as [-> Hs'].
  bnd H y Hy. apply cadd_Some in Hy as [-> Hy]. apply tk_pay_inv in H as [Hp ->]. cbn [tk_attach tk_bal tk_supply tk_near] in *.
  assert (Et : token_of k a = b) by (unfold token_of; now rewrite Ea). rewrite Et. split; [|split; [lia|split; [apply lookup_delete|split; [lia|]]]].
  - intros ->. rewrite orb_false_r in Hu'. now apply N.eqb_eq in Hu'.
  - intros b' Hne. rewrite lookup_delete_ne by auto. reflexivity.
Qed.
Print Assumptions C96_leave.
Theorem C96_storage m k a :
  (forall x k', tk_storage_deposit m k a x = Some k' ->
     is_Some (tk_bal k' !! a) /\ (forall b, token_of k' b = token_of k b) /\ tk_supply k' = tk_supply k /\ tk_near k' = tk_near k + (match tk_bal k !! a with Some _ => 0 | None => m end)) /\
  (forall x y k', tk_storage_withdraw k a x y = Some k' -> default 0 x = 0 /\ y = 1 /\ k' = tk_attach k 1).
Proof.
  split.
  - intros x k' H. unfold tk_storage_deposit in H. cbv zeta in H. destruct (tk_bal k !! a) as [b|] eqn:Ea.
    + assert (Hk : k' = mkToken (tk_bal k) (tk_supply k) (tk_near k)).
      { destruct (N.ltb_spec 0 x) as [Hx|Hx]; [apply tk_pay_inv in H as [Hp ->]|injection H as <-; unfold tk_attach; f_equal; lia]. cbn [tk_attach tk_bal tk_supply tk_near]. f_equal. lia. }
      rewrite Hk. cbn [tk_bal tk_supply tk_near]. rewrite Ea. split_and!; eauto; lia.
    + bnd H u Hu. apply ensure_Some, N.leb_le in Hu. bnd H k1 H1. apply tk_register_inv in H1 as [_ ->].
      assert (Hk : k' = mkToken (<[a := 0]> (tk_bal k)) (tk_supply k) (tk_near k + m)).
      { destruct (N.ltb_spec 0 (x - m)) as [Hx|Hx]; [apply tk_pay_inv in H as [Hp ->]|injection H as <-]; cbn [tk_attach tk_bal tk_supply tk_near]; f_equal; lia. }
      rewrite Hk. cbn [tk_bal tk_supply tk_near]. rewrite lookup_insert. split; [eauto|]. split; [|split; reflexivity].
      intros b. rewrite token_insert. destruct (String.eqb_spec a b) as [->|]; [unfold token_of; now rewrite Ea|reflexivity].
  - intros x y k' H. unfold tk_storage_withdraw in H. bnd H u Hu. apply ensure_Some, N.eqb_eq in Hu. bnd H b Hb. bnd H u' Hu'. apply ensure_Some in Hu'. injection H as <-. subst y.
    split_and!; auto. destruct x; [now apply N.eqb_eq in Hu'|reflexivity].
Qed.
Print Assumptions C96_storage.

(** ** C97: the exchange and the token contract *)
Lemma j_start_inv t j : j_start t j -> j_inv t (j_w j) j.
Proof.
  intros (Hs & Hb & Ha & Hl & E1 & E2 & E3). assert (Hf : w_flights (j_w j) = ∅) by apply Hs. constructor.
  - constructor.
  - unfold going, returning. rewrite E1, E2, msum_empty, Hb. reflexivity.
  - intros id x Hx. rewrite E2, lookup_empty in Hx. done.
  - rewrite E1. constructor.
  - intros id s x msg Hx. rewrite Hf, lookup_empty in Hx. done.
  - rewrite E3. constructor.
  - now split.
Qed.
Lemma j_step_world t m j j' : j_step t m j j' -> j_w j' = j_w j \/ exists ev, w_step (j_w j) ev = Some (j_w j').
Proof. intros []; cbn [j_w]; eauto. Qed.
Lemma j_reach_world t m j0 j : j_reach t m j0 j -> w_reach (j_w j0) (j_w j).
Proof.
  intros H. induction H as [|j j' _ IH H]; [constructor|]. destruct (j_step_world _ _ _ _ H) as [E|[ev E]]; [now rewrite E|]. econstructor; eauto.
Qed.
Lemma j_reach_inv t m j0 j : j_start t j0 -> j_reach t m j0 j -> exact_token (w_ex (j_w j)) t -> j_inv t (j_w j0) j.
Proof.
  intros Hs H. assert (Hw : w_start (j_w j0)) by apply Hs. induction H as [|j j' Hr IH H]; intros Hx; [now apply j_start_inv|].
  assert (Hok : w_ok (j_w j)) by (apply (w_reach_ok (j_w j0)); [now apply w_start_ok|exact (j_reach_world _ _ _ _ Hr)]).
  assert (Hx' : exact_token (w_ex (j_w j)) t).
  { destruct (j_step_world _ _ _ _ H) as [E|[ev E]]; [rewrite <- E; exact Hx|].
    apply w_step_any in E as (_ & _ & _ & Hpe & _); [|done]. exact (exact_token_back _ _ _ Hpe Hx). }
  eapply j_step_inv; eauto.
Qed.
Lemma j_moved t m j0 j : j_start t j0 -> j_reach t m j0 j -> exact_token (w_ex (j_w j)) t -> tk_moved m (j_k j0) (j_k j).
Proof.
  intros Hs H. assert (Hw : w_start (j_w j0)) by apply Hs. induction H as [|j j' Hr IH H]; intros Hx; [split; [auto|lia]|].
  assert (Hok : w_ok (j_w j)) by (apply (w_reach_ok (j_w j0)); [now apply w_start_ok|exact (j_reach_world _ _ _ _ Hr)]).
  assert (Hx' : exact_token (w_ex (j_w j)) t).
  { destruct (j_step_world _ _ _ _ H) as [E|[ev E]]; [rewrite <- E; exact Hx|].
    apply w_step_any in E as (_ & _ & _ & Hpe & _); [|done]. exact (exact_token_back _ _ _ Hpe Hx). }
  specialize (IH Hx'). pose proof (j_reach_inv _ _ _ _ Hs Hr Hx') as Hj. eapply tk_moved_trans; [exact IH|].
  assert (Hrefl : tk_moved m (j_k j) (j_k j)) by (split; [auto|lia]).
  destruct H; cbn [j_k]; try exact Hrefl; try (eapply transfer_moved; eassumption).
  - eapply call_moved; eassumption.
  - apply attach_moved.
  - pose proof (Forall_lookup_1 _ _ _ _ (ji_other _ _ _ Hj) H) as (_ & _ & Q). cbn [fst snd] in Q. eapply resolve_moved; eassumption.
  - pose proof (Forall_lookup_1 _ _ _ _ (ji_back _ _ _ Hj) H) as Q. cbn [fst snd] in Q. eapply resolve_moved; eassumption.
  - apply (call_moved m (j_k j) (j_self j) (TkNearWithdraw x 1)). assumption.
  - destruct (ji_out _ _ _ Hj _ _ H0) as (r0 & A & B & _). assert (r0 = r) by congruence. subst r0. eapply resolve_moved; [|eassumption]. auto.
Qed.

(** The world of SpecWorld.v is what the token contract does: in every execution of both, with refunds and answers coming as
    receipts of their own in any order, the world makes only steps of a standard token, and the books of the token contract
    differ from its holdings exactly by what is still to be returned or answered. *)
Theorem C97_refines t m j0 j : j_start t j0 -> j_reach t m j0 j -> exact_token (w_ex (j_w j)) t ->
  w_backed t (j_w j0) (j_w j) /\ token_of (j_k j) (j_self j) + going j = w_hold (j_w j) t + returning j.
Proof. intros Hs Hr Hx. pose proof (j_reach_inv _ _ _ _ Hs Hr Hx) as Hj. split; [apply (ji_backed _ _ _ Hj)|apply (ji_books _ _ _ Hj)]. Qed.
Print Assumptions C97_refines.
(** At every moment the token contract's balance of the exchange covers all that is owed, all that is promised and not yet
    moved, and all that is to be returned. *)
Theorem C97_solvent t m j0 j : j_start t j0 -> j_reach t m j0 j -> exact_token (w_ex (j_w j)) t ->
  going j <= total_in_flight (j_w j) t /\ owed (w_ex (j_w j)) t + unsent t j + returning j <= token_of (j_k j) (j_self j).
Proof.
  intros Hs Hr Hx. pose proof (j_reach_inv _ _ _ _ Hs Hr Hx) as Hj. pose proof (ji_going _ _ _ Hj) as Hg. split; [exact Hg|].
  destruct (w_backed_sound _ _ _ (proj1 Hs) (ji_backed _ _ _ Hj)) as (_ & _ & _ & Hsol). specialize (Hsol Hx). pose proof (ji_books _ _ _ Hj). unfold unsent. lia.
Qed.
Print Assumptions C97_solvent.
(** A refused transfer is returned in full, whenever its refund is processed. *)
Theorem C97_returned t m j0 j i s x : j_start t j0 -> j_reach t m j0 j -> exact_token (w_ex (j_w j)) t -> j_back j !! i = Some (s, x) ->
  exists k u b, tk_resolve (j_k j) s (j_self j) x None = Some (k, u, b) /\ token_of k (j_self j) + x = token_of (j_k j) (j_self j) /\
    (is_Some (tk_bal (j_k j) !! s) -> token_of k s = token_of (j_k j) s + x) /\
    j_step t m j (mkJoint k (j_w j) (take i (j_back j) ++ drop (S i) (j_back j)) (j_out j) (j_other j)).
Proof.
  intros Hs Hr Hx Hi. pose proof (j_reach_inv _ _ _ _ Hs Hr Hx) as Hj. pose proof (C97_solvent _ _ _ _ Hs Hr Hx) as [_ Hsol].
  pose proof (Forall_lookup_1 _ _ _ _ (ji_back _ _ _ Hj) Hi) as Q. cbn [fst] in Q.
  destruct (resolve_runs (j_k j) s (j_self j) x None (ji_wf _ _ _ Hj) Q) as (k & u & b & E). exists k, u, b. split; [exact E|].
  assert (Hxr : x <= returning j) by (unfold returning; rewrite (lsum_take_drop _ _ _ _ Hi); lia).
  destruct (resolve_effect _ _ _ _ _ _ _ _ Q E) as (A & B & _). rewrite N.min_r in A, B by lia. split; [exact A|]. split; [|eapply js_refund; eauto].
  intros Hreg. now destruct (B Hreg) as [B1 _].
Qed.
Print Assumptions C97_returned.
(** A transfer the exchange has scheduled succeeds exactly if the receiver is another, registered account and the amount is not
    zero; it never fails for lack of tokens, and the world takes the step. *)
Theorem C97_pays t m j0 j id p r x : j_start t j0 -> j_reach t m j0 j -> exact_token (w_ex (j_w j)) t ->
  w_flights (j_w j) !! id = Some (Leaving p) -> p = PSend t r x \/ p = PRetrieve t r x ->
  (is_Some (tk_ft_transfer (j_k j) (j_self j) r x 1) <-> r <> j_self j /\ 0 < x /\ is_Some (tk_bal (j_k j) !! r)) /\
  (forall k, tk_ft_transfer (j_k j) (j_self j) r x 1 = Some k -> exists w, w_step (j_w j) (EvRemote id true 0) = Some w /\ j_step t m j (mkJoint k w (j_back j) (j_out j) (j_other j))).
Proof.
  intros Hs Hr Hx Hf Hp. pose proof (j_reach_inv _ _ _ _ Hs Hr Hx) as Hj. pose proof (ji_books _ _ _ Hj) as Hb.
  destruct (w_backed_sound _ _ _ (proj1 Hs) (ji_backed _ _ _ Hj)) as (_ & _ & _ & Hsol). specialize (Hsol Hx).
  assert (Hnew : x + going j <= total_in_flight (j_w j) t).
  { unfold total_in_flight. rewrite (msum_delete _ _ _ _ Hf). assert (Hin : in_flight t (Leaving p) = x).
    { cbn [in_flight]. destruct Hp as [-> | ->]; cbn [promised retrieved]; rewrite only_self; lia. }
    rewrite Hin. assert (going j <= msum (fun _ f => in_flight t f) (delete id (w_flights (j_w j)))); [|lia].
    apply going_le. intros i y Hy. apply (ji_out _ _ _ Hj) in Hy as (r0 & Hf0 & _). assert (Hi : id <> i) by (intros ->; rewrite Hf in Hf0; injection Hf0 as ->; destruct Hp; discriminate).
    rewrite lookup_delete_ne, Hf0 by done. cbn [contrib in_flight promised retrieved]. rewrite only_self. lia. }
  assert (Hbal : x <= token_of (j_k j) (j_self j)) by lia. destruct (ji_wf _ _ _ Hj) as [Ha Hl]. split.
  - split.
    + intros [k Hk]. apply transfer_effect in Hk as (A & B & _ & _ & _ & _ & _ & _ & _ & C). split_and!; auto; lia.
    + intros (A & B & [br C]). assert (Hsb : tk_bal (j_k j) !! j_self j = Some (token_of (j_k j) (j_self j))).
      { unfold token_of in Hbal |- *. destruct (tk_bal (j_k j) !! j_self j); [reflexivity|cbn in Hbal; lia]. }
      pose proof (two_tokens (j_k j) (j_self j) r (not_eq_sym A)) as H2. assert (Er : token_of (j_k j) r = br) by (unfold token_of; now rewrite C). rewrite Er in H2.
      unfold tk_ft_transfer. rewrite ensure_intro by reflexivity. cbn [mbind option_bind]. unfold tk_transfer.
      rewrite (ensure_intro (negb (String.eqb (j_self j) r))) by (apply negb_true_iff, String.eqb_neq; auto). cbn [mbind option_bind].
      rewrite ensure_intro by now apply N.ltb_lt. cbn [mbind option_bind]. unfold tk_withdraw. cbn [tk_attach tk_bal tk_supply tk_near]. rewrite Hsb. cbn [mbind option_bind].
      rewrite (csub_intro _ _ Hbal). cbn [mbind option_bind]. rewrite csub_intro by (pose proof (token_of_le (j_k j) (j_self j)); lia). cbn [mbind option_bind].
      unfold tk_deposit. cbn [tk_attach tk_bal tk_supply tk_near]. rewrite lookup_insert_ne, C by auto. cbn [mbind option_bind].
      rewrite cadd_intro by lia. cbn [mbind option_bind]. rewrite cadd_intro by lia. cbn [mbind option_bind]. eauto.
  - intros k Hk. assert (Hw : exists w, w_step (j_w j) (EvRemote id true 0) = Some w).
    { cbn [w_step]. cbv zeta. rewrite Hf. cbn [mbind option_bind]. assert (Hle : x <= w_hold (j_w j) t) by lia.
      destruct Hp as [-> | ->]; rewrite ensure_intro by (cbn [negb orb]; now apply N.leb_le); cbn [mbind option_bind]; eauto. }
    destruct Hw as [w Hw]. exists w. split; [exact Hw|]. eapply js_pay; eauto.
Qed.
Print Assumptions C97_pays.
(** An unwrapping the exchange has scheduled succeeds. *)
Theorem C97_unwraps t m j0 j id r x : j_start t j0 -> tk_supply (j_k j0) + m * registered (j_k j0) <= tk_near (j_k j0) ->
  j_reach t m j0 j -> exact_token (w_ex (j_w j)) t -> w_flights (j_w j) !! id = Some (Leaving (PUnwrap t r x)) -> 0 < x -> x + 1 < W128 ->
  exists k w, tk_near_withdraw (j_k j) (j_self j) x 1 = Some k /\ w_step (j_w j) (EvRemote id true 0) = Some w /\
    token_of k (j_self j) + x = token_of (j_k j) (j_self j) /\ tk_near k + x = tk_near (j_k j) /\ m * registered k <= tk_near k /\
    j_step t m j (mkJoint k w (j_back j) (j_out j) (j_other j)).
Proof.
  intros Hs Hn Hr Hx Hf H0 H1. pose proof (j_reach_inv _ _ _ _ Hs Hr Hx) as Hj. pose proof (ji_books _ _ _ Hj) as Hb.
  destruct (w_backed_sound _ _ _ (proj1 Hs) (ji_backed _ _ _ Hj)) as (_ & _ & _ & Hsol). specialize (Hsol Hx).
  assert (Hnew : x + going j <= total_in_flight (j_w j) t).
  { unfold total_in_flight. rewrite (msum_delete _ _ _ _ Hf). assert (Hin : in_flight t (Leaving (PUnwrap t r x)) = x) by (cbn [in_flight promised retrieved]; rewrite only_self; lia).
    rewrite Hin. assert (going j <= msum (fun _ f => in_flight t f) (delete id (w_flights (j_w j)))); [|lia].
    apply going_le. intros i y Hy. apply (ji_out _ _ _ Hj) in Hy as (r0 & Hf0 & _). assert (Hi : id <> i) by (intros ->; congruence).
    rewrite lookup_delete_ne, Hf0 by done. cbn [contrib in_flight promised retrieved]. rewrite only_self. lia. }
  assert (Hbal : x <= token_of (j_k j) (j_self j)) by lia. destruct (ji_wf _ _ _ Hj) as [Ha Hl].
  destruct (j_moved _ _ _ _ Hs Hr Hx) as [_ Hm]. pose proof (token_of_le (j_k j) (j_self j)) as Hle.
  assert (Hsb : tk_bal (j_k j) !! j_self j = Some (token_of (j_k j) (j_self j))).
  { unfold token_of in Hbal |- *. destruct (tk_bal (j_k j) !! j_self j); [reflexivity|cbn in Hbal; lia]. }
  assert (E : exists k, tk_near_withdraw (j_k j) (j_self j) x 1 = Some k).
  { unfold tk_near_withdraw. rewrite ensure_intro by reflexivity. cbn [mbind option_bind]. unfold tk_withdraw. cbn [tk_attach tk_bal tk_supply tk_near].
    rewrite Hsb. cbn [mbind option_bind]. rewrite (csub_intro _ _ Hbal). cbn [mbind option_bind]. rewrite csub_intro by lia. cbn [mbind option_bind].
    rewrite (cadd_intro _ _ _ H1). cbn [mbind option_bind]. unfold tk_pay. cbn [tk_near]. rewrite csub_intro by lia. cbn [mbind option_bind]. eauto. }
  destruct E as [k E].
  assert (Hw : exists w, w_step (j_w j) (EvRemote id true 0) = Some w).
  { cbn [w_step]. cbv zeta. rewrite Hf. cbn [mbind option_bind]. rewrite ensure_intro by (cbn [negb orb]; apply N.leb_le; lia). cbn [mbind option_bind]. eauto. }
  destruct Hw as [w Hw]. exists k, w. split; [exact E|]. split; [exact Hw|].
  assert (Hmk : tk_moved m (j_k j) k) by (apply (call_moved m (j_k j) (j_self j) (TkNearWithdraw x 1)); exact E). destruct Hmk as [_ Hmk].
  assert (Hj' : j_step t m j (mkJoint k w (j_back j) (j_out j) (j_other j))) by (eapply js_unwrap; eauto).
  unfold tk_near_withdraw in E. bnd E u Hu. bnd E k1 Hk1. bnd E y Hy. apply cadd_Some in Hy as [-> _]. apply tk_withdraw_inv in Hk1 as (b0 & Hb0 & X & Y & ->). apply tk_pay_inv in E as [Hp ->].
  cbn [tk_attach tk_bal tk_supply tk_near] in *. rewrite Hsb in Hb0. injection Hb0 as <-. rewrite token_insert, String.eqb_refl. split_and!; auto; lia.
Qed.
Print Assumptions C97_unwraps.
(** A transfer with a message the exchange has made can be answered in any way; the world takes the step, and what was not used
    is back in the books. *)
Theorem C97_answered t m j0 j id x ans : j_start t j0 -> j_reach t m j0 j -> exact_token (w_ex (j_w j)) t -> j_out j !! id = Some x ->
  exists r k u w, w_flights (j_w j) !! id = Some (Leaving (PSendMsg t r x)) /\ tk_resolve (j_k j) (j_self j) r x ans = Some (k, u, 0) /\ u <= x /\
    token_of k (j_self j) = token_of (j_k j) (j_self j) + (x - u) /\ w_step (j_w j) (EvRemote id true u) = Some w /\
    j_step t m j (mkJoint k w (j_back j) (delete id (j_out j)) (j_other j)).
Proof.
  intros Hs Hr Hx Ho. pose proof (j_reach_inv _ _ _ _ Hs Hr Hx) as Hj. destruct (ji_out _ _ _ Hj _ _ Ho) as (r & Hf & Hne & Hreg).
  destruct (w_backed_sound _ _ _ (proj1 Hs) (ji_backed _ _ _ Hj)) as (_ & _ & _ & Hsol). specialize (Hsol Hx).
  destruct (resolve_runs (j_k j) (j_self j) r x ans (ji_wf _ _ _ Hj) (not_eq_sym Hne)) as (k & u & b & E).
  destruct (resolve_effect _ _ _ _ _ _ _ _ (not_eq_sym Hne) E) as (_ & B & _). destruct (B Hreg) as (B1 & B2 & -> & _).
  pose proof (flight_le t _ _ _ Hf) as Hl. cbn [in_flight promised retrieved] in Hl. rewrite only_self in Hl.
  assert (Hw : exists w, w_step (j_w j) (EvRemote id true u) = Some w).
  { cbn [w_step]. cbv zeta. rewrite Hf. cbn [mbind option_bind]. rewrite ensure_intro; [cbn [mbind option_bind]; eauto|]. cbn [negb orb]. apply andb_true_iff. split; apply N.leb_le; lia. }
  destruct Hw as [w Hw]. exists r, k, u, w. split; [exact Hf|]. split; [exact E|]. split; [lia|]. split; [lia|]. split; [exact Hw|]. eapply js_answered; eauto.
Qed.
Print Assumptions C97_answered.
(** A transfer to the exchange that the token contract makes is an arrival of the world, as long as the supply and what is on
    its way fit 128 bits together. *)
Theorem C97_arrives t m j0 j a x y msg k : j_start t j0 -> j_reach t m j0 j -> exact_token (w_ex (j_w j)) t ->
  a <> j_self j -> tk_ft_transfer (j_k j) a (j_self j) x y = Some k -> tk_supply (j_k j) + going j < W128 ->
  exists w, w_step (j_w j) (EvArrive t a x msg) = Some w /\ j_step t m j (mkJoint k w (j_back j) (j_out j) (j_other j)).
Proof.
  intros Hs Hr Hx Ha Hk Hl. pose proof (j_reach_inv _ _ _ _ Hs Hr Hx) as Hj. pose proof (ji_books _ _ _ Hj) as Hb. destruct (ji_wf _ _ _ Hj) as [Hw _].
  pose proof (two_tokens (j_k j) a (j_self j) Ha) as H2. assert (Ht := Hk). apply transfer_effect in Ht as (_ & [_ Hxa] & _).
  assert (E : exists w, w_step (j_w j) (EvArrive t a x msg) = Some w).
  { cbn [w_step]. cbv zeta. rewrite fit_intro by lia. cbn [mbind option_bind]. eauto. }
  destruct E as [w E]. exists w. split; [exact E|]. eapply js_arrive; eauto.
Qed.
Print Assumptions C97_arrives.

(** ** Examples *)
(** alice wraps 1000 NEAR units beyond the storage price, bob registers, alice sends bob 300 with a message and bob returns 100
    of it, then alice unwraps everything. *)
Definition token_events : list TokenEvent :=
  [ TvCall "al" (TkNearDeposit 1125); TvCall "bo" (TkStorageDeposit "bo" 200); TvSend "al" "bo" 300 1; TvAnswer 0 (Some 100); TvCall "al" (TkNearWithdraw 800 1) ].
Fixpoint tw_run (m : N) (w : TokenWorld) (l : list TokenEvent) : option TokenWorld :=
  match l with [] => Some w | ev :: r => w' ← tw_step m w ev; tw_run m w' r end.
Lemma tw_run_reach m w0 l : forall w w', tw_reach m w0 w -> tw_run m w l = Some w' -> tw_reach m w0 w'.
Proof.
  induction l as [|ev l IH]; intros w w' Hr H; cbn [tw_run] in H; [now injection H as <-|].
  apply bind_Some in H as (w1 & H1 & H). eapply IH; [|exact H]. econstructor; eauto.
Qed.
Example C96_ex :
  exists w, tw_reach 125 (mkTokenWorld (tk_new 7) []) w /\ token_of (tw_token w) "al" = 0 /\ token_of (tw_token w) "bo" = 200 /\
    tk_supply (tw_token w) = 200 /\ registered (tw_token w) = 2 /\ tk_near (tw_token w) = 7 + 200 + 2 * 125 + 1.
Proof.
  assert (H : tw_run 125 (mkTokenWorld (tk_new 7) []) token_events = Some (default (mkTokenWorld (tk_new 7) []) (tw_run 125 (mkTokenWorld (tk_new 7) []) token_events)))
    by (apply run_default; vm_compute; reflexivity).
  eexists. split; [eapply tw_run_reach; [constructor|exact H]|]. split_and!; vm_compute; reflexivity.
Qed.

(** An interpreter for joint executions. *)
Inductive JTag :=
| JRest (ev : Event) | JArrive (a : AccountId) (x : N) (msg : TokenMsg) | JNotify (id : N) (e : Env) | JRefund (i : nat) | JPay (id : N)
| JMessage (id : N) | JAnswered (id : N) (ans : option N).
Definition j_exec (t : AccountId) (j : Joint) (g : JTag) : option Joint :=
  match g with
  | JRest ev =>
      _ ← ensure (match ev with EvCall _ (CRetrieve _ _) | EvCall _ (CModifyWnear _) => false | EvCall _ _ => true | EvArrive u _ _ _ => negb (String.eqb u t) | EvCallback _ _ => true | _ => false end);
      w ← w_step (j_w j) ev; Some (mkJoint (j_k j) w (j_back j) (j_out j) (j_other j))
  | JArrive a x msg =>
      _ ← ensure (negb (String.eqb a (j_self j))); k ← tk_ft_transfer (j_k j) a (j_self j) x 1; w ← w_step (j_w j) (EvArrive t a x msg);
      Some (mkJoint k w (j_back j) (j_out j) (j_other j))
  | JNotify id e =>
      f ← w_flights (j_w j) !! id;
      match f with
      | Arriving u s x msg =>
          _ ← ensure (String.eqb u t);
          w ← w_step (j_w j) (EvNotify id e);
          match ex_ft_on_transfer (w_ex (j_w j)) e s x msg with
          | Some _ => Some (mkJoint (j_k j) w (j_back j) (j_out j) (j_other j))
          | None => Some (mkJoint (j_k j) w ((s, x) :: j_back j) (j_out j) (j_other j))
          end
      | _ => None
      end
  | JRefund i =>
      '(s, x) ← j_back j !! i;
      '(k, _, _) ← tk_resolve (j_k j) s (j_self j) x None;
      Some (mkJoint k (j_w j) (take i (j_back j) ++ drop (S i) (j_back j)) (j_out j) (j_other j))
  | JPay id =>
      f ← w_flights (j_w j) !! id;
      match f with
      | Leaving (PSend u r x) =>
          _ ← ensure (String.eqb u t);
          k ← tk_ft_transfer (j_k j) (j_self j) r x 1; w ← w_step (j_w j) (EvRemote id true 0); Some (mkJoint k w (j_back j) (j_out j) (j_other j))
      | _ => None
      end
  | JMessage id =>
      f ← w_flights (j_w j) !! id;
      match f with
      | Leaving (PSendMsg u r x) =>
          _ ← ensure (String.eqb u t && bool_decide (j_out j !! id = None));
          k ← tk_ft_transfer (j_k j) (j_self j) r x 1; Some (mkJoint k (j_w j) (j_back j) (<[id := x]> (j_out j)) (j_other j))
      | _ => None
      end
  | JAnswered id ans =>
      f ← w_flights (j_w j) !! id;
      match f with
      | Leaving (PSendMsg u r x) =>
          _ ← ensure (String.eqb u t && bool_decide (j_out j !! id = Some x));
          '(k, u, _) ← tk_resolve (j_k j) (j_self j) r x ans; w ← w_step (j_w j) (EvRemote id true u);
          Some (mkJoint k w (j_back j) (delete id (j_out j)) (j_other j))
      | _ => None
      end
  end.
Fixpoint j_run (t : AccountId) (j : Joint) (l : list JTag) : option Joint :=
  match l with [] => Some j | g :: r => j' ← j_exec t j g; j_run t j' r end.
Lemma j_exec_step t m j g j' : j_exec t j g = Some j' -> j_step t m j j'.
Proof.
  intros H. destruct g; cbn [j_exec] in H.
  - bnd H u Hu. apply ensure_Some in Hu. bnd H w Hw. injection H as <-. eapply js_rest; [| |exact Hw].
    + destruct ev; try discriminate Hu; cbn [elsewhere]; auto. apply negb_true_iff, String.eqb_neq in Hu. exact Hu.
    + destruct ev; try discriminate Hu; cbn [careful]; auto. destruct x; try discriminate Hu; auto.
  - bnd H u Hu. apply ensure_Some, negb_true_iff, String.eqb_neq in Hu. bnd H k Hk. bnd H w Hw. injection H as <-. eapply js_arrive; eauto.
  - bnd H f Hf. destruct f as [u s x msg| |]; try discriminate H. bnd H u' Hu'. apply ensure_Some, String.eqb_eq in Hu'. subst u. bnd H w Hw.
    destruct (ex_ft_on_transfer _ _ _ _ _) as [[c ps]|] eqn:E; injection H as <-; [eapply js_accepted; eauto|eapply js_refused; eauto].
  - bnd H q Hq. destruct q as [s x]. bnd H q' Hq'. destruct q' as [[k u] b]. injection H as <-. eapply js_refund; eauto.
  - bnd H f Hf. destruct f as [|p|]; try discriminate H. destruct p; try discriminate H. bnd H u Hu. apply ensure_Some, String.eqb_eq in Hu. subst.
    bnd H k Hk. bnd H w Hw. injection H as <-. eapply js_pay; eauto.
  - bnd H f Hf. destruct f as [|p|]; try discriminate H. destruct p; try discriminate H. bnd H u Hu. apply ensure_Some, andb_true_iff in Hu as [Hu Ho].
    apply String.eqb_eq in Hu. apply bool_decide_eq_true in Ho. subst. bnd H k Hk. injection H as <-. eapply js_message; eauto.
  - bnd H f Hf. destruct f as [|p|]; try discriminate H. destruct p; try discriminate H. bnd H u Hu. apply ensure_Some, andb_true_iff in Hu as [Hu Ho].
    apply String.eqb_eq in Hu. apply bool_decide_eq_true in Ho. subst. bnd H q Hq. destruct q as [[k u0] b]. bnd H w Hw. injection H as <-. eapply js_answered; eauto.
Qed.
Lemma j_run_reach t m j0 l : forall j j', j_reach t m j0 j -> j_run t j l = Some j' -> j_reach t m j0 j'.
Proof.
  induction l as [|g l IH]; intros j j' Hr H; cbn [j_run] in H; [now injection H as <-|].
  apply bind_Some in H as (j1 & H1 & H). eapply IH; [|exact H]. econstructor; [exact Hr|]. eapply j_exec_step; eauto.
Qed.
(** alice deposits 1000 wrapped NEAR; a transfer by zoe, who is not registered with the exchange, is refused; before its refund
    alice withdraws 400.  All is then paid and returned. *)
Definition joint_start : Joint := mkJoint (mkToken {[ "ref"%string := 0; "al"%string := 5000; "zoe"%string := 700 ]} 5700 9000) w_fresh [] ∅ [].
Definition joint_events : list JTag :=
  [ JRest (EvCall (env 101 "own" 1) (CExtendWhitelist ["wn"; "b"])); JRest (EvCall (env 102 "al" (10 ^ 24)) (CStorageDeposit None false));
    JArrive "al" 1000 MsgDeposit; JArrive "zoe" 700 MsgDeposit; JNotify 0 (env 103 "wn" 0); JNotify 1 (env 104 "wn" 0);
    JRest (EvCall (env 105 "al" 1) (CWithdraw "wn" 400 false None)) ].
Definition j_half : Joint := default joint_start (j_run "wn" joint_start joint_events).
Definition j_full : Joint := default joint_start (j_run "wn" joint_start (joint_events ++ [JPay 2; JRefund 0; JRest (EvCallback 2 (env 106 "ref" 0))])).
Example C97_ex :
  j_start "wn" joint_start /\ tk_supply (j_k joint_start) + 125 * registered (j_k joint_start) <= tk_near (j_k joint_start) /\
  j_reach "wn" 125 joint_start j_half /\ exact_token (w_ex (j_w j_half)) "wn" /\
  j_back j_half = [("zoe"%string, 700)] /\ unsent "wn" j_half = 400 /\ owed (w_ex (j_w j_half)) "wn" = 600 /\ token_of (j_k j_half) "ref" = 1700 /\
  j_reach "wn" 125 joint_start j_full /\ token_of (j_k j_full) "ref" = 600 /\ token_of (j_k j_full) "al" = 4400 /\ token_of (j_k j_full) "zoe" = 700 /\
  total_in_flight (j_w j_full) "wn" = 0.
Proof.
  assert (H : j_run "wn" joint_start joint_events = Some j_half) by (apply run_default; vm_compute; reflexivity).
  assert (H' : j_run "wn" joint_start (joint_events ++ [JPay 2; JRefund 0; JRest (EvCallback 2 (env 106 "ref" 0))]) = Some j_full) by (apply run_default; vm_compute; reflexivity).
  split; [|split; [|split; [|split]]].
  - split; [exact w_fresh_start|]. split; [reflexivity|]. split; [vm_compute; reflexivity|]. split; [vm_compute; reflexivity|]. split; [reflexivity|]. split; reflexivity.
  - vm_compute. discriminate.
  - eapply j_run_reach; [constructor|exact H].
  - apply simple_exact. vm_compute. reflexivity.
  - split; [vm_compute; reflexivity|]. split; [vm_compute; reflexivity|]. split; [vm_compute; reflexivity|]. split; [vm_compute; reflexivity|].
    split; [eapply j_run_reach; [constructor|exact H']|]. split; [vm_compute; reflexivity|]. split; [vm_compute; reflexivity|]. split; vm_compute; reflexivity.
Qed.
