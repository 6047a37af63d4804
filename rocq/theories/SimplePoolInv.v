(** * Invariant of simple pools over all operations *)
From Verif Require Import Base BaseLemmas Sqrt SqrtProofs SimplePool SimplePoolProofs SpecSimple.

Lemma wf_amount_pos p i x : sp_wf p -> sp_amounts p !! i = Some x -> 0 < x -> 0 < sp_supply p.
Proof.
  intros (_ & _ & (a & b & Ha & _ & _ & [(?&->&->)|(?&?&?)]) & _) Hi Hx; [|done].
  rewrite Ha in Hi. destruct i as [|[|i]]; cbn in Hi; try discriminate; injection Hi as <-; lia.
Qed.

Lemma sp_wf_update p i ain j aout f v p' x y :
  sp_wf p -> i <> j ->
  sp_amounts p !! i = Some x -> sp_amounts p !! j = Some y -> 0 < x -> aout < y ->
  sp_update_pool_and_distribute_fee p i ain j aout f v = Some p' ->
  v = false -> sp_wf p'.
Proof.
  intros Hwf Hij Hi Hj Hx Hao H ->.
  assert (Hs : 0 < sp_supply p) by eauto using wf_amount_pos.
  apply sp_update_inv in H as (x' & y' & r & e & Hi' & Hj' & Hin & _ & -> & _ & Hsup & Hr & _); [|done].
  rewrite Hi in Hi'; injection Hi' as <-. rewrite Hj in Hj'; injection Hj' as <-.
  destruct Hwf as (Hnd & Hlen & (a & b & Ha & HaW & HbW & Hpos) & Hfee & HsW & Hsum).
  unfold sp_wf; cbn [sp_tokens sp_amounts sp_fee sp_shares sp_supply].
  split; [done|]. split; [done|]. split; [|split; [done|split; [auto|]]].
  - rewrite Ha in *.
    destruct i as [|[|i]]; cbn in Hi; try discriminate; injection Hi as ->;
    destruct j as [|[|j]]; cbn in Hj; try discriminate; injection Hj as ->; try done;
    cbn [list_insert insert]; do 2 eexists; (split; [reflexivity|]); lia.
  - rewrite shares_sum_credit. destruct (referral_info f) as [[rid rfee]|] eqn:Er.
    + rewrite shares_sum_credit. lia.
    + lia.
Qed.

Lemma sp_wf_swap p ti a to mn f p' out : sp_wf p -> sp_swap p ti a to mn f false = Some (p', out) -> sp_wf p'.
Proof.
  intros Hwf H. apply sp_swap_inv in H as (_ & _ & i & j & x & y & _ & _ & Hij & Hi & Hj & Hx & Hy & Ha & Hf & -> & H).
  eapply sp_wf_update; [done|exact Hij|exact Hi|exact Hj|done| |exact H|done]. apply cp_out_lt; lia.
Qed.

Lemma sp_wf_swap_by_output p ti a to mx f p' out :
  sp_wf p -> sp_swap_by_output p ti a to mx f false = Some (p', out) -> sp_wf p'.
Proof.
  intros Hwf H. apply sp_swap_by_output_inv in H as (_ & _ & i & j & x & y & _ & _ & Hij & Hi & Hj & Hx & Hy & Ha & Hlt & Hf & -> & H).
  eapply sp_wf_update; [done|exact Hij|exact Hi|exact Hj|done|done|exact H|done].
Qed.

(** ** Liquidity *)
Lemma sp_taken_inv S fair r t : sp_taken S fair r = Some t -> t = r * fair / S + 1 /\ 0 < S.
Proof. unfold sp_taken; intros H; inv; subst; auto. Qed.

Lemma sp_add_inv p s am v p' taken sh :
  sp_wf p -> sp_add_liquidity p s am v = Some (p', taken, sh) ->
  exists x y a b,
    sp_amounts p = [x; y] /\ am = [a; b] /\ 0 < a /\ 0 < b /\ 0 < sh /\
    sp_supply p + sh < W128 /\
    (exists ta tb, taken = [ta; tb] /\ x + ta < W128 /\ y + tb < W128 /\
      p' = mkSimplePool (sp_tokens p) [x + ta; y + tb] (sp_fee p)
             (if v then sp_shares p else credit (sp_shares p) s sh) (sp_supply p + sh) /\
      ((sp_supply p = 0 /\ ta = a /\ tb = b /\ sh = INIT_SHARES_SUPPLY) \/
       (0 < sp_supply p /\ 0 < x /\ 0 < y /\
        sh = N.min ((a - 1) * sp_supply p / x) ((b - 1) * sp_supply p / y) /\
        ta = x * sh / sp_supply p + 1 /\ tb = y * sh / sp_supply p + 1))).
Proof.
  intros (Hnd & Hlen & (x & y & Hxy & HxW & HyW & Hpos) & Hfee & HsW & Hsum) H.
  unfold sp_add_liquidity in H. inv. apply Nat.eqb_eq in Hx.
  destruct am as [|a [|b [|]]]; cbn in Hx; try discriminate Hx.
  subst. bool_inv.
  match goal with H : sp_mint_shares _ _ _ _ = _ |- _ => apply sp_mint_inv in H as [-> HS] end.
  cbn [sp_set_amounts sp_tokens sp_amounts sp_fee sp_shares sp_supply] in *.
  rewrite Hxy in *.
  destruct (N.ltb_spec 0 (sp_supply p)) as [Hs|Hs].
  - destruct Hpos as [(?&?&?)|(_ & Hxp & Hyp)]; [lia|].
    cbn [sp_fair_supply mapM_ vadd] in *. inv. subst. bool_inv. cbn [vadd] in *. inv. subst.
    repeat match goal with H : sp_taken _ _ _ = _ |- _ => apply sp_taken_inv in H as [-> _] end.
    exists x, y, a, b. do 6 (split; [by auto|]). do 2 eexists.
    split; [reflexivity|]. do 2 (split; [by auto|]). split; [reflexivity|]. right.
    assert (Hmin : N.min (N.min (W256 - 1) ((a - 1) * sp_supply p / x)) ((b - 1) * sp_supply p / y)
            = N.min ((a - 1) * sp_supply p / x) ((b - 1) * sp_supply p / y)).
    { assert ((a - 1) * sp_supply p / x <= W256 - 1); [|lia].
      assert ((a - 1) * sp_supply p / x <= (a - 1) * sp_supply p); [|lia].
      apply N.div_le_upper_bound; nia. }
    rewrite Hmin in *. split_and!; auto.
  - inv. subst. cbn [vadd forallb] in *. inv. subst. bool_inv.
    exists x, y, a, b. do 6 (split; [by auto|]). do 2 eexists.
    split; [reflexivity|]. do 2 (split; [by auto|]). split; [reflexivity|]. left.
    split_and!; auto; lia.
Qed.

Lemma sp_wf_add p s am p' taken sh :
  sp_wf p -> sp_add_liquidity p s am false = Some (p', taken, sh) -> sp_wf p'.
Proof.
  intros Hwf H. pose proof Hwf as (Hnd & Hlen & _ & Hfee & HsW & Hsum).
  destruct (sp_add_inv _ _ _ _ _ _ _ Hwf H) as (x & y & a & b & Hxy & -> & Ha & Hb & Hsh & HS &
    ta & tb & -> & Hta & Htb & -> & Hc).
  unfold sp_wf; cbn [sp_tokens sp_amounts sp_fee sp_shares sp_supply].
  split_and!; auto.
  - do 2 eexists. split; [reflexivity|]. split_and!; auto. right.
    assert (0 < ta /\ 0 < tb); [|clear Hc; lia].
    destruct Hc as [(_ & -> & -> & _)|(_ & _ & _ & _ & -> & ->)]; [done|].
    split; apply N.add_pos_r; lia.
  - rewrite shares_sum_credit, Hsum. done.
Qed.

Lemma sp_redeem_inv S s r mn a l :
  sp_redeem S s r mn = Some (a, l) -> 0 < S /\ a = r * s / S /\ mn <= a /\ l = r - a /\ a <= r.
Proof. unfold sp_redeem; intros H; inv; subst. bool_inv. auto. Qed.

Lemma sp_remove_inv p s sh mins v p' out :
  sp_wf p -> sp_remove_liquidity p s sh mins v = Some (p', out) ->
  exists x y m1 m2,
    sp_amounts p = [x; y] /\ mins = [m1; m2] /\ 0 < sp_supply p /\ 0 < x /\ 0 < y /\
    out = [x * sh / sp_supply p; y * sh / sp_supply p] /\
    m1 <= x * sh / sp_supply p /\ m2 <= y * sh / sp_supply p /\
    sh <= sp_supply p /\
    x * sh / sp_supply p <= x /\ y * sh / sp_supply p <= y /\
    (if v then True else exists b, sp_shares p !! s = Some b /\ sh <= b) /\
    p' = mkSimplePool (sp_tokens p) [x - x * sh / sp_supply p; y - y * sh / sp_supply p] (sp_fee p)
           (if v then sp_shares p else <[s := sp_share_balance_of p s - sh]> (sp_shares p))
           (sp_supply p - sh).
Proof.
  intros (Hnd & Hlen & (x & y & Hxy & HxW & HyW & Hpos) & Hfee & HsW & Hsum) H.
  unfold sp_remove_liquidity in H. inv. apply Nat.eqb_eq in Hx. subst.
  destruct mins as [|m1 [|m2 [|]]]; cbn in Hx; try discriminate Hx.
  rewrite Hxy in *. cbn [sp_redeem_all] in *. inv. subst.
  repeat match goal with H : sp_redeem _ _ _ _ = _ |- _ => apply sp_redeem_inv in H as (? & -> & ? & -> & ?) end.
  exists x, y, m1, m2. unfold sp_share_balance_of, shares_get.
  do 2 (split; [done|]). split; [done|]. split; [lia|]. split; [lia|].
  do 6 (split; [done|]).
  destruct v; inv; subst.
  - split; [done|]. done.
  - bool_inv. split; [eauto|].
    match goal with H : sp_shares p !! s = Some _ |- _ => rewrite H end. done.
Qed.

Lemma div_full x S : 0 < S -> x * S / S = x.
Proof. intros. apply N.div_mul. lia. Qed.

Lemma redeem_pos x s S : 0 < x -> s < S -> x * s / S < x.
Proof. intros Hx Hs. apply N.div_lt_upper_bound; nia. Qed.

Lemma sp_wf_remove p s sh mins p' out :
  sp_wf p -> sp_remove_liquidity p s sh mins false = Some (p', out) -> sp_wf p'.
Proof.
  intros Hwf H. pose proof Hwf as (Hnd & Hlen & (x' & y' & Hxy' & HxW & HyW & _) & Hfee & HsW & Hsum).
  destruct (sp_remove_inv _ _ _ _ _ _ _ Hwf H) as (x & y & m1 & m2 & Hxy & -> & HS & Hx & Hy & -> &
    _ & _ & Hsh & Hlx & Hly & (b & Hb & Hsb) & ->).
  rewrite Hxy in Hxy'. injection Hxy' as <- <-.
  unfold sp_wf; cbn [sp_tokens sp_amounts sp_fee sp_shares sp_supply].
  split; [done|]. split; [done|]. split; [|split; [done|split; [dlia|]]].
  - do 2 eexists. split; [reflexivity|]. split; [dlia|]. split; [dlia|].
    destruct (N.eq_dec sh (sp_supply p)) as [->|Hne].
    + left. rewrite !div_full by done. dlia.
    + right. pose proof (redeem_pos x sh (sp_supply p)). pose proof (redeem_pos y sh (sp_supply p)). dlia.
  - pose proof (shares_sum_insert (sp_shares p) s (sp_share_balance_of p s - sh)).
    unfold sp_share_balance_of in *. pose proof (shares_get_Some _ _ _ Hb). dlia.
Qed.

Lemma shares_transfer_sum m s r b bo a :
  m !! s = Some b -> a <= b -> (<[s := b - a]> m) !! r = Some bo ->
  shares_sum (<[r := bo + a]> (<[s := b - a]> m)) = shares_sum m.
Proof.
  intros Hb Hab Hr.
  pose proof (shares_sum_insert m s (b - a)) as H1.
  pose proof (shares_sum_insert (<[s := b - a]> m) r (bo + a)) as H2.
  rewrite (shares_get_Some _ _ _ Hb) in H1. rewrite (shares_get_Some _ _ _ Hr) in H2. dlia.
Qed.

Lemma sp_transfer_inv p s r a p' :
  sp_share_transfer p s r a = Some p' ->
  exists b bo, sp_shares p !! s = Some b /\ a <= b /\
    <[s := b - a]> (sp_shares p) !! r = Some bo /\ bo + a < W128 /\
    p' = sp_set_shares p (<[r := bo + a]> (<[s := b - a]> (sp_shares p))).
Proof. unfold sp_share_transfer; intros H; inv; subst. do 2 eexists; repeat split; eauto. Qed.

Lemma sp_exec_wf p o p' : sp_wf p -> sp_exec p o = Some p' -> sp_wf p'.
Proof.
  intros Hwf H. destruct o; cbn [sp_exec] in H.
  - apply fmap_Some in H as ([q out] & H & ->). eapply sp_wf_swap; eauto.
  - apply fmap_Some in H as ([q out] & H & ->). eapply sp_wf_swap_by_output; eauto.
  - apply fmap_Some in H as ([[q tk] out] & H & ->). eapply sp_wf_add; eauto.
  - apply fmap_Some in H as ([q out] & H & ->). eapply sp_wf_remove; eauto.
  - apply sp_transfer_inv in H as (b & bo & Hb & Hab & Hr & _ & ->).
    destruct Hwf as (Hnd & Hlen & Hxy & Hfee & HsW & Hsum).
    split_and!; auto. cbn. rewrite <- Hsum. now apply shares_transfer_sum.
  - unfold sp_share_register in H; inv; subst.
    destruct Hwf as (Hnd & Hlen & Hxy & Hfee & HsW & Hsum).
    split_and!; auto. cbn. unfold sp_share_has_registered in *. bool_inv.
    apply eq_None_not_Some in Hx.
    pose proof (shares_sum_insert (sp_shares p) a 0). unfold shares_get in *. rewrite Hx in *. cbn in *. dlia.
  - unfold sp_share_unregister in H; inv; subst.
    destruct Hwf as (Hnd & Hlen & Hxy & Hfee & HsW & Hsum).
    split_and!; auto. cbn. bool_inv. subst.
    pose proof (msum_delete_gen (fun _ v => v) (sp_shares p) a). rewrite Hx in *. cbn [contrib] in *.
    unfold shares_sum in *. dlia.
  - destruct (N.ltb_spec fee FEE_DIVISOR); [|discriminate]. inv; subst.
    destruct Hwf as (Hnd & Hlen & Hxy & Hfee & HsW & Hsum). split_and!; auto.
Qed.

Lemma sp_reachable_wf p : sp_reachable p -> sp_wf p.
Proof. induction 1; eauto using sp_new_wf, sp_exec_wf. Qed.

Lemma sp_exec_tokens p o p' : sp_exec p o = Some p' -> sp_wf p -> sp_tokens p' = sp_tokens p.
Proof.
  intros H Hwf. destruct o; cbn [sp_exec] in H.
  - apply fmap_Some in H as ([q out] & H & ->).
    apply sp_swap_inv in H as (_ & _ & i & j & x & y & _ & _ & Hij & _ & _ & _ & _ & _ & _ & _ & H).
    apply sp_update_inv in H as (? & ? & ? & ? & _ & _ & _ & _ & -> & _); done.
  - apply fmap_Some in H as ([q out] & H & ->).
    apply sp_swap_by_output_inv in H as (_ & _ & i & j & x & y & _ & _ & Hij & _ & _ & _ & _ & _ & _ & _ & _ & H).
    apply sp_update_inv in H as (? & ? & ? & ? & _ & _ & _ & _ & -> & _); done.
  - apply fmap_Some in H as ([[q tk] out] & H & ->).
    apply sp_add_inv in H as (? & ? & ? & ? & _ & _ & _ & _ & _ & _ & ? & ? & _ & _ & _ & -> & _); done.
  - apply fmap_Some in H as ([q out] & H & ->).
    apply sp_remove_inv in H as (? & ? & ? & ? & _ & _ & _ & _ & _ & _ & _ & _ & _ & _ & _ & _ & ->); done.
  - apply sp_transfer_inv in H as (b & bo & _ & _ & _ & _ & ->). done.
  - unfold sp_share_register in H; inv; subst. done.
  - unfold sp_share_unregister in H; inv; subst. done.
  - destruct (N.ltb_spec fee FEE_DIVISOR); [|discriminate]. inv; subst. done.
Qed.
