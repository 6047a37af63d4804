(** * Pool shares staked in mock-boost-farming: proofs *)
From Coq Require Import Ascii.
From stdpp Require Import pretty.
From Verif Require Import Base BaseLemmas SimplePool SimplePoolProofs SpecSimple SimplePoolInv StableMath StablePool
  SpecStable StablePoolProofs StablePoolInv Rates Echo Twap Account Pool Exchange SpecExchange AccountProofs PoolFacts
  ExchangeProofs ExchangeInv ExchangeEffect ExchangeFrames SpecWorld WorldProofs SpecSwap SwapProofs SpecHistory HistoryProofs SpecShadow ShadowProofs
  SpecAccess AccessProofs SpecStake PropShares PropOwn PropIds StakeProofs FarmIds SpecLockup.
From Verif Require Import Boost SpecBoost.

(** ** The exchange's side: what a step does to the shares of [fa] and to those on their way to it *)
Definition way (fa : AccountId) (w : World) (ans : gmap N (option N)) (pid : N) : N :=
  msum (fun id n => unstaked fa pid (ans !! id) n) (notices w).
Lemma way_step fa w ans ev w' :
  w_ok w -> fa <> ex_self (w_ex w) ->
  (forall id r, ans !! id = Some r -> is_Some (notices w !! id) /\ (r = None \/ r = Some 0)) ->
  (forall pid, burrow_at (w_ex w) pid fa = 0) ->
  match ev with
  | EvCall e _ => e_caller e <> fa
  | EvMftResolve id _ ret => forall n, notices w !! id = Some n -> nt_to n = fa -> ans !! id = Some ret
  | _ => True
  end ->
  w_step w ev = Some w' ->
  (forall id r, answer_used ans ev !! id = Some r -> is_Some (notices w' !! id) /\ (r = None \/ r = Some 0)) /\
  (forall pid, shares_at (w_ex w) pid fa + way fa w' (answer_used ans ev) pid <= shares_at (w_ex w') pid fa + way fa w ans pid).
Proof.
  intros Hok Hself Hans Hst Hev H.
  pose proof (w_step_notices _ _ _ Hok H) as Hnt.
  assert (Hsp : forall pid, match ev with EvMftResolve _ _ _ => False | _ => True end -> shares_at (w_ex w) pid fa <= shares_at (w_ex w') pid fa).
  { intros pid Hnr. eapply w_step_spares; eauto. destruct ev; auto. }
  destruct (match ev with EvMftResolve _ _ _ => true | EvCall _ x => is_mft_call x | _ => false end) eqn:Ec.
  2: { assert (Hq : notices w' = notices w /\ answer_used ans ev = ans /\ match ev with EvMftResolve _ _ _ => False | _ => True end).
       { destruct ev; try discriminate Ec; auto. destruct x; try discriminate Ec; auto. }
       destruct Hq as (Q1 & Q2 & Q3). split.
       - intros id r Hr. rewrite Q1. rewrite Q2 in Hr. auto.
       - intros pid. specialize (Hsp pid Q3). unfold way. rewrite Q1, ?Q2. lia. }
  destruct ev; try discriminate Ec.
  - destruct x; try discriminate Ec. destruct Hnt as (x & Hx & Hnew & Hnt). cbn [answer_used] in *.
    assert (Hnone : ans !! w_next w = None).
    { destruct (ans !! w_next w) as [r|] eqn:E; [|done]. apply Hans in E as [E _]. rewrite Hnew in E. now destruct E. }
    apply (mft_transfer_moved (w_now w)) in Hx as (Hne & _ & Hm & Hm'); [|apply Hok]. split.
    + intros j r Hr. rewrite Hnt. destruct (Hans _ _ Hr) as [A B]. split; [|done]. destruct (decide (w_next w = j)) as [<-|]; [rewrite lookup_insert; eauto|now rewrite lookup_insert_ne].
    + intros pid. unfold way. rewrite Hnt, msum_insert_None by done. rewrite Hnone.
      assert (K : shares_at (w_ex w') pid fa = shares_at (w_ex w) pid fa + unstaked fa pid None (mkNotice id (e_caller e) receiver x)); [|lia].
      unfold unstaked, mft_moved in *. cbn [nt_to nt_id nt_amount]. destruct (mft_pool_of id) as [q|].
      * destruct Hm as (Hm & _). specialize (Hm pid fa). unfold only in Hm. rewrite (proj2 (String.eqb_neq _ _) Hev) in Hm.
        destruct (N.eqb_spec pid q) as [Epq|Hpq].
        -- subst q. rewrite bool_decide_eq_true_2 by done. rewrite andb_true_r. destruct (String.eqb receiver fa); lia.
        -- rewrite bool_decide_eq_false_2 by congruence. rewrite andb_false_r. lia.
      * destruct Hm as [_ Hm]. rewrite (shares_same _ _ _ _ Hm). rewrite andb_false_r. lia.
  - destruct Hnt as (n & Hn & Hnt & Hc). cbn [answer_used] in *. split.
    + intros j r Hr. apply lookup_delete_Some in Hr as [Hj Hr]. rewrite Hnt, lookup_delete_ne by done. auto.
    + intros pid.
      assert (K : way fa w' (delete id ans) pid + unstaked fa pid (ans !! id) n = way fa w ans pid).
      { unfold way. rewrite (msum_delete _ (notices w) id n Hn). rewrite Hnt, N.add_comm. f_equal.
        apply msum_ext. intros j m Hj. apply lookup_delete_Some in Hj as [Hj _]. now rewrite lookup_delete_ne. }
      pose proof (resolve_takes (w_now w) (w_ex w) n ret (w_ex w') fa pid (ans !! id) (proj1 Hok) Hc) as R.
      assert (nt_to n = fa -> ans !! id = Some ret /\ (ret = None \/ ret = Some 0)) as R1; [|specialize (R R1); lia].
      intros Ht. pose proof (Hev n Hn Ht) as A. split; [done|]. now apply Hans in A as [_ A].
Qed.
(** The farm's answer to a notice *)
Lemma way_answer fa w ans id n r pid :
  notices w !! id = Some n -> ans !! id = None -> nt_to n = fa ->
  way fa w (<[id := r]> ans) pid +
    (match r with Some _ => if bool_decide (mft_pool_of (nt_id n) = Some pid) then nt_amount n else 0 | None => 0 end) = way fa w ans pid.
Proof.
  intros Hn Han Hto. unfold way. rewrite !(msum_delete _ (notices w) id n Hn). rewrite lookup_insert, Han.
  rewrite (msum_ext (fun id0 n0 => unstaked fa pid (<[id := r]> ans !! id0) n0) (fun id0 n0 => unstaked fa pid (ans !! id0) n0)).
  - unfold unstaked at 1 3. rewrite Hto, String.eqb_refl. cbn [andb]. destruct r; destruct (bool_decide _); lia.
  - intros j m Hj. apply lookup_delete_Some in Hj as [Hj _]. now rewrite lookup_insert_ne.
Qed.

(** ** Seeds *)
Lemma sapp_cons' c (s t : string) : String c s +:+ t = String c (s +:+ t).
Proof. reflexivity. Qed.
Lemma after_app p t : after p (p +:+ t) = Some t.
Proof. induction p as [|c p IH]; [now destruct t|]. rewrite sapp_cons'. cbn [after]. now rewrite Ascii.eqb_refl. Qed.
Lemma after_Some p : forall s t, after p s = Some t -> s = p +:+ t.
Proof.
  induction p as [|c p IH]; intros s t H; [cbn [after] in H; destruct s; now injection H as <-|].
  destruct s as [|d s]; cbn [after] in H; [done|]. destruct (Ascii.eqb_spec c d) as [->|]; [|done]. rewrite sapp_cons'. f_equal. auto.
Qed.
Lemma sapp_assoc' (a b c : string) : (a +:+ b) +:+ c = a +:+ (b +:+ c).
Proof. induction a as [|d a IH]; [reflexivity|]. now rewrite !(sapp_cons' d), IH. Qed.
Lemma seed_split ex t : mft_seed ex t = (ex +:+ "@") +:+ t.
Proof. symmetry. apply sapp_assoc'. Qed.
Lemma names_seed ex pid t : names_pool ex pid (mft_seed ex t) = bool_decide (mft_pool_of (String ":" t) = Some pid).
Proof. unfold names_pool. now rewrite seed_split, after_app. Qed.
Lemma names_foreign ex pid s : foreign ex s -> names_pool ex pid s = false.
Proof.
  intros H. unfold names_pool. destruct (after _ s) as [t|] eqn:E; [|done]. apply after_Some in E. rewrite <- seed_split in E. now apply H in E.
Qed.
Lemma bo_seed_inv ex id s : bo_seed_of_mft ex id = Some s -> exists t, id = String ":" t /\ s = mft_seed ex t.
Proof.
  destruct id as [|c t]; cbn [bo_seed_of_mft]; [done|]. destruct (Ascii.eqb_spec c (ascii_of_N 58)) as [->|]; [|done].
  intros H. injection H as <-. exists t. split; reflexivity.
Qed.

(** ** What the farm holds of a pool's shares *)
Definition pool_hold (ex : AccountId) (m : gmap string N) (pid : N) : N := msum (fun s x => if names_pool ex pid s then x else 0) m.
Lemma pool_hold_add ex m pid s x :
  pool_hold ex (<[s := shares_get m s + x]> m) pid = pool_hold ex m pid + (if names_pool ex pid s then x else 0).
Proof.
  unfold pool_hold. pose proof (msum_insert (fun s x => if names_pool ex pid s then x else 0) m s (shares_get m s + x)) as H.
  unfold shares_get in *. destruct (m !! s) as [y|]; cbn in H |- *; destruct (names_pool ex pid s); lia.
Qed.
Lemma pool_hold_list ex pid (l : list string) : forall m, NoDup l -> Forall (fun s => names_pool ex pid s = true) l ->
  lsum (map (shares_get m) l) <= pool_hold ex m pid.
Proof.
  induction l as [|s l IH]; intros m Hn Hf; cbn [map]; [apply N.le_0_l|]. apply NoDup_cons in Hn as [Hs Hn]. apply Forall_cons in Hf as [Hx Hf].
  change (lsum (shares_get m s :: map (shares_get m) l)) with (shares_get m s + lsum (map (shares_get m) l)).
  specialize (IH (delete s m) Hn Hf).
  assert (map (shares_get (delete s m)) l = map (shares_get m) l) as E.
  { clear -Hs. induction l as [|t l IH]; [done|]. apply not_elem_of_cons in Hs as [Hne Hs]. cbn [map]. rewrite IH by done. f_equal.
    unfold shares_get. now rewrite lookup_delete_ne. }
  rewrite E in IH. unfold pool_hold in *. unfold shares_get at 1. destruct (m !! s) as [x|] eqn:Em; cbn [default from_option id].
  - rewrite (msum_delete _ m s x Em). rewrite Hx. unfold id. lia.
  - rewrite delete_notin in IH by done. unfold id. lia.
Qed.
Lemma bstep_hold fl b ev b' : bstep fl b ev = Some b' ->
  bw_hold b' = match ev with
               | BvCall _ _ _ _ => bw_hold b
               | BvToken _ _ s _ x _ | BvGift s x => <[s := shares_get (bw_hold b) s + x]> (bw_hold b)
               end.
Proof.
  intros H. destruct ev; cbn [bstep] in H.
  - bnd H u Hu. bnd H q Hq. destruct q as [c' out]. bnd H n Hn. now injection H as <-.
  - bnd H u Hu. bnd H u1 Hu1. bnd H u2 Hu2. bnd H c' Hc'. now injection H as <-.
  - now injection H as <-.
Qed.

(** ** The invariant *)
Record l_inv (fl : Floats) (fa : AccountId) (l : Lockups) : Prop := {
  li_ok : w_ok (l_w l);
  li_farm : breach fl (l_b l);
  li_self : fa <> l_self l;
  li_answers : forall id r, l_answers l !! id = Some r -> is_Some (notices (l_w l) !! id) /\ (r = None \/ r = Some 0);
  li_stakes : forall pid, farm_at (w_ex (l_w l)) pid fa = 0 /\ burrow_at (w_ex (l_w l)) pid fa = 0;
  li_hold : forall pid, pool_hold (l_self l) (bw_hold (l_b l)) pid + coming fa l pid <= shares_at (w_ex (l_w l)) pid fa;
}.
Lemma l_inv_start fl fa l : l_start fl fa l -> l_inv fl fa l.
Proof.
  intros (Hok & Hf & Hne & Ha & Hn & Hs & Ho). constructor; auto.
  - intros id r H. rewrite Ha, lookup_empty in H. discriminate H.
  - intros pid. assert (coming fa l pid = 0) as ->.
    { apply msum_zero. intros id n Hi. apply Hn in Hi. unfold unstaked. now rewrite (proj2 (String.eqb_neq _ _) Hi). }
    assert (pool_hold (l_self l) (bw_hold (l_b l)) pid = 0) as ->; [|apply N.le_0_l].
    apply msum_zero. intros s x Hx. destruct (names_pool _ _ s) eqn:E; [|done]. unfold names_pool in E.
    destruct (after _ s) as [t|] eqn:Es; [|done]. apply after_Some in Es. rewrite <- seed_split in Es. specialize (Ho t).
    rewrite <- Es in Ho. unfold shares_get in Ho. now rewrite Hx in Ho.
Qed.
Lemma l_inv_step fl fa l l' : l_inv fl fa l -> l_step fl fa l l' -> l_inv fl fa l'.
Proof.
  intros [Hok Hfr Hself Hans Hst Hh] H.
  destruct H as [ev w' Hev H|ev b' Hev H|id n s now msg b' Hn Hto Han Hs H|id n Hn Hto Han].
  - assert (Hok' : w_ok w') by now apply w_step_any in H as (? & _).
    pose proof (same_self _ _ _ Hok H) as Es.
    destruct (way_step fa (l_w l) (l_answers l) ev w' Hok Hself Hans (fun pid => proj2 (Hst pid)) Hev H) as [A B].
    assert (Ek : l_self (mkLockups w' (l_b l) (answer_used (l_answers l) ev)) = l_self l) by exact Es.
    constructor; rewrite ?Ek; cbn [l_w l_b l_answers]; auto.
    + intros pid. destruct (w_step_stakes _ _ _ fa pid Hok H) as [C D]; [destruct ev; cbn [l_exchange_event] in Hev; auto|]. destruct (Hst pid). lia.
    + intros pid. specialize (B pid). specialize (Hh pid). unfold way in B. unfold coming in *. cbn [l_w l_answers]. lia.
  - constructor; auto; cbn [l_w l_b l_answers].
    + econstructor; eauto.
    + intros pid. specialize (Hh pid). change (l_self (mkLockups (l_w l) b' (l_answers l))) with (l_self l).
      change (coming fa (mkLockups (l_w l) b' (l_answers l)) pid) with (coming fa l pid).
      rewrite (bstep_hold _ _ _ _ H). destruct ev; cbn [l_farm_event] in Hev; [exact Hh| |]; rewrite pool_hold_add, names_foreign by done; lia.
  - destruct (bo_seed_inv _ _ _ Hs) as (t & Hid & ->).
    constructor; auto; cbn [l_w l_b l_answers].
    + econstructor; eauto.
    + intros j r Hr. destruct (decide (id = j)) as [<-|Hj]; [rewrite lookup_insert in Hr; injection Hr as <-; split; eauto|rewrite lookup_insert_ne in Hr by done; auto].
    + intros pid. specialize (Hh pid). change (l_self (mkLockups (l_w l) b' (<[id := Some 0]> (l_answers l)))) with (l_self l).
      pose proof (way_answer fa (l_w l) (l_answers l) id n (Some 0) pid Hn Han Hto) as K.
      unfold coming in *. cbn [l_w l_answers]. unfold way in K. cbn iota in K.
      rewrite (bstep_hold _ _ _ _ H), pool_hold_add, names_seed, <- Hid. lia.
  - constructor; auto; cbn [l_w l_b l_answers].
    + intros j r Hr. destruct (decide (id = j)) as [<-|Hj]; [rewrite lookup_insert in Hr; injection Hr as <-; split; eauto|rewrite lookup_insert_ne in Hr by done; auto].
    + intros pid. specialize (Hh pid). change (l_self (mkLockups (l_w l) (l_b l) (<[id := None]> (l_answers l)))) with (l_self l).
      pose proof (way_answer fa (l_w l) (l_answers l) id n None pid Hn Han Hto) as K.
      unfold coming in *. cbn [l_w l_answers]. unfold way in K. lia.
Qed.
Lemma l_inv_reach fl fa l0 l : l_start fl fa l0 -> l_reach fl fa l0 l -> l_inv fl fa l.
Proof. intros Hs H. induction H as [|l l' Hr IH H]; [now apply l_inv_start|]. eapply l_inv_step; eauto. Qed.
