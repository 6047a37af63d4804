(** * The exchange among token contracts: proofs *)
From Verif Require Import Base BaseLemmas SimplePool SimplePoolProofs SpecSimple SimplePoolInv StableMath StablePool
  SpecStable StablePoolProofs StablePoolInv Rates Echo Twap Account Pool Exchange SpecExchange AccountProofs PoolFacts
  ExchangeProofs ExchangeInv ExchangeEffect ExchangeFrames SpecWorld.

Lemma ex_wf_later n n' c : n <= n' -> ex_wf n c -> ex_wf n' c.
Proof. apply ex_wf_mono. Qed.
Lemma next_time_inv w now u : next_time w now = Some u -> w_now w <= now /\ now < 2 ^ 64.
Proof. unfold next_time. intros H. apply ensure_Some in H. bool_inv. lia. Qed.

(** ** Queues *)
Definition ids_below (m : gmap N Flight) (n : N) : Prop := forall i f, m !! i = Some f -> i < n.
Lemma ids_below_insert m n i f : ids_below m n -> i < n -> ids_below (<[i := f]> m) n.
Proof. intros H Hi j g Hj. destruct (decide (i = j)) as [->|Hne]; [done|]. rewrite lookup_insert_ne in Hj by done. eauto. Qed.
Lemma ids_below_fresh m n f : ids_below m n -> ids_below (<[n := f]> m) (n + 1).
Proof. intros H j g Hj. destruct (decide (n = j)) as [->|Hne]; [lia|]. rewrite lookup_insert_ne in Hj by done. apply H in Hj. lia. Qed.
Lemma ids_below_delete m n i : ids_below m n -> ids_below (delete i m) n.
Proof. intros H j g Hj. apply lookup_delete_Some in Hj as [_ Hj]. eauto. Qed.
Lemma ids_below_None m n : ids_below m n -> m !! n = None.
Proof. intros H. destruct (m !! n) eqn:E; [|done]. apply H in E. lia. Qed.
Lemma enqueue_spec ps : forall m n m' n', ids_below m n -> enqueue m n ps = (m', n') ->
  ids_below m' n' /\ n <= n' /\
  (forall t, msum (fun _ f => in_flight t f) m' = msum (fun _ f => in_flight t f) m + lsum ((fun p => promised t p + retrieved t p) <$> ps)) /\
  (forall i f, m' !! i = Some f -> m !! i = Some f \/ n <= i /\ exists p, p ∈ ps /\ f = Leaving p) /\
  (forall i, i < n -> m' !! i = m !! i).
Proof.
  induction ps as [|p ps IH]; intros m n m' n' Hb H; cbn [enqueue] in H.
  - injection H as <- <-. split_and!; auto; try lia. intros t. cbn. lia.
  - apply IH in H as (A & B & C & D & F); [|now apply ids_below_fresh]. split_and!; auto; [lia| | |].
    + intros t. rewrite C, msum_insert_None by now apply ids_below_None. cbn [fmap list_fmap lsum fold_right]. unfold lsum. cbn [in_flight]. cbn. lia.
    + intros i f Hi. apply D in Hi as [Hi|(Hn & q & Hq & ->)].
      * destruct (decide (n = i)) as [->|Hne]; [rewrite lookup_insert in Hi; injection Hi as <-|rewrite lookup_insert_ne in Hi by done; auto].
        right. split; [lia|]. exists p. split; [left|done].
      * right. split; [lia|]. exists q. split; [now right|done].
    + intros i Hi. rewrite F by lia. rewrite lookup_insert_ne; [done|lia].
Qed.

(** ** In all executions *)
(** Facts of every reachable world. *)
Definition w_ok (w : World) : Prop := ex_wf (w_now w) (w_ex w) /\ ids_below (w_flights w) (w_next w).
Lemma w_queue_ids w c h m ps now : ids_below m (w_next w) -> let w' := w_queue w c h m ps now in ids_below (w_flights w') (w_next w').
Proof.
  intros Hb. cbv zeta. unfold w_queue. destruct (enqueue m (w_next w) ps) as [m' n'] eqn:E. cbn. now eapply enqueue_spec in E as (A & _).
Qed.
Lemma w_queue_ex w c h m ps now : w_ex (w_queue w c h m ps now) = c /\ w_now (w_queue w c h m ps now) = now /\ w_hold (w_queue w c h m ps now) = h.
Proof. unfold w_queue. destruct (enqueue m (w_next w) ps). done. Qed.

Lemma ex_callback_withdraw_moved c e t r x ok c' :
  ex_wf (e_now e) c -> ex_callback_withdraw c e t r x ok = Some c' ->
  moved (e_now e) c c' nothing (fun u => if ok then 0 else only t u x).
Proof.
  unfold ex_callback_withdraw. intros Hwf H. destruct ok; [injection H as <-; exact (moved_refl _ _ Hwf)|].
  apply ex_handle_fail_inv in H. eapply recredit_moved; eauto.
Qed.
Lemma ex_callback_near_moved c e t r x ok q :
  cf_wnear (ex_cfg c) = Some t -> ex_wf (e_now e) c -> ex_callback_near c e r x ok = Some q ->
  moved (e_now e) c (fst q) nothing (fun u => if ok then 0 else only t u x).
Proof.
  unfold ex_callback_near. intros Ht Hwf H. destruct ok; [injection H as <-; exact (moved_refl _ _ Hwf)|].
  rewrite Ht in H. cbn [mbind option_bind] in H. bnd H c1 H1. injection H as <-. cbn [fst].
  apply ex_handle_fail_inv in H1. eapply recredit_moved; eauto.
Qed.
Lemma ex_oracle_moved c now a c' : ex_wf now c -> ex_oracle c now a = Some c' -> moved now c c' nothing nothing.
Proof. unfold ex_oracle. intros Hwf H. bnd H s Hs. injection H as <-. now apply moved_same. Qed.
(** What one event does to the exchange. *)
Definition any_moved (now : N) (c c' : Exchange) : Prop := ex_wf now c' /\ pools_extend c c' /\ ex_self c' = ex_self c.
Lemma moved_any now c c' o i : moved now c c' o i -> any_moved now c c'.
Proof. intros (A & B & C & _). split_and!; auto. Qed.
Lemma any_moved_refl now c : ex_wf now c -> any_moved now c c.
Proof. intros H. eapply moved_any, moved_refl, H. Qed.
Lemma recredit_any c e s t x c' : ex_wf (e_now e) c -> recredit c e s t x c' -> any_moved (e_now e) c c'.
Proof. intros A B. eapply moved_any, recredit_moved; eauto. Qed.
Lemma ex_callback_near_any c e r x ok q : ex_wf (e_now e) c -> ex_callback_near c e r x ok = Some q -> any_moved (e_now e) c (fst q).
Proof.
  intros Hwf H. destruct ok; [injection H as <-; now apply any_moved_refl|].
  destruct (cf_wnear (ex_cfg c)) as [t|] eqn:Ht.
  - eapply moved_any, (ex_callback_near_moved _ _ t); eauto.
  - unfold ex_callback_near in H. rewrite Ht in H. discriminate H.
Qed.
Lemma w_step_any w ev w' :
  w_ok w -> w_step w ev = Some w' -> w_ok w' /\ w_now w <= w_now w' /\ any_moved (w_now w') (w_ex w) (w_ex w').
Proof.
  intros [Hwf Hids] H.
  assert (Hq : forall c' h m ps now, ids_below m (w_next w) -> w_now w <= now -> any_moved now (w_ex w) c' -> w' = w_queue w c' h m ps now ->
    w_ok w' /\ w_now w <= w_now w' /\ any_moved (w_now w') (w_ex w) (w_ex w')).
  { intros c' h m ps now Hb Hn Hm ->. pose proof (w_queue_ids w c' h m ps now Hb) as Hi. cbv zeta in Hi.
    destruct (w_queue_ex w c' h m ps now) as (A & B & _). unfold w_ok. rewrite A, B. destruct Hm as (Hm1 & Hm2). split_and!; auto. split; auto. }
  assert (Hk : forall c' h m n now, ids_below m n -> w_now w <= now -> any_moved now (w_ex w) c' -> w' = mkWorld c' h m n now ->
    w_ok w' /\ w_now w <= w_now w' /\ any_moved (w_now w') (w_ex w) (w_ex w')).
  { intros c' h m n now Hb Hn Hm ->. unfold w_ok. cbn. destruct Hm as (Hm1 & Hm2). split_and!; auto. split; auto. }
  unfold w_step in H. cbv zeta in H. destruct ev.
  - bnd H u Hu. apply next_time_inv in Hu as [Hn HW]. bnd H u' Hu'. apply ensure_Some in Hu'. bool_inv. bnd H q Hq'. destruct q as [c' ps].
    injection H as <-. eapply Hq; [| | |reflexivity]; auto. eapply moved_any, ex_call_moved; eauto using ex_wf_later.
  - bnd H u Hu. injection H as <-. eapply Hk; [| | |reflexivity]; [now apply ids_below_fresh|lia|now apply any_moved_refl].
  - bnd H u Hu. apply next_time_inv in Hu as [Hn HW]. bnd H f Hf. destruct f as [t s x msg| |]; try discriminate H.
    bnd H u' Hu'. destruct (ex_ft_on_transfer _ _ _ _ _) as [[c' ps]|] eqn:E.
    + injection H as <-. eapply Hq; [| | |reflexivity]; [now apply ids_below_delete|auto|].
      eapply moved_any, ex_ft_on_transfer_moved; eauto using ex_wf_later.
    + injection H as <-. eapply Hk; [| | |reflexivity]; [now apply ids_below_delete|auto|]. apply any_moved_refl. eauto using ex_wf_later.
  - bnd H u Hu. injection H as <-. eapply Hk; [| | |reflexivity]; [done|lia|now apply any_moved_refl].
  - bnd H f Hf. pose proof (Hids _ _ Hf) as Hid. destruct f as [|p|]; try discriminate H.
    destruct p; try discriminate H; bnd H u Hu; injection H as <-; (eapply Hk; [| | |reflexivity];
      [first [now apply ids_below_insert|now apply ids_below_delete]|lia|now apply any_moved_refl]).
  - bnd H u Hu. apply next_time_inv in Hu as [Hn HW]. bnd H f Hf. pose proof (ex_wf_later _ _ _ Hn Hwf) as Hwf'.
    destruct f as [| |p ok]; try discriminate H.
    destruct p; try discriminate H; injection H as <-; (eapply Hk; [| | |reflexivity]; [now apply ids_below_delete|auto|]).
    + destruct (ex_callback_withdraw _ _ _ _ _ _) eqn:E; cbn; [|now apply any_moved_refl]. eapply moved_any, ex_callback_withdraw_moved; eauto.
    + destruct (ex_callback_withdraw _ _ _ _ _ _) eqn:E; cbn; [|now apply any_moved_refl]. eapply moved_any, ex_callback_withdraw_moved; eauto.
    + destruct (ex_callback_near _ _ _ _ _) eqn:E; cbn; [|now apply any_moved_refl]. eapply ex_callback_near_any; eauto.
  - bnd H u Hu. apply next_time_inv in Hu as [Hn HW]. bnd H f Hf. pose proof (ex_wf_later _ _ _ Hn Hwf) as Hwf'.
    destruct f as [|p|]; try discriminate H.
    destruct p; try discriminate H; injection H as <-; (eapply Hk; [| | |reflexivity]; [now apply ids_below_delete|auto|]).
    destruct (ex_mft_resolve _ _ _ _ _ _) eqn:E; cbn; [|now apply any_moved_refl]. eapply moved_any, ex_mft_resolve_moved; eauto.
  - bnd H u Hu. apply next_time_inv in Hu as [Hn HW]. bnd H f Hf. pose proof (ex_wf_later _ _ _ Hn Hwf) as Hwf'.
    destruct f as [|p|]; try discriminate H.
    destruct p; try discriminate H; injection H as <-; (eapply Hk; [| | |reflexivity]; [now apply ids_below_delete|auto|]).
    destruct (ex_callback_shadow _ _ _ _ _ _ _ _) as [[c' ps]|] eqn:E; cbn; [|now apply any_moved_refl]. eapply moved_any, ex_callback_shadow_moved; eauto.
  - bnd H u Hu. apply next_time_inv in Hu as [Hn HW]. bnd H c' Hc'. injection H as <-. eapply Hk; [| | |reflexivity]; auto.
    eapply moved_any, ex_oracle_moved; eauto using ex_wf_later.
  - bnd H u Hu. apply next_time_inv in Hu as [Hn HW]. bnd H q Hq'. destruct q as [c' ps].
    injection H as <-. eapply Hq; [| | |reflexivity]; auto. eapply moved_any, ex_ft_on_transfer_moved; eauto using ex_wf_later.
  - injection H as <-. eapply Hk; [| | |reflexivity]; [done|lia|now apply any_moved_refl].
Qed.

(** ** Solvency *)
Lemma ex_callback_cfg c e t r x ok c' : ex_callback_withdraw c e t r x ok = Some c' -> ex_cfg c' = ex_cfg c.
Proof.
  unfold ex_callback_withdraw. intros H. destruct ok; [now injection H as <-|]. apply ex_handle_fail_inv in H. now apply recredit_settings in H as (-> & _).
Qed.
Lemma ex_callback_near_cfg c e r x ok q : ex_callback_near c e r x ok = Some q -> ex_cfg (fst q) = ex_cfg c.
Proof.
  unfold ex_callback_near. intros H. destruct ok; [now injection H as <-|]. bnd H t Ht. bnd H c1 H1. injection H as <-. cbn [fst].
  apply ex_handle_fail_inv in H1. now apply recredit_settings in H1 as (-> & _).
Qed.
Lemma ex_mft_resolve_cfg c id s r x ret c' : ex_mft_resolve c id s r x ret = Some c' -> ex_cfg c' = ex_cfg c.
Proof. intros H. apply ex_mft_resolve_inv in H as [[-> _]|(bal & _ & _ & _ & H)]; [done|]. now apply ex_mft_transfer_settings in H as (-> & _). Qed.
Lemma ex_callback_shadow_cfg c e act s pid x fee ok q : ex_callback_shadow c e act s pid x fee ok = Some q -> ex_cfg (fst q) = ex_cfg c.
Proof.
  destruct q as [c' ps]. cbn [fst].
  intros H. apply ex_callback_shadow_inv in H as [(_ & _ & -> & ->)|[(_ & _ & -> & acc & acc1 & Ha & Hu & _ & ->)|(_ & acc & acc1 & Ha & Hu & _ & -> & ->)]]; done.
Qed.

Definition unwraps_current (w : World) : Prop :=
  forall i f u, w_flights w !! i = Some f -> is_unwrap f = Some u -> cf_wnear (ex_cfg (w_ex w)) = Some u.
(** What is owed is held, up to [d] units. *)
Definition covers (t : AccountId) (d : N) (w : World) : Prop :=
  w_hold w t < W128 /\ owed (w_ex w) t + total_in_flight w t <= w_hold w t + d.
Definition w_sound (t : AccountId) (d : N) (w : World) : Prop := w_ok w /\ unwraps_current w /\ covers t d w.

Lemma credit_hold_at h t x u : credit_hold h t x u = h u + only t u x.
Proof. unfold credit_hold, only. destruct (String.eqb t u); lia. Qed.
Lemma debit_hold_at h t x u : debit_hold h t x u = h u - only t u x.
Proof. unfold debit_hold, only. destruct (String.eqb t u); lia. Qed.
Lemma only_le t u x : only t u x <= x.
Proof. unfold only. destruct (String.eqb t u); lia. Qed.
Lemma retrieved_none c ps t : Forall (wnear_promise c) ps -> lsum ((fun p => promised t p + retrieved t p) <$> ps) = promised_all t ps.
Proof.
  unfold promised_all. induction 1 as [|p ps Hp _ IH]; [done|]. cbn [fmap list_fmap lsum] in *. rewrite IH. destruct p; cbn [retrieved wnear_promise] in *; try lia; contradiction.
Qed.
(** Queueing the promises of a call. *)
Lemma covers_queue t d w c' h m ps now :
  ids_below m (w_next w) -> h t < W128 ->
  owed c' t + msum (fun _ f => in_flight t f) m + lsum ((fun p => promised t p + retrieved t p) <$> ps) <= h t + d ->
  covers t d (w_queue w c' h m ps now).
Proof.
  intros Hb Hh H. unfold w_queue, covers, total_in_flight. destruct (enqueue m (w_next w) ps) as [m' n'] eqn:E. cbn [w_hold w_ex w_flights].
  split; [done|]. apply enqueue_spec in E as (_ & _ & Hs & _); [|done]. rewrite Hs. lia.
Qed.
Lemma unwraps_queue w c' h m ps now :
  ids_below m (w_next w) -> (forall i f u, m !! i = Some f -> is_unwrap f = Some u -> cf_wnear (ex_cfg c') = Some u) ->
  (forall p, p ∈ ps -> match p with PUnwrap u _ _ => cf_wnear (ex_cfg c') = Some u | _ => True end) ->
  unwraps_current (w_queue w c' h m ps now).
Proof.
  intros Hb Hm Hp. unfold w_queue, unwraps_current. destruct (enqueue m (w_next w) ps) as [m' n'] eqn:E. cbn [w_ex w_flights].
  apply enqueue_spec in E as (_ & _ & _ & Hs & _); [|done]. intros i f u Hi Hf. apply Hs in Hi as [Hi|(_ & p & Hin & ->)]; [eauto|].
  specialize (Hp _ Hin). destruct p; try discriminate Hf. now injection Hf as <-.
Qed.
Lemma wnear_elem c c' ps p : Forall (wnear_promise c) ps -> cf_wnear (ex_cfg c') = cf_wnear (ex_cfg c) -> p ∈ ps ->
  match p with PUnwrap u _ _ => cf_wnear (ex_cfg c') = Some u | _ => True end.
Proof. intros H He Hp. eapply Forall_forall in H; [|exact Hp]. destruct p; try done. cbn in H. now rewrite He. Qed.
Lemma is_unwrap_kept (m : gmap N Flight) i f (P : AccountId -> Prop) :
  (forall j g u, m !! j = Some g -> is_unwrap g = Some u -> P u) -> (forall u, is_unwrap f = Some u -> P u) ->
  forall j g u, <[i := f]> m !! j = Some g -> is_unwrap g = Some u -> P u.
Proof.
  intros Hm Hf j g u Hj Hg. destruct (decide (i = j)) as [->|Hne].
  - rewrite lookup_insert in Hj. injection Hj as <-. auto.
  - rewrite lookup_insert_ne in Hj by done. eauto.
Qed.
Lemma is_unwrap_delete (m : gmap N Flight) i (P : AccountId -> Prop) :
  (forall j g u, m !! j = Some g -> is_unwrap g = Some u -> P u) -> forall j g u, delete i m !! j = Some g -> is_unwrap g = Some u -> P u.
Proof. intros Hm j g u Hj. apply lookup_delete_Some in Hj as [_ Hj]. eauto. Qed.
Lemma flights_delete t (m : gmap N Flight) i f : m !! i = Some f ->
  msum (fun _ f => in_flight t f) m = in_flight t f + msum (fun _ f => in_flight t f) (delete i m).
Proof. intros H. now rewrite (msum_delete (fun _ f => in_flight t f) m i f H). Qed.
Lemma flights_replace t (m : gmap N Flight) i f g : m !! i = Some f ->
  msum (fun _ f => in_flight t f) (<[i := g]> m) + in_flight t f = msum (fun _ f => in_flight t f) m + in_flight t g.
Proof. intros H. pose proof (msum_insert (fun _ f => in_flight t f) m i g) as E. rewrite H in E. cbn [contrib] in E. lia. Qed.

Lemma keeps_cover t now c c' o i m m' d (h h' : N) :
  moved now c c' o i -> h' < W128 -> owed c t + m <= h + d -> (owed c t + m <= h + d -> i t + m' + h <= o t + m + h') ->
  h' < W128 /\ owed c' t + m' <= h' + d.
Proof.
  intros (_ & Hx & _ & Hm) Hh Hc Hi. split; [done|]. specialize (Hm t). specialize (Hi Hc). lia.
Qed.
Lemma w_step_sound t d w ev w' :
  w_sound t d w -> honest t ev -> careful t w ev -> w_step w ev = Some w' -> w_sound t (d + rounded t w ev) w'.
Proof.
  intros (Hok & Hun & Hh & Hc) Hhon Hcar H. split; [now eapply w_step_any in H as (A & _)|]. destruct Hok as [Hwf Hids].
  unfold w_step in H. cbv zeta in H. unfold total_in_flight in Hc. destruct ev; cbn [honest careful rounded] in Hhon, Hcar |- *; rewrite ?N.add_0_r.
  - bnd H u Hu. apply next_time_inv in Hu as [Hn HW]. bnd H u' Hu'. apply ensure_Some in Hu'. bool_inv. bnd H q Hq'. destruct q as [c' ps].
    injection H as <-. pose proof (ex_wf_later _ _ _ Hn Hwf) as Hwf'.
    assert (Hm : moved (e_now e) (w_ex w) c' (fun t => promised_all t ps) (call_rounding (w_ex w) x)) by (eapply ex_call_moved; eauto).
    destruct (is_retrieve x) eqn:Er.
    + destruct x; try discriminate Er. clear Er. cbn [ex_call] in Hq'. apply ex_retrieve_inv in Hq' as (_ & _ & -> & ->).
      split; [apply unwraps_queue; auto; intros p Hp; apply elem_of_list_singleton in Hp as ->; exact I|].
      apply covers_queue; auto. cbn [fmap list_fmap lsum promised retrieved].
      unfold only. destruct (String.eqb token t) eqn:Et; [|lia]. apply String.eqb_eq in Et. specialize (Hcar Et). unfold total_in_flight in Hcar. lia.
    + pose proof (ex_call_wnear _ _ _ _ _ Er Hq') as Hw. clear Er. split.
      * destruct (match x with CModifyWnear _ => true | _ => false end) eqn:Ew.
        -- destruct x; try discriminate Ew. apply settings_promises in Hq' as ->; [|done..].
           apply unwraps_queue; [done| |intros p Hp; now apply elem_of_nil in Hp]. intros i f v Hi Hf. rewrite (Hcar _ _ Hi) in Hf. discriminate Hf.
        -- apply ex_call_keeps_wnear in Hq' as He; [|now destruct x]. apply unwraps_queue; [done|rewrite He; auto|]. intros p Hp. eapply wnear_elem; eauto.
      * apply covers_queue; auto. rewrite (retrieved_none _ _ _ Hw).
        destruct Hm as (_ & Hxt & _ & Hm). specialize (Hm t). lia.
  - bnd H u Hu. apply fit_Some in Hu as [-> Hfit]. injection H as <-. split.
    + unfold unwraps_current. cbn [w_ex w_flights]. apply is_unwrap_kept; auto. discriminate.
    + unfold covers, total_in_flight. cbn [w_hold w_ex w_flights]. rewrite credit_hold_at, msum_insert_None by now apply ids_below_None.
      cbn [in_flight]. split; [|lia]. unfold only. destruct (String.eqb token t) eqn:Et; [|lia].
      apply String.eqb_eq in Et as ->. lia.
  - bnd H u Hu. apply next_time_inv in Hu as [Hn HW]. bnd H f Hf. destruct f as [t' s x msg| |]; try discriminate H.
    bnd H u' Hu'. apply ensure_Some, String.eqb_eq in Hu'. pose proof (ex_wf_later _ _ _ Hn Hwf) as Hwf'.
    pose proof (flights_delete t _ _ _ Hf) as Hd. cbn [in_flight] in Hd.
    destruct (ex_ft_on_transfer _ _ _ _ _) as [[c' ps]|] eqn:E.
    + injection H as <-. assert (Hb : ids_below (delete id (w_flights w)) (w_next w)) by now apply ids_below_delete.
      pose proof (ex_ft_on_transfer_wnear _ _ _ _ _ _ _ E) as Hw. pose proof (ex_ft_on_transfer_settings _ _ _ _ _ _ _ E) as (Hcfg & _).
      assert (Hm : moved (e_now e) (w_ex w) c' (fun t => promised_all t ps) (fun u => only (e_caller e) u x)) by (eapply ex_ft_on_transfer_moved; eauto).
      split.
      * apply unwraps_queue; [done| |intros p; eapply wnear_elem; [exact Hw|now rewrite Hcfg]]. rewrite Hcfg. now apply is_unwrap_delete.
      * apply covers_queue; auto. rewrite (retrieved_none _ _ _ Hw).
        destruct Hm as (_ & Hxt & _ & Hm). specialize (Hm t). cbn beta in Hm. rewrite Hu' in Hm. lia.
    + injection H as <-. split; [unfold unwraps_current; cbn [w_ex w_flights]; now apply is_unwrap_delete|].
      unfold covers, total_in_flight. cbn [w_hold w_ex w_flights]. rewrite debit_hold_at.
      split; [lia|]. unfold only in *. destruct (String.eqb t' t) eqn:Et; [|lia]. apply String.eqb_eq in Et as ->. lia.
  - bnd H u Hu. apply fit_Some in Hu as [-> Hfit]. injection H as <-. split; [exact Hun|].
    unfold covers, total_in_flight. cbn [w_hold w_ex w_flights]. rewrite credit_hold_at. unfold only. destruct (String.eqb token t) eqn:Et; [|split; [lia|lia]].
    apply String.eqb_eq in Et as ->. split; [lia|lia].
  - bnd H f Hf. destruct f as [|p|]; try discriminate H.
    assert (Ha : forall ok, is_unwrap (Answered p ok) = is_unwrap (Leaving p)) by (intros; now destruct p).
    assert (Hun' : forall ok h n now, unwraps_current (mkWorld (w_ex w) h (<[id := Answered p ok]> (w_flights w)) n now)).
    { intros. unfold unwraps_current. cbn [w_ex w_flights]. apply is_unwrap_kept; [exact Hun|]. intros u Hu. rewrite Ha in Hu. eapply Hun; eauto. }
    destruct p as [t' r x|t' r x|t' r x|t' r x| | | |]; try discriminate H; bnd H u Hu; apply ensure_Some in Hu; injection H as <-.
    4: { split; [unfold unwraps_current; cbn [w_ex w_flights]; now apply is_unwrap_delete|].
         unfold covers, total_in_flight. cbn [w_hold w_ex w_flights]. pose proof (flights_delete t _ _ _ Hf) as Hd. cbn [in_flight promised retrieved] in Hd.
         destruct ok; [|split; [done|lia]]. rewrite debit_hold_at. split; [lia|].
         lia. }
    all: split; [apply Hun'|]; clear Hun' Ha; unfold covers, total_in_flight; cbn [w_hold w_ex w_flights];
      pose proof (flights_replace t _ _ _ (Answered (PSend t' r x) ok) Hf) as Hd1;
      pose proof (flights_replace t _ _ _ (Answered (PSendMsg t' r x) ok) Hf) as Hd2;
      pose proof (flights_replace t _ _ _ (Answered (PUnwrap t' r x) ok) Hf) as Hd3;
      cbn [in_flight promised retrieved] in Hd1, Hd2, Hd3;
      (destruct ok; [|split; [done|lia]]); rewrite debit_hold_at; (split; [lia|]);
      unfold only in *; destruct (String.eqb t' t); [|lia].
    + lia.
    + cbn [negb orb] in Hu. bool_inv. lia.
    + lia.
  - bnd H u Hu. apply next_time_inv in Hu as [Hn HW]. bnd H f Hf. pose proof (ex_wf_later _ _ _ Hn Hwf) as Hwf'.
    destruct f as [| |p ok]; try discriminate H. pose proof (flights_delete t _ _ _ Hf) as Hd. cbn [in_flight] in Hd.
    assert (Hgo : forall c', ex_cfg c' = ex_cfg (w_ex w) -> moved (e_now e) (w_ex w) c' nothing (fun u => if ok then 0 else promised u p) ->
      let w' := mkWorld c' (w_hold w) (delete id (w_flights w)) (w_next w) (e_now e) in unwraps_current w' /\ covers t d w').
    { intros c' Hcfg Hm. split; [unfold unwraps_current; cbn [w_ex w_flights]; rewrite Hcfg; now apply is_unwrap_delete|].
      unfold covers, total_in_flight. cbn [w_hold w_ex w_flights]. eapply keeps_cover; [exact Hm|exact Hh|exact Hc|]. intros _. cbn beta. unfold nothing. lia. }
    assert (Hsame : moved (e_now e) (w_ex w) (w_ex w) nothing (fun u => if ok then 0 else promised u p)).
    { eapply moved_weaken; [now apply moved_refl|]. intros q. unfold nothing. lia. }
    destruct p; try discriminate H; injection H as <-; apply Hgo.
    + destruct (ex_callback_withdraw _ _ _ _ _ _) eqn:E; cbn; [|done]. eapply ex_callback_cfg; eauto.
    + destruct (ex_callback_withdraw _ _ _ _ _ _) eqn:E; cbn [default from_option Datatypes.id]; [|exact Hsame]. exact (ex_callback_withdraw_moved _ _ _ _ _ _ _ Hwf' E).
    + destruct (ex_callback_withdraw _ _ _ _ _ _) eqn:E; cbn; [|done]. eapply ex_callback_cfg; eauto.
    + destruct (ex_callback_withdraw _ _ _ _ _ _) eqn:E; cbn [default from_option Datatypes.id]; [|exact Hsame]. exact (ex_callback_withdraw_moved _ _ _ _ _ _ _ Hwf' E).
    + destruct (ex_callback_near _ _ _ _ _) eqn:E; cbn; [|done]. eapply ex_callback_near_cfg; eauto.
    + pose proof (Hun _ _ _ Hf eq_refl) as Hcw.
      destruct (ex_callback_near _ _ _ _ _) as [q|] eqn:E; cbn [fmap option_fmap option_map default from_option Datatypes.id]; [|exact Hsame].
      exact (ex_callback_near_moved _ _ _ _ _ _ _ Hcw Hwf' E).
  - bnd H u Hu. apply next_time_inv in Hu as [Hn HW]. bnd H f Hf. pose proof (ex_wf_later _ _ _ Hn Hwf) as Hwf'.
    destruct f as [|p|]; try discriminate H. pose proof (flights_delete t _ _ _ Hf) as Hd. cbn [in_flight] in Hd.
    destruct p; try discriminate H; injection H as <-. cbn [promised retrieved] in Hd.
    destruct (ex_mft_resolve _ _ _ _ _ _) eqn:E; cbn [default from_option Datatypes.id].
    + split; [unfold unwraps_current; cbn [w_ex w_flights]; rewrite (ex_mft_resolve_cfg _ _ _ _ _ _ _ E); now apply is_unwrap_delete|].
      unfold covers, total_in_flight. cbn [w_hold w_ex w_flights]. eapply keeps_cover; [eapply ex_mft_resolve_moved; eauto|exact Hh|exact Hc|]. intros _. unfold nothing. lia.
    + split; [unfold unwraps_current; cbn [w_ex w_flights]; now apply is_unwrap_delete|].
      unfold covers, total_in_flight. cbn [w_hold w_ex w_flights]. split; [done|]. lia.
  - bnd H u Hu. apply next_time_inv in Hu as [Hn HW]. bnd H f Hf. pose proof (ex_wf_later _ _ _ Hn Hwf) as Hwf'.
    destruct f as [|p|]; try discriminate H. pose proof (flights_delete t _ _ _ Hf) as Hd. cbn [in_flight] in Hd.
    destruct p; try discriminate H; injection H as <-. cbn [promised retrieved] in Hd.
    destruct (ex_callback_shadow _ _ _ _ _ _ _ _) as [[c' ps]|] eqn:E; cbn [fmap option_fmap option_map default from_option Datatypes.id fst].
    + split; [unfold unwraps_current; cbn [w_ex w_flights]; pose proof (ex_callback_shadow_cfg _ _ _ _ _ _ _ _ _ E) as Hcfg; cbn [fst] in Hcfg; rewrite Hcfg; now apply is_unwrap_delete|].
      unfold covers, total_in_flight. cbn [w_hold w_ex w_flights]. eapply keeps_cover; [eapply ex_callback_shadow_moved; eauto|exact Hh|exact Hc|]. intros _. unfold nothing. lia.
    + split; [unfold unwraps_current; cbn [w_ex w_flights]; now apply is_unwrap_delete|].
      unfold covers, total_in_flight. cbn [w_hold w_ex w_flights]. split; [done|]. lia.
  - bnd H u Hu. apply next_time_inv in Hu as [Hn HW]. bnd H c' Hc'. injection H as <-. pose proof (ex_wf_later _ _ _ Hn Hwf) as Hwf'. split.
    + unfold unwraps_current. cbn [w_ex w_flights]. replace (ex_cfg c') with (ex_cfg (w_ex w)); [exact Hun|]. unfold ex_oracle in Hc'. bnd Hc' s Hs. injection Hc' as <-. done.
    + unfold covers, total_in_flight. cbn [w_hold w_ex w_flights]. eapply keeps_cover; [eapply ex_oracle_moved; eauto|exact Hh|exact Hc|]. intros _. unfold nothing. lia.
  - bnd H u Hu. apply next_time_inv in Hu as [Hn HW]. bnd H q Hq'. destruct q as [c' ps]. pose proof (ex_wf_later _ _ _ Hn Hwf) as Hwf'.
    injection H as <-. pose proof (ex_ft_on_transfer_wnear _ _ _ _ _ _ _ Hq') as Hw. pose proof (ex_ft_on_transfer_settings _ _ _ _ _ _ _ Hq') as (Hcfg & _).
    assert (Hm : moved (e_now e) (w_ex w) c' (fun t => promised_all t ps) (fun u => only (e_caller e) u amount)) by (eapply ex_ft_on_transfer_moved; eauto).
    split.
    + apply unwraps_queue; [done| |intros p; eapply wnear_elem; [exact Hw|now rewrite Hcfg]]. rewrite Hcfg. exact Hun.
    + apply covers_queue; auto. rewrite (retrieved_none _ _ _ Hw).
      destruct Hm as (_ & Hxt & _ & Hm). specialize (Hm t). cbn beta in Hm. unfold only in Hm.
      destruct (String.eqb (e_caller e) t) eqn:Et; [apply String.eqb_eq in Et; contradiction|lia].
  - injection H as <-. split; [exact Hun|]. unfold covers, total_in_flight. cbn [w_hold w_ex w_flights].
    destruct (String.eqb token t) eqn:Et; [apply String.eqb_eq in Et; contradiction|done].
Qed.
