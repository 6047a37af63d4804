(** * The exchange with the books of the token contract: the two agree in every execution *)
From Verif Require Import Base BaseLemmas SimplePool SpecSimple StableMath StablePool SpecStable Rates Account Pool Exchange SpecExchange Token
  SpecWorld SpecToken ExchangeProofs ExchangeInv WorldProofs TokenProofs ExExample PropWorld.

(** Where the flights after an event come from. *)
Lemma w_step_flights w ev w' : w_ok w -> w_step w ev = Some w' ->
  (forall id f, w_flights w' !! id = Some f -> w_flights w !! id = Some f \/ (exists p, f = Leaving p) \/ (exists p ok, f = Answered p ok) \/
     exists u s x msg, ev = EvArrive u s x msg /\ f = Arriving u s x msg) /\
  (forall id u r x, w_flights w !! id = Some (Leaving (PSendMsg u r x)) -> match ev with EvRemote i _ _ => i <> id | _ => True end ->
     w_flights w' !! id = Some (Leaving (PSendMsg u r x))).
Proof.
  intros [Hwf Hids] H.
  assert (Hq : forall c' h m ps now, ids_below m (w_next w) -> w' = w_queue w c' h m ps now ->
    (forall id f, m !! id = Some f -> w_flights w !! id = Some f) ->
    (forall id u r x, w_flights w !! id = Some (Leaving (PSendMsg u r x)) -> m !! id = Some (Leaving (PSendMsg u r x))) ->
    (forall id f, w_flights w' !! id = Some f -> w_flights w !! id = Some f \/ (exists p, f = Leaving p) \/ (exists p ok, f = Answered p ok) \/
       exists u s x msg, ev = EvArrive u s x msg /\ f = Arriving u s x msg) /\
    (forall id u r x, w_flights w !! id = Some (Leaving (PSendMsg u r x)) -> match ev with EvRemote i _ _ => i <> id | _ => True end ->
       w_flights w' !! id = Some (Leaving (PSendMsg u r x)))).
  { intros c' h m ps now Hb -> H1 H2. unfold w_queue. destruct (enqueue m (w_next w) ps) as [m' n'] eqn:E. cbn [w_flights].
    eapply enqueue_spec in E as (_ & _ & _ & D & F); [|exact Hb]. split.
    - intros id f Hf. apply D in Hf as [Hf|(_ & p & _ & ->)]; [left; auto|right; left; eauto].
    - intros id u r x Hf _. pose proof (Hids _ _ Hf) as Hi. rewrite F by exact Hi. auto. }
  assert (Hd : forall id m, w_flights w' = delete id (w_flights w) -> (forall u r x, w_flights w !! id <> Some (Leaving (PSendMsg u r x))) -> m = w' ->
    (forall id f, w_flights w' !! id = Some f -> w_flights w !! id = Some f \/ (exists p, f = Leaving p) \/ (exists p ok, f = Answered p ok) \/
       exists u s x msg, ev = EvArrive u s x msg /\ f = Arriving u s x msg) /\
    (forall id u r x, w_flights w !! id = Some (Leaving (PSendMsg u r x)) -> match ev with EvRemote i _ _ => i <> id | _ => True end ->
       w_flights w' !! id = Some (Leaving (PSendMsg u r x)))).
  { intros id m E Hn _. rewrite E. split.
    - intros i f Hf. apply lookup_delete_Some in Hf as [_ Hf]. auto.
    - intros i u r x Hf _. rewrite lookup_delete_ne; [exact Hf|]. intros ->. now apply (Hn u r x). }
  assert (Hs : w_flights w' = w_flights w ->
    (forall id f, w_flights w' !! id = Some f -> w_flights w !! id = Some f \/ (exists p, f = Leaving p) \/ (exists p ok, f = Answered p ok) \/
       exists u s x msg, ev = EvArrive u s x msg /\ f = Arriving u s x msg) /\
    (forall id u r x, w_flights w !! id = Some (Leaving (PSendMsg u r x)) -> match ev with EvRemote i _ _ => i <> id | _ => True end ->
       w_flights w' !! id = Some (Leaving (PSendMsg u r x)))).
  { intros ->. split; auto. }
  unfold w_step in H. cbv zeta in H. destruct ev.
  - bnd H u Hu. bnd H u' Hu'. bnd H q Hq'. destruct q as [c' ps]. injection H as <-. eapply Hq; [|reflexivity| |]; auto.
  - bnd H u Hu. injection H as <-. cbn [w_flights]. split.
    + intros id f Hf. destruct (decide (w_next w = id)) as [<-|Hne]; [rewrite lookup_insert in Hf; injection Hf as <-; eauto 12|].
      rewrite lookup_insert_ne in Hf by done. auto.
    + intros id u0 r x Hf _. pose proof (Hids _ _ Hf) as Hi. rewrite lookup_insert_ne by lia. exact Hf.
  - bnd H u Hu. bnd H f Hf. destruct f as [t s x msg| |]; try discriminate H. bnd H u' Hu'.
    destruct (ex_ft_on_transfer _ _ _ _ _) as [[c' ps]|] eqn:E.
    + injection H as <-. eapply Hq; [|reflexivity| |].
      * now apply ids_below_delete.
      * intros i g Hi. now apply lookup_delete_Some in Hi as [_ Hi].
      * intros i u0 r y Hi. rewrite lookup_delete_ne; [exact Hi|]. intros ->. congruence.
    + injection H as <-. eapply Hd; [reflexivity| |reflexivity]. intros; congruence.
  - bnd H u Hu. injection H as <-. now apply Hs.
  - bnd H f Hf. destruct f as [|p|]; try discriminate H.
    assert (Hi : forall g h, w' = mkWorld (w_ex w) h (<[id := g]> (w_flights w)) (w_next w) (w_now w) -> (exists p ok, g = Answered p ok) ->
      (forall id f, w_flights w' !! id = Some f -> w_flights w !! id = Some f \/ (exists p, f = Leaving p) \/ (exists p ok, f = Answered p ok) \/
         exists u s x msg, EvRemote id ok used = EvArrive u s x msg /\ f = Arriving u s x msg) /\
      (forall i u r x, w_flights w !! i = Some (Leaving (PSendMsg u r x)) -> id <> i -> w_flights w' !! i = Some (Leaving (PSendMsg u r x)))).
    { intros g h -> Hg. cbn [w_flights]. split.
      - intros i f0 Hf0. destruct (decide (id = i)) as [->|Hne]; [rewrite lookup_insert in Hf0; injection Hf0 as <-; auto|].
        rewrite lookup_insert_ne in Hf0 by done. auto.
      - intros i u r x Hf0 Hne. now rewrite lookup_insert_ne. }
    assert (Hi' : forall h, w' = mkWorld (w_ex w) h (delete id (w_flights w)) (w_next w) (w_now w) ->
      (forall id f, w_flights w' !! id = Some f -> w_flights w !! id = Some f \/ (exists p, f = Leaving p) \/ (exists p ok, f = Answered p ok) \/
         exists u s x msg, EvRemote id ok used = EvArrive u s x msg /\ f = Arriving u s x msg) /\
      (forall i u r x, w_flights w !! i = Some (Leaving (PSendMsg u r x)) -> id <> i -> w_flights w' !! i = Some (Leaving (PSendMsg u r x)))).
    { intros h ->. cbn [w_flights]. split.
      - intros i f0 Hf0. apply lookup_delete_Some in Hf0 as [_ Hf0]. auto.
      - intros i u r x Hf0 Hne. now rewrite lookup_delete_ne. }
    destruct p; try discriminate H; bnd H u Hu; injection H as H;
      (destruct (Hi _ _ (eq_sym H)) as [X Y] || destruct (Hi' _ (eq_sym H)) as [X Y]);
      try (eexists _, _; reflexivity); (split; [intros i f0 Hf0; destruct (X i f0 Hf0) as [X'|[X'|[X'|(? & ? & ? & ? & X' & _)]]]; [auto|auto|auto|discriminate X']|exact Y]).
  - bnd H u Hu. bnd H f Hf. destruct f as [| |p ok]; try discriminate H.
    destruct p; try discriminate H; injection H as <-; (eapply Hd; [reflexivity| |reflexivity]; intros; congruence).
  - bnd H u Hu. bnd H f Hf. destruct f as [|p|]; try discriminate H. destruct p; try discriminate H; injection H as <-; (eapply Hd; [reflexivity| |reflexivity]; intros; congruence).
  - bnd H u Hu. bnd H f Hf. destruct f as [|p|]; try discriminate H. destruct p; try discriminate H; injection H as <-; (eapply Hd; [reflexivity| |reflexivity]; intros; congruence).
  - bnd H u Hu. bnd H c' Hc'. injection H as <-. now apply Hs.
  - bnd H u Hu. bnd H q Hq'. destruct q as [c' ps]. injection H as <-. eapply Hq; [|reflexivity| |]; auto.
  - injection H as <-. now apply Hs.
Qed.

(** Events that do not concern the token leave its books of the exchange alone. *)
Lemma w_step_elsewhere t j ev w' : elsewhere t j ev -> w_step (j_w j) ev = Some w' -> w_hold w' t = w_hold (j_w j) t.
Proof.
  assert (Hc : forall (h : AccountId -> N) u x, u <> t -> credit_hold h u x t = h t).
  { intros h u x Hu. unfold credit_hold. now rewrite (proj2 (String.eqb_neq u t)). }
  assert (Hd : forall (h : AccountId -> N) u x, u <> t -> debit_hold h u x t = h t).
  { intros h u x Hu. unfold debit_hold. now rewrite (proj2 (String.eqb_neq u t)). }
  set (w := j_w j). intros He H. unfold w_step in H. cbv zeta in H. destruct ev; cbn [elsewhere] in He; fold w in He.
  - bnd H u Hu. bnd H u' Hu'. bnd H q Hq'. destruct q as [c' ps]. injection H as <-. now destruct (w_queue_ex w c' (w_hold w) (w_flights w) ps (e_now e)) as (_ & _ & ->).
  - bnd H u Hu. injection H as <-. cbn [w_hold]. auto.
  - bnd H u Hu. bnd H f Hf. rewrite Hf in He. destruct f as [u0 s x msg| |]; try discriminate H. bnd H u' Hu'.
    destruct (ex_ft_on_transfer _ _ _ _ _) as [[c' ps]|] eqn:E; injection H as <-.
    + now destruct (w_queue_ex w c' (w_hold w) (delete id (w_flights w)) ps (e_now e)) as (_ & _ & ->).
    + cbn [w_hold]. auto.
  - bnd H u Hu. injection H as <-. cbn [w_hold]. auto.
  - bnd H f Hf. rewrite Hf in He. destruct f as [|p|]; try discriminate H. destruct p; try discriminate H; bnd H u Hu; injection H as <-; cbn [w_hold]; destruct ok; auto.
  - bnd H u Hu. bnd H f Hf. destruct f as [| |p ok]; try discriminate H. destruct p; try discriminate H; now injection H as <-.
  - bnd H u Hu. bnd H f Hf. destruct f as [|p|]; try discriminate H. destruct p; try discriminate H; now injection H as <-.
  - bnd H u Hu. bnd H f Hf. destruct f as [|p|]; try discriminate H. destruct p; try discriminate H; now injection H as <-.
  - bnd H u Hu. bnd H c' Hc'. now injection H as <-.
  - bnd H u Hu. bnd H q Hq'. destruct q as [c' ps]. injection H as <-. now destruct (w_queue_ex w c' (w_hold w) (w_flights w) ps (e_now e)) as (_ & _ & ->).
  - injection H as <-. cbn [w_hold]. now rewrite (proj2 (String.eqb_neq token t)).
Qed.

Lemma going_le {A} (m : gmap N N) : forall (fl : gmap N A) (g : N -> A -> N),
  (forall id x, m !! id = Some x -> x <= contrib g id (fl !! id)) -> msum (fun _ x => x) m <= msum g fl.
Proof.
  induction m as [|i x m Hi IH] using map_ind; intros fl g H; [rewrite msum_empty; lia|].
  rewrite msum_insert_None by done. rewrite <- (msum_delete_gen g fl i).
  pose proof (H i x (lookup_insert _ _ _)) as Hx. assert (msum (fun _ x => x) m <= msum g (delete i fl)); [|lia].
  apply IH. intros id y Hy. assert (i <> id) by congruence. rewrite lookup_delete_ne by done. apply H. now rewrite lookup_insert_ne.
Qed.
Lemma only_self t x : only t t x = x.
Proof. unfold only. now rewrite String.eqb_refl. Qed.
Lemma flight_le t w id f : w_flights w !! id = Some f -> in_flight t f <= total_in_flight w t.
Proof. intros Hf. unfold total_in_flight. pose proof (msum_lookup_le (fun _ f => in_flight t f) (w_flights w) id) as H. now rewrite Hf in H. Qed.

(** ** The invariant *)
Record j_inv (t : AccountId) (w0 : World) (j : Joint) : Prop := {
  ji_backed : w_backed t w0 (j_w j);
  ji_books : token_of (j_k j) (j_self j) + going j = w_hold (j_w j) t + returning j;
  ji_out : forall id x, j_out j !! id = Some x -> exists r, w_flights (j_w j) !! id = Some (Leaving (PSendMsg t r x)) /\ r <> j_self j /\ is_Some (tk_bal (j_k j) !! j_self j);
  ji_back : Forall (fun q => q.1 <> j_self j) (j_back j);
  ji_arriving : forall id s x msg, w_flights (j_w j) !! id = Some (Arriving t s x msg) -> s <> j_self j;
  ji_other : Forall (fun q => q.1.1 <> j_self j /\ q.1.2 <> j_self j /\ q.1.1 <> q.1.2) (j_other j);
  ji_wf : tk_wf (j_k j);
}.
Lemma ji_going t w0 j : j_inv t w0 j -> going j <= total_in_flight (j_w j) t.
Proof.
  intros Hj. apply going_le. intros id x Hx. apply (ji_out _ _ _ Hj) in Hx as (r & Hf & _). rewrite Hf. cbn [contrib in_flight promised retrieved]. rewrite only_self. lia.
Qed.
Lemma lsum_take_drop (l : list (AccountId * N)) i s x : l !! i = Some (s, x) -> lsum (snd <$> l) = x + lsum (snd <$> (take i l ++ drop (S i) l)).
Proof.
  intros H. rewrite <- (take_drop_middle l i (s, x) H) at 1. rewrite !fmap_app, !lsum_app. cbn [fmap list_fmap snd].
  change (lsum (x :: (snd <$> drop (S i) l))) with (x + lsum (snd <$> drop (S i) l)). unfold fmap. lia.
Qed.
Lemma Forall_take_drop {A} (P : A -> Prop) l i : Forall P l -> Forall P (take i l ++ drop (S i) l).
Proof. intros H. apply Forall_app. split; [now apply Forall_take|now apply Forall_drop]. Qed.
Lemma w_step_self w ev w' : w_ok w -> w_step w ev = Some w' -> ex_self (w_ex w') = ex_self (w_ex w).
Proof. intros Hok H. now apply w_step_any in H as (_ & _ & _ & _ & H). Qed.

(** One event of the world. *)
Lemma j_world t w0 j ev w k back out other :
  w_start w0 -> j_inv t w0 j -> honest t ev -> careful t (j_w j) ev -> w_step (j_w j) ev = Some w ->
  token_of k (j_self j) + msum (fun (_ : N) x => x) out = w_hold w t + lsum (snd <$> back) ->
  (forall id x, out !! id = Some x -> j_out j !! id = Some x /\ match ev with EvRemote i _ _ => i <> id | _ => True end) ->
  (is_Some (tk_bal (j_k j) !! j_self j) -> is_Some (tk_bal k !! j_self j)) ->
  Forall (fun q => q.1 <> j_self j) back ->
  match ev with EvArrive u s _ _ => u = t -> s <> j_self j | _ => True end ->
  Forall (fun q => q.1.1 <> j_self j /\ q.1.2 <> j_self j /\ q.1.1 <> q.1.2) other -> tk_wf k ->
  j_inv t w0 (mkJoint k w back out other).
Proof.
  intros Hs Hj Hh Hc H Hb Ho Hr Hk Ha Ht Hw. destruct (w_backed_sound _ _ _ Hs (ji_backed _ _ _ Hj)) as (Hok & _).
  pose proof (w_step_self _ _ _ Hok H) as Eself. destruct (w_step_flights _ _ _ Hok H) as [F1 F2].
  assert (E : j_self (mkJoint k w back out other) = j_self j) by exact Eself. constructor; rewrite ?E; cbn [j_k j_w j_back j_out j_other]; auto.
  - eapply w_backed_step; eauto. apply (ji_backed _ _ _ Hj).
  - intros id x Hx. apply Ho in Hx as [Hx Hev]. apply (ji_out _ _ _ Hj) in Hx as (r & Hf & Hrs & Hreg). exists r. split; [|auto]. now apply F2.
  - intros id s x msg Hf. apply F1 in Hf as [Hf|[[p Hf]|[(p & ok & Hf)|(u & s0 & x0 & msg0 & -> & Hf)]]]; try discriminate Hf.
    + now apply (ji_arriving _ _ _ Hj) in Hf.
    + injection Hf as -> -> -> ->. now apply Ha.
Qed.
(** One event of the token contract. *)
Lemma j_books t w0 j k back out other :
  j_inv t w0 j -> token_of k (j_self j) + msum (fun (_ : N) x => x) out = w_hold (j_w j) t + lsum (snd <$> back) ->
  (forall id x, out !! id = Some x -> exists r, w_flights (j_w j) !! id = Some (Leaving (PSendMsg t r x)) /\ r <> j_self j /\ is_Some (tk_bal k !! j_self j)) ->
  Forall (fun q => q.1 <> j_self j) back -> Forall (fun q => q.1.1 <> j_self j /\ q.1.2 <> j_self j /\ q.1.1 <> q.1.2) other -> tk_wf k ->
  j_inv t w0 (mkJoint k (j_w j) back out other).
Proof. intros Hj Hb Ho Hk Ht Hw. constructor; auto; [apply (ji_backed _ _ _ Hj)|apply (ji_arriving _ _ _ Hj)]. Qed.

Lemma j_step_inv t m w0 j j' : w_start w0 -> j_inv t w0 j -> exact_token (w_ex (j_w j)) t -> j_step t m j j' -> j_inv t w0 j'.
Proof.
  intros Hs Hj Hx H. pose proof (ji_books _ _ _ Hj) as Hb. pose proof (ji_going _ _ _ Hj) as Hg. pose proof (ji_wf _ _ _ Hj) as Hw.
  destruct (w_backed_sound _ _ _ Hs (ji_backed _ _ _ Hj)) as (_ & _ & _ & Hsol). specialize (Hsol Hx).
  pose proof (ji_out _ _ _ Hj) as Ho. pose proof (ji_back _ _ _ Hj) as Hbk. pose proof (ji_other _ _ _ Hj) as Hot.
  unfold returning, going in *.
  destruct H as [a x k Ha Hr H|x|a r x y k Ha Hr H|i s r x ans k u b Hi H|a x y k w Ha H Hg'|a x y msg k w Ha H Hw'|id e s x msg c ps w Hf He H|id e s x msg w Hf He H
    |i s x k u b Hi H|id p r x k w Hf Hp Hk H|id r x k w Hf Hk H|id p r x w Hf Hp Hout H|id r x k Hf Hout Hk|id r x ans k u b w Hf Hout Hk H|ev w Hel Hc H].
  - destruct (call_frame _ _ _ _ _ (j_self j) H) as [Ef Er]; [auto|destruct x; cbn [receiver_of]; congruence|].
    apply j_books; auto; [congruence| |apply (call_moved m) in H as [H _]; auto]. intros id x0 Hx0. apply Ho in Hx0 as (r & A & B & C). eauto.
  - apply j_books; auto.
  - assert (Ef := H). apply transfer_effect in Ef as (Hne & _ & _ & _ & Ef & Hd & _). apply j_books; auto.
    + rewrite Ef by auto. exact Hb.
    + intros id x0 Hx0. apply Ho in Hx0 as (r0 & A & B & C). exists r0. split_and!; auto. now apply Hd.
    + apply (transfer_moved m) in H as [H _]. auto.
  - pose proof (Forall_lookup_1 _ _ _ _ Hot Hi) as (Q1 & Q2 & Q3). cbn [fst snd] in Q1, Q2, Q3.
    destruct (resolve_effect _ _ _ _ _ _ _ _ Q3 H) as (_ & _ & _ & Ef & Hd & _). apply j_books; auto.
    + rewrite Ef by auto. exact Hb.
    + intros id x0 Hx0. apply Ho in Hx0 as (r0 & A & B & C). exists r0. split_and!; auto. now apply Hd.
    + now apply Forall_take_drop.
    + apply (resolve_moved m) in H as [H _]; auto.
  - assert (Ef := H). apply transfer_effect in Ef as (Hne & _ & _ & Er & _ & Hd & _).
    apply (j_world t w0 j (EvGift t x)); auto.
    + exact I.
    + exact I.
    + cbn [w_step] in Hg'. cbv zeta in Hg'. bnd Hg' u Hu. injection Hg' as <-. cbn [w_hold]. unfold credit_hold. rewrite String.eqb_refl, Er. lia.
    + intros Hreg. now apply Hd.
    + apply (transfer_moved m) in H as [H _]. auto.
  - assert (Ef := H). apply transfer_effect in Ef as (Hne & _ & _ & Er & _ & Hd & _).
    apply (j_world t w0 j (EvArrive t a x msg)); auto.
    + exact I.
    + exact I.
    + cbn [w_step] in Hw'. cbv zeta in Hw'. bnd Hw' u Hu. injection Hw' as <-. cbn [w_hold]. unfold credit_hold. rewrite String.eqb_refl, Er. lia.
    + intros Hreg. now apply Hd.
    + apply (transfer_moved m) in H as [H _]. auto.
  - apply (j_world t w0 j (EvNotify id e)); auto; try exact I.
    cbn [w_step] in H. cbv zeta in H. bnd H u Hu. rewrite Hf in H. cbn [mbind option_bind] in H. bnd H u' Hu'. rewrite He in H. injection H as <-.
    destruct (w_queue_ex (j_w j) c (w_hold (j_w j)) (delete id (w_flights (j_w j))) ps (e_now e)) as (_ & _ & ->). exact Hb.
  - apply (j_world t w0 j (EvNotify id e)); auto; try exact I.
    + cbn [w_step] in H. cbv zeta in H. bnd H u Hu. rewrite Hf in H. cbn [mbind option_bind] in H. bnd H u' Hu'. rewrite He in H. injection H as <-.
      cbn [w_hold]. unfold debit_hold. rewrite String.eqb_refl. apply (flight_le t) in Hf. cbn [in_flight] in Hf. rewrite only_self in Hf.
      cbn [fmap list_fmap snd]. change (lsum (x :: (snd <$> j_back j))) with (x + lsum (snd <$> j_back j)). rewrite N.min_l by lia. unfold fmap in *. lia.
    + constructor; [|exact Hbk]. now apply (ji_arriving _ _ _ Hj) in Hf.
  - pose proof (Forall_lookup_1 _ _ _ _ Hbk Hi) as Q. cbn [fst] in Q. pose proof (lsum_take_drop _ _ _ _ Hi) as El.
    destruct (resolve_effect _ _ _ _ _ _ _ _ Q H) as (Er & _ & _ & _ & Hd & _). apply j_books; auto.
    + rewrite N.min_r in Er by lia. lia.
    + intros id x0 Hx0. apply Ho in Hx0 as (r0 & A & B & C). exists r0. split_and!; auto. now apply Hd.
    + now apply Forall_take_drop.
    + apply (resolve_moved m) in H as [H _]; auto.
  - assert (Ef := Hk). apply transfer_effect in Ef as (Hne & _ & Es & _ & _ & Hd & _).
    apply (j_world t w0 j (EvRemote id true 0)); auto; try exact I.
    + cbn [w_step] in H. cbv zeta in H. rewrite Hf in H. cbn [mbind option_bind] in H.
      destruct Hp as [-> | ->]; bnd H u Hu; apply ensure_Some in Hu; cbn [negb orb] in Hu; apply N.leb_le in Hu; injection H as <-; cbn [w_hold]; unfold debit_hold; rewrite String.eqb_refl; lia.
    + intros i x0 Hx0. split; [auto|]. intros ->. apply Ho in Hx0 as (r0 & A & _). rewrite A in Hf. injection Hf as Hf. destruct Hp; congruence.
    + intros Hreg. now apply Hd.
    + apply (transfer_moved m) in Hk as [Hk _]. auto.
  - assert (Hk' : tk_call m (j_k j) (j_self j) (TkNearWithdraw x 1) = Some k) by exact Hk.
    apply (call_moved m) in Hk' as [Hk' _].
    unfold tk_near_withdraw in Hk. bnd Hk u Hu. bnd Hk k1 H1. bnd Hk y Hy. apply tk_withdraw_inv in H1 as (b0 & Hb0 & A & B & ->). apply tk_pay_inv in Hk as [_ ->].
    cbn [tk_attach tk_bal tk_supply tk_near] in *. assert (Et : token_of (j_k j) (j_self j) = b0) by (unfold token_of; now rewrite Hb0).
    apply (j_world t w0 j (EvRemote id true 0)); auto; try exact I.
    + cbn [w_step] in H. cbv zeta in H. rewrite Hf in H. cbn [mbind option_bind] in H. bnd H u' Hu'. apply ensure_Some in Hu'; cbn [negb orb] in Hu'; apply N.leb_le in Hu'.
      injection H as <-. cbn [w_hold]. unfold debit_hold. rewrite token_insert, !String.eqb_refl. lia.
    + intros i x0 Hx0. split; [auto|]. intros ->. apply Ho in Hx0 as (r0 & A' & _). congruence.
    + intros _. cbn [tk_bal]. rewrite lookup_insert. eauto.
  - apply (j_world t w0 j (EvRemote id false 0)); auto; try exact I.
    + cbn [w_step] in H. cbv zeta in H. rewrite Hf in H. cbn [mbind option_bind] in H.
      destruct Hp as [-> | [-> | [-> | ->]]]; bnd H u Hu; injection H as <-; exact Hb.
    + intros i x0 Hx0. split; [auto|]. intros ->. congruence.
  - assert (Ef := Hk). apply transfer_effect in Ef as (Hne & _ & Es & _ & _ & Hd & _ & _ & Hsr & _). apply j_books; auto.
    + rewrite msum_insert_None by done. lia.
    + intros i x0 Hx0. destruct (decide (id = i)) as [->|Hn].
      * rewrite lookup_insert in Hx0. injection Hx0 as <-. exists r. split_and!; auto. now apply Hd.
      * rewrite lookup_insert_ne in Hx0 by done. apply Ho in Hx0 as (r0 & A & B & C). exists r0. split_and!; auto. now apply Hd.
    + apply (transfer_moved m) in Hk as [Hk _]. auto.
  - destruct (Ho _ _ Hout) as (r0 & A & B & C). rewrite A in Hf. injection Hf as ->.
    destruct (resolve_effect _ _ _ _ _ _ _ _ (not_eq_sym B) Hk) as (Er & Ereg & _ & _ & Hd & _). destruct (Ereg C) as (E1 & E2 & _ & _).
    apply (j_world t w0 j (EvRemote id true u)); auto; try exact I.
    + cbn [w_step] in H. cbv zeta in H. rewrite A in H. cbn [mbind option_bind] in H. bnd H u' Hu'. apply ensure_Some in Hu'. cbn [negb orb] in Hu'.
      apply andb_true_iff in Hu' as [U1 U2]. apply N.leb_le in U1, U2. injection H as <-. cbn [w_hold]. unfold debit_hold. rewrite String.eqb_refl.
      pose proof (msum_delete (fun (_ : N) x => x) _ _ _ Hout) as Ed. cbn beta in Ed. lia.
    + intros i x0 Hx0. apply lookup_delete_Some in Hx0 as [Hn Hx0]. auto.
    + intros Hreg. now apply Hd.
    + apply (resolve_moved m) in Hk as [Hk _]; auto.
  - apply (j_world t w0 j ev); auto.
    + destruct ev; cbn [elsewhere honest] in *; auto.
    + rewrite (w_step_elsewhere _ _ _ _ Hel H). exact Hb.
    + intros id x0 Hx0. split; [auto|]. destruct ev; auto. intros ->. apply Ho in Hx0 as (r0 & A & _). cbn [elsewhere] in Hel. rewrite A in Hel. congruence.
    + destruct ev; auto.
Qed.
