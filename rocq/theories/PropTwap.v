(** * C36: time-weighted average amounts. *)
From Verif Require Import Base BaseLemmas Twap SpecTwap.

Lemma W32_W128_W256 : W128 * W32 < W256. Proof. vm_compute; reflexivity. Qed.
Lemma W128_W256 : W128 < W256. Proof. vm_compute; reflexivity. Qed.
Lemma W256_pos : 0 < W256. Proof. vm_compute; reflexivity. Qed.

(** ** Arithmetic of [weighted] *)

Fixpoint nonincr (h : list Obs) : Prop :=
  match h with
  | o :: ((p :: _) as r) => ob_time p <= ob_time o /\ nonincr r
  | _ => True
  end.
Definition head_time (h : list Obs) : N := match h with o :: _ => ob_time o | [] => 0 end.

Lemma nonincr_le h o : nonincr h -> o ∈ h -> ob_time o <= head_time h.
Proof.
  induction h as [|q [|p r] IH]; intros Hn Hin; [inversion Hin| |].
  - apply elem_of_list_singleton in Hin. subst. cbn. lia.
  - destruct Hn as [H1 H2]. apply elem_of_cons in Hin as [->|Hin]; [cbn; lia|].
    specialize (IH H2 Hin). cbn in IH |- *. lia.
Qed.

Lemma weighted_none h t0 j : nonincr h -> head_time h <= t0 -> weighted h t0 j = 0.
Proof.
  induction h as [|q [|p r] IH]; intros Hn Ht; [done|done|].
  destruct Hn as [H1 H2]. cbn [head_time] in *. change (weighted (q :: p :: r) t0 j) with
    ((if t0 <? ob_time q then ob_amount q j * (ob_time q - ob_time p) else 0) + weighted (p :: r) t0 j).
  rewrite IH by (auto; cbn; lia). destruct (N.ltb_spec t0 (ob_time q)); lia.
Qed.

Lemma weighted_bounds h t0 j lo hi :
  nonincr h -> (exists o, o ∈ h /\ ob_time o = t0) ->
  (forall o, counted t0 o h -> lo <= ob_amount o j <= hi) ->
  lo * (head_time h - t0) <= weighted h t0 j <= hi * (head_time h - t0).
Proof.
  induction h as [|q [|p r] IH]; intros Hn (o & Hin & Ho) Hb; [inversion Hin| |].
  - apply elem_of_list_singleton in Hin. subst. cbn [weighted head_time]. rewrite N.sub_diag. lia.
  - change (weighted (q :: p :: r) t0 j) with
      ((if t0 <? ob_time q then ob_amount q j * (ob_time q - ob_time p) else 0) + weighted (p :: r) t0 j).
    pose proof (nonincr_le _ _ Hn Hin) as Hle. destruct Hn as [H1 H2]. cbn [head_time] in *.
    destruct (N.ltb_spec t0 (ob_time q)) as [Hlt|Hge].
    + assert (Hin' : o ∈ p :: r).
      { apply elem_of_cons in Hin as [->|Hin]; [lia|done]. }
      pose proof (nonincr_le _ _ H2 Hin') as Hp. cbn [head_time] in Hp.
      destruct (IH H2) as [A B]; [now exists o|intros o' Ho'; apply Hb; now constructor|].
      destruct (N.eq_dec (ob_time p) (ob_time q)) as [E|E].
      * rewrite E, N.sub_diag in *. lia.
      * destruct (Hb q) as [C D]; [constructor; lia|].
        assert (Es : ob_time q - t0 = (ob_time q - ob_time p) + (ob_time p - t0)) by lia.
        rewrite Es, !N.mul_add_distr_l. split; apply N.add_le_mono; auto using N.mul_le_mono_r.
    + rewrite weighted_none by (auto; cbn; lia). replace (ob_time q - t0) with 0 by lia. lia.
Qed.

(** ** The state matches the observations *)

Lemma accumulate_spec e cum am r :
  twap_accumulate e cum am = Some r ->
  length r = length cum /\
  forall j c, cum !! j = Some c -> exists a, am !! j = Some a /\ r !! j = Some ((c + a * e) mod W256).
Proof.
  revert am r. induction cum as [|c cum IH]; intros am r H; cbn [twap_accumulate] in H.
  - injection H as <-. split; [done|]. intros j c Hc. by rewrite lookup_nil in Hc.
  - destruct am as [|a am]; [done|]. inv. subst. destruct (IH _ _ ltac:(eassumption)) as [Hl Hr].
    split; [cbn; lia|]. intros [|j] c' Hc; cbn in Hc |- *; [|eauto]. injection Hc as <-. eauto.
Qed.

Record record_ok (h : list Obs) (i : TwapInfo) (r : TwapRecord) : Prop := {
  ro_obs : exists o, o ∈ h /\ ob_time o = tr_time r;
  ro_le : tr_time r <= tw_last i;
  ro_len : length (tr_cum r) = length (tw_cum i);
  ro_cum : forall j c, tr_cum r !! j = Some c -> c < W256 /\
           tw_cum i !! j = Some ((c + weighted h (tr_time r) j) mod W256);
}.

Definition times (i : TwapInfo) : list N := map tr_time (tw_records i).

Record twap_ok (h : list Obs) (i : TwapInfo) : Prop := {
  tk_ne : h <> [];
  tk_head : head_time h = tw_last i;
  tk_time : tw_last i < W32;
  tk_sorted : nonincr h;
  tk_small : Forall (fun o => Forall (fun a => a < W128) (ob_amounts o)) h;
  tk_records : tw_records i <> [];
  tk_count : (length (tw_records i) <= RECORD_COUNT_LIMIT)%nat;
  tk_ok : Forall (record_ok h i) (tw_records i);
}.

Lemma twap_update_cases i now am iv i' :
  twap_update i now am iv = Some i' ->
  (now = tw_last i /\ i' = i) \/
  exists cum rl, tw_records i !! pred (length (tw_records i)) = Some rl /\
    tw_last i < now /\ tr_time rl <= now /\ twap_accumulate (now - tw_last i) (tw_cum i) am = Some cum /\
    tw_last i' = now /\ tw_cum i' = cum /\
    ((now - tr_time rl < iv /\ tw_records i' = tw_records i) \/
     (iv <= now - tr_time rl /\ tw_records i' = tw_records i ++ [mkTwapRecord now cum] /\
      (length (tw_records i ++ [mkTwapRecord now cum]) <= RECORD_COUNT_LIMIT)%nat) \/
     (iv <= now - tr_time rl /\ tw_records i' = tail (tw_records i ++ [mkTwapRecord now cum]) /\
      (RECORD_COUNT_LIMIT < length (tw_records i ++ [mkTwapRecord now cum]))%nat)).
Proof.
  unfold twap_update. intros H. apply bind_Some in H as (rl & Hrl & H).
  apply bind_Some in H as (e & He & H). apply csub_Some in He as [-> Hle].
  destruct (N.ltb_spec 0 (now - tw_last i)) as [Hpos|Hz]; [right|left; injection H as <-; split; [lia|done]].
  apply bind_Some in H as (cum & Hcum & H). apply bind_Some in H as (gap & Hg & H).
  apply csub_Some in Hg as [-> Hg1]. injection H as <-. exists cum, rl. cbn [tw_last tw_cum tw_records].
  split_and!; auto; [lia|].
  destruct (N.leb_spec iv (now - tr_time rl)) as [Hi|Hi]; [right|left; auto].
  destruct (Nat.ltb_spec RECORD_COUNT_LIMIT (length (tw_records i ++ [mkTwapRecord now cum]))); [right|left]; auto.
Qed.

Lemma elem_tail {A} (x : A) l : x ∈ tail l -> x ∈ l.
Proof. destruct l; [done|]. intros. now right. Qed.

Lemma twap_ok_history h i : twap_history h i -> twap_ok h i.
Proof.
  induction 1 as [now am iv Hnow Ham|h i now am iv i' Hh IH Hnow Ham Hu].
  - split; [done|done|done|exact I|constructor; [done|constructor]|done|cbn; unfold RECORD_COUNT_LIMIT; lia|].
    constructor; [|constructor]. split; cbn; [|lia|done|].
    + eexists. split; [left|done].
    + intros j c Hj. rewrite Forall_lookup in Ham. pose proof (Ham _ _ Hj) as Hc. pose proof W128_W256.
      rewrite N.add_0_r, N.mod_small by lia. split; [lia|done].
  - destruct IH as [Hne Hhd Ht Hs Hsm Hr Hcnt Hok].
    destruct h as [|p h]; [done|]. cbn [head_time] in Hhd.
    destruct (twap_update_cases _ _ _ _ _ Hu) as [[Hz ->]|(cum & rl & Hrl & Hlt & Hrle & Hacc & Hlast & Hcum & Hrec)].
    + split; [done|done|done|cbn [nonincr ob_time]; split; [lia|done]|constructor; done|done|done|].
      eapply Forall_impl; [exact Hok|]. intros r [(o & Ho & Hot) Hle Hlen Hc]. split; auto.
      * exists o. split; [now right|done].
      * intros j c Hj. destruct (Hc j c Hj) as [Hc1 Hc2]. split; [done|]. rewrite Hc2.
        change (weighted (mkObs now am iv :: p :: h) (tr_time r) j) with
          ((if tr_time r <? now then ob_amount (mkObs now am iv) j * (now - ob_time p) else 0) + weighted (p :: h) (tr_time r) j).
        rewrite Hhd, <- Hz, N.sub_diag, N.mul_0_r.
        now destruct (tr_time r <? now).
    + destruct (accumulate_spec _ _ _ _ Hacc) as [Hcl Hcj].
      assert (Hold : forall r, record_ok (p :: h) i r -> record_ok (mkObs now am iv :: p :: h) i' r).
      { intros r [(o & Ho & Hot) Hle Hlen Hc]. split.
        - exists o. split; [now right|done].
        - rewrite Hlast. lia.
        - rewrite Hcum, Hcl. done.
        - intros j c Hj. destruct (Hc j c Hj) as [Hc1 Hc2]. split; [done|].
          destruct (Hcj _ _ Hc2) as (a & Ha & Hr'). rewrite Hcum, Hr'. f_equal.
          change (weighted (mkObs now am iv :: p :: h) (tr_time r) j) with
            ((if tr_time r <? now then ob_amount (mkObs now am iv) j * (now - ob_time p) else 0) + weighted (p :: h) (tr_time r) j).
          destruct (N.ltb_spec (tr_time r) now) as [_|]; [|lia].
          unfold ob_amount. cbn [ob_amounts]. rewrite Ha. cbn [default Datatypes.id].
          rewrite Hhd, N.add_mod_idemp_l by (pose proof W256_pos; lia). f_equal. unfold Datatypes.id. lia. }
      assert (Hn' : nonincr (mkObs now am iv :: p :: h)) by (cbn [nonincr ob_time]; split; [lia|done]).
      assert (Hnew : record_ok (mkObs now am iv :: p :: h) i' (mkTwapRecord now cum)).
      { split; cbn [tr_time tr_cum].
        - eexists. split; [left|done].
        - lia.
        - now rewrite Hcum.
        - intros j c Hj. rewrite Hcum, Hj, weighted_none by (auto; cbn [head_time ob_time]; lia).
          rewrite N.add_0_r. assert (c < W256).
          { destruct (lookup_lt_is_Some_2 (tw_cum i) j) as [c0 Hc0].
            { rewrite <- Hcl. apply lookup_lt_is_Some. eauto. }
            destruct (Hcj _ _ Hc0) as (a & _ & Hr'). rewrite Hj in Hr'. injection Hr' as ->.
            apply N.mod_lt. pose proof W256_pos; lia. }
          split; [done|]. now rewrite N.mod_small. }
      assert (Hin : Forall (record_ok (mkObs now am iv :: p :: h) i') (tw_records i ++ [mkTwapRecord now cum])).
      { apply Forall_app. split; [eapply Forall_impl; [exact Hok|exact Hold]|constructor; [exact Hnew|constructor]]. }
      split; auto; try (rewrite Hlast; cbn; done); try (constructor; done).
      * destruct Hrec as [[_ ->]|[[_ [-> _]]|[_ [-> Hgt]]]]; [done| |]; destruct (tw_records i) as [|r0 [|r1 rs]]; cbn; try done.
      * destruct Hrec as [[_ ->]|[[_ [-> Hlen]]|[_ [-> Hgt]]]]; [done|done|].
        rewrite app_length in Hgt. cbn [length] in Hgt. destruct (tw_records i) as [|r0 rs]; [done|].
        cbn [tail app]. rewrite app_length. cbn [length] in *. lia.
      * destruct Hrec as [[_ ->]|[[_ [-> _]]|[_ [-> _]]]]; [|done|].
        -- eapply Forall_impl; [exact Hok|exact Hold].
        -- rewrite Forall_forall in Hin |- *. intros r Hr'. apply Hin, elem_tail, Hr'.
Qed.

(** The number of records never exceeds sixty, and there is always one. *)
Theorem C36_history_bounded h i : twap_history h i -> (1 <= length (tw_records i) <= 60)%nat.
Proof.
  intros H. apply twap_ok_history in H as []. unfold RECORD_COUNT_LIMIT in *.
  destruct (tw_records i); [done|]. cbn [length] in *. lia.
Qed.
Print Assumptions C36_history_bounded.

(** Records are strictly ordered in time, and as far apart as the smallest interval ever in force. *)
Lemma spaced_snoc d l x :
  spaced d l -> (forall y, l !! pred (length l) = Some y -> y + d <= x) -> spaced d (l ++ [x]).
Proof.
  induction l as [|a [|b r] IH]; intros H Hx; [done| |].
  - cbn. split; [apply Hx; done|done].
  - destruct H as [H1 H2]. cbn [app]. split; [done|]. apply IH; [done|]. intros y Hy. apply Hx. exact Hy.
Qed.
Lemma spaced_tail d l : spaced d l -> spaced d (tail l).
Proof. destruct l as [|a [|b r]]; [done|done|]. intros [_ H]. exact H. Qed.

Theorem C36_records_spaced h i iv :
  twap_history h i -> (forall o, o ∈ h -> iv <= ob_interval o) ->
  spaced (N.max 1 iv) (map tr_time (tw_records i)).
Proof.
  induction 1 as [now am iv0 Hnow Ham|h i now am iv0 i' Hh IH Hnow Ham Hu]; intros Hiv; [exact I|].
  assert (IH' := IH (fun o Ho => Hiv o (elem_of_list_further _ _ _ Ho))).
  assert (Hi0 : iv <= iv0) by (apply (Hiv (mkObs now am iv0)); left).
  pose proof (twap_ok_history _ _ Hh) as Hok.
  destruct (twap_update_cases _ _ _ _ _ Hu) as [[_ ->]|(cum & rl & Hrl & Hlt & Hrle & _ & _ & _ & Hrec)]; [done|].
  assert (Hlast : tr_time rl <= tw_last i).
  { pose proof (tk_ok _ _ Hok) as Hf. rewrite Forall_lookup in Hf. exact (ro_le _ _ _ (Hf _ _ Hrl)). }
  assert (Hsn : iv0 <= now - tr_time rl ->
          spaced (N.max 1 iv) (map tr_time (tw_records i ++ [mkTwapRecord now cum]))).
  { intros Hi. rewrite map_app. apply spaced_snoc; [done|]. intros y Hy. rewrite map_length in Hy.
    rewrite list_lookup_fmap, Hrl in Hy. cbn in Hy. injection Hy as <-. cbn [tr_time]. lia. }
  destruct Hrec as [[_ ->]|[[Hi [-> _]]|[Hi [-> _]]]]; [done|auto|].
  specialize (Hsn Hi). apply spaced_tail in Hsn. destruct (tw_records i ++ [mkTwapRecord now cum]); done.
Qed.
Print Assumptions C36_records_spaced.

(** The reported averages are the time-weighted averages of the observations made after the oldest
    record; the wrapping of the accumulator never shows, and nothing but a too young history makes the
    computation fail. *)
Theorem C36_average_exact h i r0 :
  twap_history h i -> tw_records i !! 0%nat = Some r0 ->
  twap_token_amounts i =
    if tw_last i <=? tr_time r0 then None
    else Some (map (fun j => weighted h (tr_time r0) j / (tw_last i - tr_time r0)) (seq 0 (length (tw_cum i)))).
Proof.
  intros Hh Hr0. pose proof (twap_ok_history _ _ Hh) as [Hne Hhd Ht Hs Hsm Hr Hcnt Hok].
  rewrite Forall_lookup in Hok. destruct (Hok _ _ Hr0) as [Hobs Hle Hlen Hcum].
  unfold twap_token_amounts. rewrite Hr0. cbn [mbind option_bind].
  rewrite csub_intro by exact Hle. cbn [mbind option_bind].
  destruct (N.leb_spec (tw_last i) (tr_time r0)) as [Hz|Hpos].
  { replace (tw_last i - tr_time r0) with 0 by lia. done. }
  replace (0 <? tw_last i - tr_time r0) with true by (symmetry; apply N.ltb_lt; lia). cbn [ensure mbind option_bind].
  set (den := tw_last i - tr_time r0).
  assert (Hw : forall j, weighted h (tr_time r0) j <= (W128 - 1) * den).
  { intros j. destruct (weighted_bounds h (tr_time r0) j 0 (W128 - 1) Hs Hobs) as [_ B]; [|now rewrite Hhd in B].
    intros o Ho. split; [lia|]. unfold ob_amount. rewrite Forall_forall in Hsm.
    assert (Hin : o ∈ h) by (clear -Ho; induction Ho; [left|right; auto]).
    specialize (Hsm _ Hin). rewrite Forall_lookup in Hsm. pose proof W128_pos.
    destruct (ob_amounts o !! j) as [a|] eqn:E; cbn [default]; [apply Hsm in E; unfold Datatypes.id; lia|lia]. }
  assert (Hval : forall j x y, tw_cum i !! j = Some x -> tr_cum r0 !! j = Some y ->
            fit W128 ((x + W256 - y) mod W256 / den) = Some (weighted h (tr_time r0) j / den)).
  { intros j x y Hx Hy. destruct (Hcum _ _ Hy) as [Hy1 Hx']. rewrite Hx in Hx'. injection Hx' as ->.
    specialize (Hw j). pose proof W128_pos. pose proof W256_pos. pose proof W32_W128_W256.
    assert (Hd : den < W32) by (subst den; lia).
    set (w := weighted h (tr_time r0) j) in *.
    assert (Hww : w < W256). { assert ((W128 - 1) * den <= W128 * W32) by (apply N.mul_le_mono; lia). lia. }
    assert (Em : ((y + w) mod W256 + W256 - y) mod W256 = w).
    { destruct (N.ltb_spec (y + w) W256) as [A|A].
      - rewrite (N.mod_small (y + w)) by done. replace (y + w + W256 - y) with (w + 1 * W256) by lia.
        rewrite N.mod_add by lia. now apply N.mod_small.
      - assert (E : (y + w) mod W256 = y + w - W256).
        { symmetry. apply (N.mod_unique _ _ 1); lia. }
        rewrite E. replace (y + w - W256 + W256 - y) with w by lia. now apply N.mod_small. }
    rewrite Em. apply fit_intro. apply N.div_lt_upper_bound; [subst den; lia|].
    assert ((W128 - 1) * den < den * W128); [|lia]. rewrite N.mul_sub_distr_r, (N.mul_comm den). 
    assert (den <= W128 * den) by (rewrite <- (N.mul_1_l den) at 1; apply N.mul_le_mono_r; lia).
    subst den. lia. }
  clearbody den. clear Hhd Hw Hcum. revert Hlen Hval.
  set (g := fun j => weighted h (tr_time r0) j / den). intros Hlen Hval.
  change (forall j x y, tw_cum i !! j = Some x -> tr_cum r0 !! j = Some y ->
            fit W128 ((x + W256 - y) mod W256 / den) = Some (g j)) in Hval. clearbody g.
  enough (Hgen : forall k, (forall j x y, tw_cum i !! j = Some x -> tr_cum r0 !! j = Some y ->
            fit W128 ((x + W256 - y) mod W256 / den) = Some (g (k + j)%nat)) ->
    mapM_ (fun '(x, y) => fit W128 ((x + W256 - y) mod W256 / den)) (zip (tw_cum i) (tr_cum r0)) =
    Some (map g (seq k (length (tw_cum i))))) by (apply (Hgen 0%nat); exact Hval).
  clear Hval. revert Hlen. generalize (tr_cum r0). induction (tw_cum i) as [|x xs IHx]; intros [|y ys] Hlen k Hv; try done.
  cbn [zip zip_with mapM_ length seq map].
  rewrite (Hv 0%nat x y) by done. rewrite Nat.add_0_r. cbn [mbind option_bind].
  rewrite (IHx ys ltac:(cbn in Hlen; lia) (S k)); [done|].
  intros j x' y' Hx Hy. rewrite (Hv (S j) x' y') by done. do 2 f_equal. lia.
Qed.
Print Assumptions C36_average_exact.

(** Hence each lies between the smallest and the largest amount counted. *)
Theorem C36_average_between h i l r0 j v lo hi :
  twap_history h i -> twap_token_amounts i = Some l -> tw_records i !! 0%nat = Some r0 -> l !! j = Some v ->
  (forall o, counted (tr_time r0) o h -> lo <= ob_amount o j <= hi) ->
  lo <= v <= hi.
Proof.
  intros Hh Hl Hr0 Hv Hb. rewrite (C36_average_exact _ _ _ Hh Hr0) in Hl.
  destruct (N.leb_spec (tw_last i) (tr_time r0)) as [|Hpos]; [done|]. injection Hl as <-.
  rewrite list_lookup_fmap in Hv. destruct (seq _ _ !! j) as [j'|] eqn:E; [|done].
  apply lookup_seq in E as [-> _]. cbn in Hv. injection Hv as <-.
  pose proof (twap_ok_history _ _ Hh) as [Hne Hhd Ht Hs Hsm Hr Hcnt Hok].
  rewrite Forall_lookup in Hok. destruct (Hok _ _ Hr0) as [Hobs _ _ _].
  destruct (weighted_bounds h (tr_time r0) j lo hi Hs Hobs Hb) as [A B]. rewrite Hhd in A, B.
  split.
  - apply N.div_le_lower_bound; [lia|]. now rewrite N.mul_comm.
  - rewrite <- (N.div_mul hi (tw_last i - tr_time r0)) by lia. apply N.div_le_mono; [lia|done].
Qed.
Print Assumptions C36_average_between.

(** A reported average always spans exactly sixty records. *)
Theorem C36_view_full h i now unit iv l :
  twap_history h i -> now < W32 -> (forall am, unit = Some am -> Forall (fun a => a < W128) am) ->
  twap_view i now unit iv = Some (Some l) ->
  exists am i', unit = Some am /\ twap_history (mkObs now am iv :: h) i' /\
    length (tw_records i') = 60%nat /\ twap_token_amounts i' = Some l.
Proof.
  intros Hh Hnow Ham H. destruct unit as [am|]; [|done]. cbn [twap_view] in H.
  apply bind_Some in H as (i' & Hu & H).
  destruct (Nat.eqb_spec (length (tw_records i')) RECORD_COUNT_LIMIT) as [E|]; [|done].
  apply bind_Some in H as (l' & Hl & [= <-]). exists am, i'. split_and!; auto.
  eapply th_update; eauto.
Qed.
Print Assumptions C36_view_full.

(** A record with one-second spacing: amounts 5 at time 10, 7 from 10 to 20, 9 from 20 to 40. *)
Definition ex_twap : option TwapInfo :=
  i ← twap_update (twap_new 10 [5; 3]) 20 [7; 4] 5; twap_update i 40 [9; 1] 5.
Example C36_ex : exists i, ex_twap = Some i /\
  twap_history [mkObs 40 [9; 1] 5; mkObs 20 [7; 4] 5; mkObs 10 [5; 3] 5] i /\
  twap_token_amounts i = Some [(7 * 10 + 9 * 20) / 30; (4 * 10 + 1 * 20) / 30] /\
  map tr_time (tw_records i) = [10; 20; 40].
Proof.
  eexists. split; [vm_compute; reflexivity|]. split_and!; [|vm_compute; reflexivity..].
  eapply th_update; [eapply th_update; [apply th_new| | |]| | |]; lazymatch goal with
    | |- Forall _ _ => repeat (apply Forall_cons; split; [vm_compute; reflexivity|]); apply Forall_nil; exact I
    | _ => vm_compute; reflexivity
    end.
Qed.
