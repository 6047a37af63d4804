(** * Events of the exchange as pool operations: proofs *)
From Verif Require Import Base BaseLemmas SimplePool SimplePoolProofs SpecSimple SimplePoolInv SimpleFacts StableMath StablePool
  SpecStable StablePoolProofs StablePoolInv Rates Echo Twap Account Pool Exchange SpecExchange AccountProofs PoolFacts
  ExchangeProofs ExchangeInv ExchangeEffect ExchangeFrames SpecWorld WorldProofs SpecSwap SwapProofs SpecHistory HistoryProofs SpecPaths.

Lemma pl_run_app rs now os1 os2 : forall p, pl_run rs now p (os1 ++ os2) = p' ← pl_run rs now p os1; pl_run rs now p' os2.
Proof. induction os1 as [|o r IH]; intros p; cbn [pl_run app]; [reflexivity|]. destruct (pl_exec rs now p o); cbn [mbind option_bind]; [apply IH|reflexivity]. Qed.

(** From [c] to [c'] the pool [pid] undergoes [os]. *)
Definition path (now pid : N) (c c' : Exchange) (os : list pl_op) : Prop :=
  forall p, ex_pool c pid = Some p -> exists p', pl_run (ex_rates c) now p os = Some p' /\ ex_pool c' pid = Some p'.
Lemma path_same now pid c c' : ex_pools c' = ex_pools c -> path now pid c c' [].
Proof. intros H p Hp. exists p. split; [reflexivity|]. unfold ex_pool in *. now rewrite H. Qed.
Lemma path_pools now pid c c1 c' os : ex_pools c' = ex_pools c1 -> path now pid c c1 os -> path now pid c c' os.
Proof. intros H K p Hp. destruct (K p Hp) as (p' & A & B). exists p'. split; [exact A|]. unfold ex_pool in *. now rewrite H. Qed.
Lemma path_append now pid c c' x : ex_pools c' = ex_pools c ++ [x] -> path now pid c c' [].
Proof. intros H p Hp. exists p. split; [reflexivity|]. unfold ex_pool in *. rewrite H. now apply lookup_app_l_Some. Qed.
Lemma path_trans now pid c1 c2 c3 os1 os2 : ex_rates c2 = ex_rates c1 -> path now pid c1 c2 os1 -> path now pid c2 c3 os2 -> path now pid c1 c3 (os1 ++ os2).
Proof.
  intros Hr H1 H2 p Hp. destruct (H1 p Hp) as (p1 & A & B). destruct (H2 p1 B) as (p2 & C & D). exists p2. rewrite pl_run_app, A. cbn [mbind option_bind]. now rewrite Hr in C.
Qed.
Lemma path_put now pid c q p p' o : ex_pool c q = Some p -> pl_exec (ex_rates c) now p o = Some p' -> path now pid c (ex_put_pool c q p') (hits pid q o).
Proof.
  intros Hp Ho p0 Hp0. rewrite ex_pool_put by eauto. unfold hits. destruct (N.eqb_spec q pid) as [->|]; [|exists p0; auto].
  rewrite Hp in Hp0. injection Hp0 as <-. exists p'. cbn [pl_run]. now rewrite Ho.
Qed.
Lemma path_put2 now pid c q p p1 p' o1 o2 : ex_pool c q = Some p -> pl_exec (ex_rates c) now p o1 = Some p1 -> pl_exec (ex_rates c) now p1 o2 = Some p' ->
  path now pid c (ex_put_pool c q p') (hits pid q o1 ++ hits pid q o2).
Proof.
  intros Hp Ho1 Ho2 p0 Hp0. rewrite ex_pool_put by eauto. unfold hits. destruct (N.eqb_spec q pid) as [->|]; [|exists p0; auto].
  rewrite Hp in Hp0. injection Hp0 as <-. exists p'. cbn [pl_run app]. rewrite Ho1. cbn [mbind option_bind]. now rewrite Ho2.
Qed.

(** ** Chains of trades *)
Lemma charged_ref c r : charged c (ex_fees_ref c r).
Proof. split; reflexivity. Qed.
Lemma charged_fees c : charged c (ex_fees c).
Proof. split; reflexivity. Qed.
Lemma charged_frame c c' f : pool_frame c c' -> charged c' f -> charged c f.
Proof. intros (A & B & _) [K1 K2]. unfold charged in *. now rewrite <- A, <- B. Qed.
Lemma path_swap now pid c e q ti a to mn r c' out : e_now e = now -> ex_pool_swap c e q ti a to mn r = Some (c', out) ->
  path now pid c c' (hits pid q (OSwap ti a to mn (ex_fees_ref c r))).
Proof.
  intros <- H. unfold ex_pool_swap in H. bnd H c1 Hc1. apply ex_update_twap_frame in Hc1 as (tw & ->). bnd H p Hp. bnd H x Hx. destruct x as [p' o].
  bnd H ii Hii. bnd H io Hio. bnd H v Hv. injection H as <- <-.
  apply (path_pools _ _ _ (ex_put_pool c q p')); [reflexivity|]. eapply path_put; [exact Hp|]. cbn [pl_exec]. change (ex_rates (ex_set_twap c tw)) with (ex_rates c) in Hx.
  change (ex_fees_ref (ex_set_twap c tw) r) with (ex_fees_ref c r) in Hx. now rewrite Hx.
Qed.
Lemma path_output now pid c e q ti a to mx r c' inp : e_now e = now -> ex_pool_swap_by_output c e q ti a to mx r = Some (c', inp) ->
  path now pid c c' (hits pid q (OSwapByOutput ti a to mx (ex_fees_ref c r))).
Proof.
  intros <- H. unfold ex_pool_swap_by_output in H. bnd H c1 Hc1. apply ex_update_twap_frame in Hc1 as (tw & ->). bnd H p Hp. bnd H x Hx. destruct x as [p' o].
  bnd H ii Hii. bnd H io Hio. bnd H v Hv. injection H as <- <-.
  apply (path_pools _ _ _ (ex_put_pool c q p')); [reflexivity|]. eapply path_put; [exact Hp|]. cbn [pl_exec].
  change (ex_fees_ref (ex_set_twap c tw) r) with (ex_fees_ref c r) in Hx. now rewrite Hx.
Qed.
Lemma path_action now pid c e acc r a prev c' acc' x : e_now e = now -> ex_exec_action c e acc r a prev = Some (c', acc', x) ->
  exists o, trade_of c a o /\ path now pid c c' (hits pid (act_pool a) o).
Proof.
  intros Hn H. unfold ex_exec_action in H. destruct a.
  - bnd H amt Hamt. bnd H acc1 H1. bnd H q Hq. destruct q as [c1 o]. bnd H acc2 H2. injection H as <- <- <-. exists (OSwap token_in amt token_out min_out (ex_fees_ref c r)).
    split; [|eapply path_swap; eauto]. exists amt, (ex_fees_ref c r). split; [apply charged_ref|]. split; [|reflexivity]. destruct amount_in; [now injection Hamt as ->|reflexivity].
  - bnd H amt Hamt. bnd H q Hq. destruct q as [c1 o]. injection H as <- <- <-. exists (OSwapByOutput token_in amt token_out max_in (ex_fees_ref c r)).
    split; [|eapply path_output; eauto]. exists amt, (ex_fees_ref c r). split; [apply charged_ref|]. split; [|reflexivity]. destruct amount_out; [now injection Hamt as ->|reflexivity].
Qed.
Lemma trade_of_frame c c' a o : pool_frame c c' -> trade_of c' a o -> trade_of c a o.
Proof. intros F. unfold trade_of. destruct a; intros (x & f & Hf & K); exists x, f; (split; [eapply charged_frame; eauto|exact K]). Qed.
Lemma path_chain_cons now pid c c1 c2 a l o os : pool_frame c c1 -> trade_of c a o -> path now pid c c1 (hits pid (act_pool a) o) ->
  trades_with c1 pid l os -> path now pid c1 c2 os -> exists os', trades_with c pid (a :: l) os' /\ path now pid c c2 os'.
Proof.
  intros F Ha P1 Hl P2. exists (hits pid (act_pool a) o ++ os). split.
  - unfold trades_with. rewrite filter_cons. assert (K : Forall2 (trade_of c) (filter (fun a => act_pool a = pid) l) os).
    { eapply Forall2_impl; [exact Hl|]. intros a' o' K. eapply trade_of_frame; eauto. }
    unfold hits. destruct (decide (act_pool a = pid)) as [E|E].
    + rewrite (proj2 (N.eqb_eq _ _) E). cbn [app]. now constructor.
    + rewrite (proj2 (N.eqb_neq _ _) E). exact K.
  - eapply path_trans; [|exact P1|exact P2]. apply F.
Qed.
Lemma path_execute now pid c e acc r l prev skip c' acc' res : e_now e = now -> ex_execute c e acc r l prev skip = Some (c', acc', res) ->
  exists os, trades_with c pid l os /\ path now pid c c' os.
Proof.
  intros Hn. unfold ex_execute. intros H. grd H. grd H. bnd H a0 Ha0. bnd H q Hq. destruct q as [[c1 acc1] x]. bnd H u Hu. injection H as <- <- <-. clear Ha0 G G0 Hu.
  destruct (is_swap a0).
  - revert c acc prev Hq. induction l as [|a l IH]; intros c acc prev H; cbn [ex_swap_loop] in H.
    + injection H as <- <- <-. exists []. split; [constructor|]. now apply path_same.
    + bnd H q Hq. destruct q as [[c2 acc2] y]. pose proof (ex_exec_action_frame _ _ _ _ _ _ _ _ _ Hq) as F.
      apply (path_action now pid) in Hq as (o & Ho & P); [|done]. apply IH in H as (os & Hos & P2). eapply path_chain_cons; eauto.
  - revert Hq. generalize (@None AccountId) as pi. intros pi Hq.
    revert c acc prev pi Hq. induction l as [|a l IH]; intros c acc prev pi H; cbn [ex_output_loop] in H.
    + bnd H q Hq. injection H as <- <- <-. exists []. split; [constructor|]. now apply path_same.
    + bnd H acc0 Hacc0. bnd H q Hq. destruct q as [[c2 acc2] y]. pose proof (ex_exec_action_frame _ _ _ _ _ _ _ _ _ Hq) as F.
      apply (path_action now pid) in Hq as (o & Ho & P); [|done]. apply IH in H as (os & Hos & P2). eapply path_chain_cons; eauto.
Qed.

(** ** Zaps *)
Definition same_shapes (c c' : Exchange) : Prop := forall pid, match ex_pool c pid, ex_pool c' pid with
  | Some (PSimple _), Some (PSimple _) | Some (PStable _), Some (PStable _) | None, None => True | _, _ => False end.
Lemma pl_exec_shape rs now p o p' : pl_exec rs now p o = Some p' -> match p, p' with PSimple _, PSimple _ | PStable _, PStable _ => True | _, _ => False end.
Proof.
  intros H. destruct p as [q|q], o; cbn [pl_exec pl_swap pl_swap_by_output pl_add_liquidity pl_add_stable_liquidity pl_remove_liquidity pl_remove_by_tokens pl_share_transfer
    pl_share_register pl_share_unregister pl_modify_total_fee pl_ramp pl_stop_ramp] in H; try discriminate H.
  all: try (apply fmap_Some in H as (? & _ & ->); exact I).
  all: try (destruct (_ <? _); [injection H as <-; exact I|discriminate H]).
  all: apply fmap_Some in H as (r & H & ->); match type of H with (mbind _ _ = Some _) => apply bind_Some in H as (r' & _ & H) end;
    repeat (match type of H with context [match ?z with (_, _) => _ end] => destruct z end); injection H as <-; exact I.
Qed.
Lemma pl_run_shape rs now os : forall p p', pl_run rs now p os = Some p' -> match p, p' with PSimple _, PSimple _ | PStable _, PStable _ => True | _, _ => False end.
Proof.
  induction os as [|o r IH]; intros p p' H; cbn [pl_run] in H; [injection H as <-; now destruct p|]. bnd H p1 H1. apply pl_exec_shape in H1. apply IH in H. destruct p, p1, p'; done.
Qed.
Lemma zap_op_shape c c' s pid i : pool_frame c c' -> same_shapes c c' -> zap_op c' s pid i = zap_op c s pid i.
Proof.
  intros (A & E & _) H. unfold zap_op. rewrite A, E. specialize (H (ai_pool i)). destruct (ex_pool c (ai_pool i)) as [[?|?]|], (ex_pool c' (ai_pool i)) as [[?|?]|]; try done.
Qed.
Lemma zap_ops_shape c c' s pid l : pool_frame c c' -> same_shapes c c' -> flat_map (zap_op c' s pid) l = flat_map (zap_op c s pid) l.
Proof. intros F S. induction l as [|i l IH]; cbn [flat_map]; [reflexivity|]. now rewrite IH, (zap_op_shape c c'). Qed.
Lemma path_shapes now c c' (f : N -> list pl_op) : length (ex_pools c') = length (ex_pools c) -> (forall pid, exists os, path now pid c c' os) -> same_shapes c c'.
Proof.
  intros Hl H pid. destruct (H pid) as [os P]. destruct (ex_pool c pid) as [p|] eqn:E.
  - destruct (P p E) as (p' & R & ->). apply pl_run_shape in R. now destruct p, p'.
  - destruct (ex_pool c' pid) as [p'|] eqn:E'; [|exact I]. unfold ex_pool in *. apply lookup_lt_Some in E'. apply lookup_ge_None in E. lia.
Qed.
Lemma zap_one_shapes c e s m i c' m' : ex_zap_one c e s m i = Some (c', m') -> same_shapes c c'.
Proof.
  intros H. apply ex_zap_one_inv in H as (p & p' & am & sh & Hp & Hadd & _ & _ & ->). intros pid. rewrite ex_pool_put by eauto.
  destruct (N.eqb_spec (ai_pool i) pid) as [<-|]; [|now destruct (ex_pool c pid) as [[?|?]|]]. rewrite Hp.
  assert (K : exists o, pl_exec (ex_rates c) (e_now e) p o = Some p').
  { destruct Hadd as [(_ & Hadd & _)|(_ & _ & mn & _ & Hadd)]; [exists (OAdd s (ai_amounts i))|exists (OAddStable s (ai_amounts i) mn (ex_fees c))]; cbn [pl_exec]; now rewrite Hadd. }
  destruct K as [o K]. apply pl_exec_shape in K. now destruct p, p'.
Qed.
Lemma path_zap_one now pid c e s m i c' m' : e_now e = now -> ex_zap_one c e s m i = Some (c', m') -> path now pid c c' (zap_op c s pid i).
Proof.
  intros Hn H. apply ex_zap_one_inv in H as (p & p' & am & sh & Hp & Hadd & _ & _ & ->). unfold zap_op. rewrite Hp. eapply path_put; [exact Hp|]. subst now.
  destruct Hadd as [(Hs & Hadd & _)|(Hs & _ & mn & Hmn & Hadd)]; destruct p as [q|q]; try done.
  - cbn [pl_exec]. now rewrite Hadd.
  - rewrite Hmn. cbn [from_option id]. cbn [pl_exec]. unfold ex_fees in Hadd. unfold id. now rewrite Hadd.
Qed.
Lemma path_zap now pid e s l : e_now e = now -> forall c m c' m', ex_zap_loop c e s m l = Some (c', m') -> path now pid c c' (flat_map (zap_op c s pid) l).
Proof.
  intros Hn. induction l as [|i l IH]; intros c m c' m' H; cbn [ex_zap_loop flat_map] in *; [injection H as <- <-; now apply path_same|].
  bnd H q Hq. destruct q as [c1 m1]. assert (F : pool_frame c c1).
  { apply (ex_zap_loop_frame e s [i] c m c1 m1). cbn [ex_zap_loop]. now rewrite Hq. }
  pose proof (zap_one_shapes _ _ _ _ _ _ _ Hq) as S. apply IH in H. rewrite (zap_ops_shape c c1) in H by done.
  eapply path_trans; [apply F|eapply path_zap_one; eauto|exact H].
Qed.
Lemma execute_length c e acc r l prev skip c' acc' res : ex_execute c e acc r l prev skip = Some (c', acc', res) -> length (ex_pools c') = length (ex_pools c).
Proof.
  assert (A : forall c e acc r a prev c' acc' x, ex_exec_action c e acc r a prev = Some (c', acc', x) -> length (ex_pools c') = length (ex_pools c)).
  { clear. intros c e acc r a prev c' acc' x H. unfold ex_exec_action in H. destruct a.
    - bnd H amt Hamt. bnd H acc1 H1. bnd H q Hq. destruct q as [c1 o]. bnd H acc2 H2. injection H as <- <- <-. unfold ex_pool_swap in Hq.
      bnd Hq c2 Hc1. apply ex_update_twap_frame in Hc1 as (tw & ->). bnd Hq p Hp. bnd Hq y Hx. destruct y as [p' o']. bnd Hq ii Hii. bnd Hq io Hio. bnd Hq v Hv. injection Hq as <- <-.
      ex_cbn. apply insert_length.
    - bnd H amt Hamt. bnd H q Hq. destruct q as [c1 o]. injection H as <- <- <-. unfold ex_pool_swap_by_output in Hq.
      bnd Hq c2 Hc1. apply ex_update_twap_frame in Hc1 as (tw & ->). bnd Hq p Hp. bnd Hq y Hx. destruct y as [p' o']. bnd Hq ii Hii. bnd Hq io Hio. bnd Hq v Hv. injection Hq as <- <-.
      ex_cbn. apply insert_length. }
  unfold ex_execute. intros H. grd H. grd H. bnd H a0 Ha0. bnd H q Hq. destruct q as [[c1 acc1] x]. bnd H u Hu. injection H as <- <- <-. clear Ha0 G G0 Hu.
  destruct (is_swap a0).
  - revert c acc prev Hq. induction l as [|a l IH]; intros c acc prev H; cbn [ex_swap_loop] in H.
    + now injection H as <- <- <-.
    + bnd H q Hq. destruct q as [[c2 acc2] y]. apply A in Hq. apply IH in H. congruence.
  - revert Hq. generalize (@None AccountId) as pi. intros pi Hq.
    revert c acc prev pi Hq. induction l as [|a l IH]; intros c acc prev pi H; cbn [ex_output_loop] in H.
    + bnd H q Hq. now injection H as <- <- <-.
    + bnd H acc0 Hacc0. bnd H q Hq. destruct q as [[c2 acc2] y]. apply A in Hq. apply IH in H. congruence.
Qed.
Lemma path_transfer now pid c e s x m c' ps : e_now e = now -> ex_ft_on_transfer c e s x m = Some (c', ps) -> exists os, message_ops c s pid m os /\ path now pid c c' os.
Proof.
  intros Hn H. unfold ex_ft_on_transfer in H. cbv zeta in H. grd H. grd H. destruct m as [|r l echo su rc skip|r l infos skip]; cbn [message_ops].
  - grd H. bnd H c1 H1. injection H as <- <-. apply ex_deposit_inv in H1 as (acc & acc' & _ & _ & _ & _ & ->). exists []. split; [reflexivity|]. now apply path_same.
  - grd H. grd H. bnd H u Hu. bnd H d Hd. destruct d as [c1 outs]. grd H. injection H as <- <-. apply ex_direct_inv in Hd as (va & prev & va' & res & _ & Hd & _). eapply path_execute; eauto.
  - bnd H c1 H1. injection H as <- <-. apply ex_hot_zap_inv in H1 as (acc & ts & c2 & outs & m & c3 & m' & acc' & _ & _ & _ & _ & _ & _ & Hd & _ & Hz & _ & _ & _ & ->).
    apply ex_direct_inv in Hd as (va & prev & va' & res & _ & Hd & _). pose proof (ex_execute_frame _ _ _ _ _ _ _ _ _ _ Hd) as F.
    assert (S : same_shapes c c2).
    { eapply (path_shapes now _ _ (fun _ => [])); [eapply execute_length; eauto|]. intros q. destruct (path_execute now q _ _ _ _ _ _ _ _ _ _ Hn Hd) as (os & _ & P). eauto. }
    destruct (path_execute now pid _ _ _ _ _ _ _ _ _ _ Hn Hd) as (os & Ho & P). apply (path_zap now pid) in Hz; [|done]. rewrite (zap_ops_shape c c2) in Hz by done.
    exists (os ++ flat_map (zap_op c s pid) infos). split; [eauto|]. apply (path_pools _ _ _ c3); [reflexivity|]. eapply path_trans; [apply F|exact P|exact Hz].
Qed.

(** ** Calls *)
Lemma path_mft now pid c id s r am c' x : ex_mft_transfer c id s r am = Some (c', x) ->
  path now pid c c' (match mft_pool_of id with Some q => hits pid q (OTransfer s r x) | None => [] end).
Proof.
  intros H. apply ex_mft_transfer_inv in H as (_ & _ & H). destruct (mft_pool_of id).
  - destruct H as (p & p' & Hp & _ & _ & Ht & ->). eapply path_put; [exact Hp|exact Ht].
  - destruct H as (sa & sa' & ra & ra' & _ & _ & _ & _ & _ & _ & ->). now apply path_same.
Qed.
Lemma path_call now pid c e x c' ps : e_now e = now -> ex_call c e x = Some (c', ps) -> exists os, call_ops c e pid x os /\ path now pid c c' os.
Proof.
  intros Hn H. destruct (is_settings x) eqn:Es.
  { apply settings_call in H as [(_ & Hp & _) _]; [|done]. exists []. split; [now destruct x|]. now apply path_same. }
  assert (Hm : (exists id r x', x = CMftTransfer id r x') \/ (exists id r x', x = CMftTransferCall id r x') \/ (forall id r x', x <> CMftTransfer id r x') /\ (forall id r x', x <> CMftTransferCall id r x')).
  { destruct x; try (right; right; split; intros; discriminate); [left; eauto|right; left; eauto]. }
  destruct Hm as [(id & r & x' & ->)|[(id & r & am & ->)|[N1 N2]]].
  { cbn [ex_call] in H. apply quiet_inv in H as [H ->]. apply ex_mft_transfer_free_inv in H as (_ & _ & H). eexists. split; [reflexivity|]. eapply path_mft; eauto. }
  { cbn [ex_call] in H. apply ex_mft_transfer_call_inv in H as (y & _ & _ & H & _). pose proof (ex_mft_transfer_inv _ _ _ _ _ _ _ H) as (_ & Hy & _).
    eexists. split; [|eapply path_mft; eauto]. exists y. split; [|reflexivity]. destruct am as [z|]; [|reflexivity]. now rewrite (Hy z eq_refl). }
  call_cases x Es H; cbn [call_ops]; try (exfalso; eapply N1; reflexivity); try (exfalso; eapply N2; reflexivity); try (exists []; split; [reflexivity|now apply path_same]).
  all: try (exists []; split; [reflexivity|eapply path_append; reflexivity]).
  all: try (apply (path_execute now pid) in Hx as (os & Ho & P); [|done]; exists os; split; [exact Ho|]; apply (path_pools _ _ _ c1); [reflexivity|exact P]).
  all: subst now.
  - eexists. split; [reflexivity|]. apply (path_pools _ _ _ (ex_put_pool c pid0 p')); [reflexivity|]. eapply path_put; [eassumption|]. cbn [pl_exec].
    match goal with H : pl_add_liquidity _ _ _ _ = Some _ |- _ => now rewrite H end.
  - eexists. split; [exists (ex_fees c); split; [apply charged_fees|reflexivity]|]. apply (path_pools _ _ _ (ex_put_pool c pid0 p')); [reflexivity|]. eapply path_put; [eassumption|]. cbn [pl_exec].
    match goal with H : pl_add_stable_liquidity _ _ _ _ _ _ _ _ = Some _ |- _ => now rewrite H end.
  - eexists. split; [reflexivity|]. apply (path_pools _ _ _ (ex_put_pool c pid0 p')); [reflexivity|]. eapply path_put; [eassumption|]. cbn [pl_exec].
    match goal with H : pl_remove_liquidity _ _ _ _ _ = Some _ |- _ => now rewrite H end.
  - eexists. split; [exists (ex_fees c); split; [apply charged_fees|reflexivity]|]. apply (path_pools _ _ _ (ex_put_pool c pid0 p')); [reflexivity|]. eapply path_put; [eassumption|]. cbn [pl_exec].
    match goal with H : pl_remove_by_tokens _ _ _ _ _ _ _ _ = Some _ |- _ => now rewrite H end.
  - eexists. split; [eexists; split; [eassumption|reflexivity]|]. eapply path_put; [eassumption|]. assumption.
  - eexists. split; [eexists; split; [eassumption|reflexivity]|]. eapply path_put; [eassumption|]. assumption.
  - eexists. split; [exists x; split; [|reflexivity]|].
    { match goal with H : x = default _ _ |- _ => rewrite H end. now destruct amount. }
    destruct unregister; [eapply path_put2; eassumption|]. rewrite app_nil_r. match goal with H : Some p1 = Some p2 |- _ => injection H as <- end. eapply path_put; eassumption.
  - eexists. split; [exists x; split; [|reflexivity]|].
    { match goal with H : x = default _ _ |- _ => rewrite H end. now destruct amount. }
    eapply (path_pools _ _ _ (ex_put_pool c pid0 p2)); [reflexivity|].
    destruct unregister; [eapply path_put2; eassumption|]. rewrite app_nil_r. match goal with H : Some p1 = Some p2 |- _ => injection H as <- end. eapply path_put; eassumption.
  - eexists. split; [eexists; split; [eassumption|reflexivity]|]. eapply (path_pools _ _ _ (ex_put_pool c pid0 p')); [reflexivity|]. eapply path_put; [eassumption|]. cbn [pl_exec].
    match goal with H : pl_remove_liquidity _ _ _ _ _ = Some _ |- _ => now rewrite H end.
  - eexists. split; [reflexivity|]. eapply path_put; [eassumption|]. cbn [pl_exec]. apply N.ltb_lt in G0. now rewrite (proj2 (N.ltb_lt _ _) G0).
  - eexists. split; [reflexivity|]. apply (path_pools _ _ _ (ex_put_pool c pid0 p')); [reflexivity|]. eapply path_put; [eassumption|]. cbn [pl_exec].
    match goal with H : pl_remove_liquidity _ _ _ _ _ = Some _ |- _ => now rewrite H end.
  - eexists. split; [reflexivity|]. eapply path_put; [eassumption|]. assumption.
  - eexists. split; [reflexivity|]. eapply path_put; [eassumption|]. assumption.
Qed.

(** ** Events *)
Lemma recredit_pools c e s t x c' : recredit c e s t x c' -> ex_pools c' = ex_pools c.
Proof. now intros [?| |]. Qed.
Lemma path_step w ev w' pid : w_step w ev = Some w' -> exists os, event_ops w ev pid os /\ path (w_now w') pid (w_ex w) (w_ex w') os.
Proof.
  intros H. unfold w_step in H. cbv zeta in H. destruct ev; cbn [event_ops].
  - bnd H u Hu. bnd H u' Hu'. bnd H q Hq'. destruct q as [c' ps]. injection H as <-.
    destruct (w_queue_ex w c' (w_hold w) (w_flights w) ps (e_now e)) as (-> & -> & _). eapply path_call; eauto.
  - bnd H u Hu. injection H as <-. exists []. split; [reflexivity|now apply path_same].
  - bnd H u Hu. bnd H f Hf. destruct f as [t s x msg| |]; try discriminate H. bnd H u' Hu'. destruct (ex_ft_on_transfer _ _ _ _ _) as [[c' ps]|] eqn:E.
    + injection H as <-. destruct (w_queue_ex w c' (w_hold w) (delete id (w_flights w)) ps (e_now e)) as (-> & -> & _).
      apply (path_transfer (e_now e) pid) in E as (os & Ho & P); [|done]. exists os. split; [|exact P]. exists t, s, x, msg. auto.
    + injection H as <-. exists []. split; [exists t, s, x, msg; auto|now apply path_same].
  - bnd H u Hu. injection H as <-. exists []. split; [reflexivity|now apply path_same].
  - bnd H f Hf. destruct f as [|p|]; try discriminate H.
    destruct p; try discriminate H; bnd H u Hu; injection H as <-; (exists []; split; [reflexivity|now apply path_same]).
  - bnd H u Hu. bnd H f Hf. destruct f as [| |p ok]; try discriminate H.
    destruct p; try discriminate H; injection H as <-; cbn [w_ex w_now]; (exists []; split; [reflexivity|apply path_same]).
    1-2: destruct (ex_callback_withdraw _ _ _ _ _ _) eqn:E; cbn; [|reflexivity]; unfold ex_callback_withdraw in E; destruct ok; [now injection E as <-|];
      apply ex_handle_fail_inv in E; eapply recredit_pools; eauto.
    destruct (ex_callback_near _ _ _ _ _) as [q|] eqn:E; cbn; [|reflexivity]. unfold ex_callback_near in E. destruct ok; [now injection E as <-|].
    bnd E t Ht. bnd E c1 H1. injection E as <-. cbn [fst]. apply ex_handle_fail_inv in H1. eapply recredit_pools; eauto.
  - bnd H u Hu. bnd H f Hf. destruct f as [|p|]; try discriminate H. destruct p; try discriminate H; injection H as <-; cbn [w_ex w_now].
    match goal with |- context [ex_mft_resolve ?c ?i ?s ?r ?x ?ret] => destruct (ex_mft_resolve c i s r x ret) as [c'|] eqn:E; cbn end.
    + apply ex_mft_resolve_inv in E as [[-> _]|(bal & _ & _ & _ & E)].
      { exists []. split; [do 4 eexists; split; [exact Hf|auto]|now apply path_same]. }
      apply (path_mft (e_now e) pid) in E. eexists. split; [|exact E]. do 4 eexists; split; [exact Hf|]. destruct (mft_pool_of _) as [q|] eqn:Eq; [|auto].
      right. do 3 eexists. split; [first [exact Eq|reflexivity]|]. split; [|split; [|reflexivity]].
      { destruct (ex_accounts (w_ex w) !! sender); [left|right]; reflexivity. }
      destruct ret as [v|]; lia.
    + exists []. split; [do 4 eexists; split; [exact Hf|auto]|now apply path_same].
  - bnd H u Hu. bnd H f Hf. destruct f as [|p|]; try discriminate H. destruct p; try discriminate H; injection H as <-; cbn [w_ex w_now].
    exists []; split; [reflexivity|apply path_same].
    destruct (ex_callback_shadow _ _ _ _ _ _ _ _) as [[c' ps]|] eqn:E; cbn; [|reflexivity].
    apply ex_callback_shadow_inv in E as [(_ & _ & -> & _)|[(_ & _ & _ & acc & acc1 & _ & _ & _ & ->)|(_ & acc & acc1 & _ & _ & _ & -> & _)]]; reflexivity.
  - bnd H u Hu. bnd H c' Hc. injection H as <-. exists []. split; [reflexivity|]. apply path_same. unfold ex_oracle in Hc. bnd Hc r Hr. now injection Hc as <-.
  - bnd H u Hu. bnd H q Hq. destruct q as [c' ps]. injection H as <-. destruct (w_queue_ex w c' (w_hold w) (w_flights w) ps (e_now e)) as (-> & -> & _).
    eapply path_transfer; eauto.
  - injection H as <-. exists []. split; [reflexivity|now apply path_same].
Qed.

(** ** What operations do to the value of a share of a simple pool *)
Definition fees_ok (o : pl_op) : Prop := match o with OSwap _ _ _ _ f | OSwapByOutput _ _ _ _ f => admin_fee_bps f <= FEE_DIVISOR | _ => True end.
Definition burns (o : pl_op) : bool := match o with ORemove _ _ _ => true | _ => false end.
Definition ops_lost (os : list pl_op) : N := lsum ((fun o => if changes_liquidity o then 1 else 0) <$> os).
Lemma sqrt_scaled r x y x' y' s s' : r * r <= x * y -> x * s' <= x' * s -> y * s' <= y' * s -> r * s' <= (N.sqrt (x' * y') + 1) * s.
Proof.
  intros Hr Hx Hy. pose proof (N.sqrt_spec (x' * y') (N.le_0_l _)) as [_ K]. rewrite <- N.add_1_r in K. set (q := N.sqrt (x' * y') + 1) in *.
  apply N.square_le_simpl_nonneg; [lia|].
  assert (A : (r * s') * (r * s') = (r * r) * (s' * s')) by ring. assert (B : (q * s) * (q * s) = (q * q) * (s * s)) by ring. rewrite A, B.
  assert (C : (r * r) * (s' * s') <= (x * y) * (s' * s')) by now apply N.mul_le_mono_r.
  assert (D : (x * y) * (s' * s') = (x * s') * (y * s')) by ring. assert (E : (x' * s) * (y' * s) = (x' * y') * (s * s)) by ring.
  assert (F : (x * s') * (y * s') <= (x' * s) * (y' * s)) by now apply N.mul_le_mono.
  assert (G : (x' * y') * (s * s) <= (q * q) * (s * s)) by (apply N.mul_le_mono_r; lia). lia.
Qed.
Lemma swap_root p i ain j aout f p' x y : sp_wf p -> i <> j -> sp_amounts p !! i = Some x -> sp_amounts p !! j = Some y ->
  sp_update_pool_and_distribute_fee p i ain j aout f false = Some p' -> admin_fee_bps f <= FEE_DIVISOR ->
  sp_root p * sp_supply p' <= sp_root p' * sp_supply p /\ sp_supply p <= sp_supply p'.
Proof.
  intros (_ & _ & (x0 & y0 & Ham & _) & _) Hij Hi Hj H Hb. pose proof (update_share_value _ _ _ _ _ _ _ _ _ _ Hij Hi Hj H Hb) as K.
  apply sp_update_inv in H as (x1 & y1 & r & e & Hi' & Hj' & _ & _ & -> & _); [|done]. rewrite Hi in Hi'; injection Hi' as <-. rewrite Hj in Hj'; injection Hj' as <-.
  cbn [sp_supply] in *. split; [|lia]. unfold sp_root. cbn [sp_amounts]. rewrite Ham in *.
  destruct i as [|[|i]], j as [|[|j]]; try done; injection Hi as <-; injection Hj as <-; cbn [list_insert insert foldr]; rewrite !N.mul_1_r.
  - rewrite N.mul_comm. rewrite (N.mul_comm _ (sp_supply p)). exact K.
  - rewrite (N.mul_comm x0 y0), (N.mul_comm (x0 - aout)). rewrite N.mul_comm. rewrite (N.mul_comm _ (sp_supply p)). exact K.
Qed.
Lemma op_value rs now q o p' : sp_wf q -> 0 < sp_supply q -> fees_ok o -> pl_exec rs now (PSimple q) o = Some p' ->
  exists q', p' = PSimple q' /\ sp_wf q' /\ sp_root q * sp_supply q' <= (sp_root q' + (if changes_liquidity o then 1 else 0)) * sp_supply q /\
    (burns o = false -> sp_supply q <= sp_supply q').
Proof.
  intros Hwf Hs Hf H.
  assert (Same : forall q', sp_amounts q' = sp_amounts q -> sp_supply q' = sp_supply q -> sp_root q * sp_supply q' <= (sp_root q' + 0) * sp_supply q /\ (false = false -> sp_supply q <= sp_supply q')).
  { intros q' A B. unfold sp_root. rewrite A, B. split; lia. }
  destruct o; cbn [pl_exec pl_swap pl_swap_by_output pl_add_liquidity pl_add_stable_liquidity pl_remove_liquidity pl_remove_by_tokens pl_share_transfer
    pl_share_register pl_share_unregister pl_modify_total_fee pl_ramp pl_stop_ramp changes_liquidity burns fees_ok] in *; try discriminate H.
  - apply fmap_Some in H as ([p1 z] & H & ->). bnd H y Hy. destruct y as [q' out]. injection H as <- <-. exists q'. split; [reflexivity|].
    split; [exact (sp_exec_wf _ (SwapOp token_in amount_in token_out min_out f) _ Hwf ltac:(cbn [sp_exec]; now rewrite Hy))|].
    apply sp_swap_inv in Hy as (_ & _ & i & j & x & y & _ & _ & Hij & Hi & Hj & _ & _ & _ & _ & _ & Hu). rewrite N.add_0_r.
    destruct (swap_root _ _ _ _ _ _ _ _ _ Hwf Hij Hi Hj Hu Hf) as [A B]. auto.
  - apply fmap_Some in H as ([p1 z] & H & ->). bnd H y Hy. destruct y as [q' out]. injection H as <- <-. exists q'. split; [reflexivity|].
    split; [exact (sp_exec_wf _ (SwapByOutputOp token_in amount_out token_out max_in f) _ Hwf ltac:(cbn [sp_exec]; now rewrite Hy))|].
    apply sp_swap_by_output_inv in Hy as (_ & _ & i & j & x & y & _ & _ & Hij & Hi & Hj & _ & _ & _ & _ & _ & _ & Hu). rewrite N.add_0_r.
    destruct (swap_root _ _ _ _ _ _ _ _ _ Hwf Hij Hi Hj Hu Hf) as [A B]. auto.
  - apply fmap_Some in H as ([[p1 tk] z] & H & ->). bnd H y Hy. destruct y as [[q' tk'] sh]. injection H as <- <- <-. exists q'. split; [reflexivity|].
    split; [exact (sp_exec_wf _ (AddOp sender amounts) _ Hwf ltac:(cbn [sp_exec]; now rewrite Hy))|].
    apply sp_add_inv in Hy as (x & y & a & b & Ham & _ & _ & _ & _ & _ & ta & tb & _ & _ & _ & -> & Hc); [|done]. cbn [sp_supply]. split; [|lia].
    destruct Hc as [[? _]|(_ & _ & _ & _ & Hta & Htb)]; [lia|]. unfold sp_root. cbn [sp_amounts]. rewrite Ham. cbn [foldr]. rewrite !N.mul_1_r.
    assert (D : forall v, v * (sp_supply q + sh) <= (v + (v * sh / sp_supply q + 1)) * sp_supply q).
    { intros v. pose proof (N.mul_succ_div_gt (v * sh) (sp_supply q) ltac:(lia)) as L. rewrite N.mul_succ_r in L. lia. }
    apply (sqrt_scaled _ x y); [apply N.sqrt_spec, N.le_0_l|rewrite Hta; apply D|rewrite Htb; apply D].
  - apply fmap_Some in H as ([p1 z] & H & ->). bnd H y Hy. destruct y as [q' out]. injection H as <- <-. exists q'. split; [reflexivity|].
    split; [exact (sp_exec_wf _ (RemoveOp sender shares mins) _ Hwf ltac:(cbn [sp_exec]; now rewrite Hy))|].
    apply sp_remove_inv in Hy as (x & y & m1 & m2 & Ham & _ & _ & _ & _ & _ & _ & _ & Hsh & _ & _ & _ & ->); [|done]. cbn [sp_supply]. split; [|done].
    unfold sp_root. cbn [sp_amounts]. rewrite Ham. cbn [foldr]. rewrite !N.mul_1_r.
    assert (D : forall v, v * (sp_supply q - shares) <= (v - v * shares / sp_supply q) * sp_supply q).
    { intros v. pose proof (N.mul_div_le (v * shares) (sp_supply q) ltac:(lia)) as L. rewrite N.mul_sub_distr_l, N.mul_sub_distr_r. lia. }
    apply (sqrt_scaled _ x y); [apply N.sqrt_spec, N.le_0_l|apply D|apply D].
  - apply fmap_Some in H as (q' & H & ->). exists q'. split; [reflexivity|]. split; [exact (sp_exec_wf _ (TransferOp sender receiver amount) _ Hwf H)|].
    apply sp_transfer_inv in H as (b & bo & _ & _ & _ & _ & ->). now apply Same.
  - apply fmap_Some in H as (q' & H & ->). exists q'. split; [reflexivity|]. split; [exact (sp_exec_wf _ (RegisterOp a) _ Hwf H)|].
    unfold sp_share_register in H. bnd H u Hu. injection H as <-. now apply Same.
  - apply fmap_Some in H as (q' & H & ->). exists q'. split; [reflexivity|]. split; [exact (sp_exec_wf _ (UnregisterOp a) _ Hwf H)|].
    unfold sp_share_unregister in H. bnd H s Hs'. bnd H u Hu. injection H as <-. now apply Same.
  - destruct (fee <? FEE_DIVISOR) eqn:E; [|discriminate H]. injection H as <-. eexists. split; [reflexivity|].
    split; [apply (sp_exec_wf q (SetFeeOp fee) _ Hwf); cbn [sp_exec]; now rewrite E|]. now apply Same.
Qed.
(** [r] and [s]: root and supply before; [m]: a lower bound of all later supplies; [n]: liquidity changes so far. *)
Definition worth_kept (m r0 s0 n : N) (q : SimplePool) : Prop := r0 * sp_supply q * m <= sp_root q * s0 * m + n * s0 * sp_supply q.
Lemma worth_step m r0 s0 n l q q' : 0 < sp_supply q -> (l = 0 \/ m <= sp_supply q') -> worth_kept m r0 s0 n q -> sp_root q * sp_supply q' <= (sp_root q' + l) * sp_supply q ->
  worth_kept m r0 s0 (n + l) q'.
Proof.
  unfold worth_kept. generalize (sp_root q) (sp_root q') (sp_supply q) (sp_supply q'). intros r r' s s' Hs Hl K O.
  apply (N.mul_le_mono_pos_l _ _ s Hs).
  assert (A : s * (r0 * s' * m) = (r0 * s * m) * s') by ring. rewrite A.
  assert (B : (r0 * s * m) * s' <= (r * s0 * m + n * s0 * s) * s') by now apply N.mul_le_mono_r.
  assert (C : (r * s0 * m + n * s0 * s) * s' = (r * s') * (s0 * m) + s * (n * s0 * s')) by ring.
  assert (D : (r * s') * (s0 * m) <= ((r' + l) * s) * (s0 * m)) by now apply N.mul_le_mono_r.
  assert (E : ((r' + l) * s) * (s0 * m) = s * (r' * s0 * m) + s * (s0 * (l * m))) by ring.
  assert (F : s * (s0 * (l * m)) <= s * (s0 * (l * s'))). { do 2 apply N.mul_le_mono_l. destruct Hl as [->|Hl]; [lia|now apply N.mul_le_mono_l]. }
  assert (G : s * (r' * s0 * m + (n + l) * s0 * s') = s * (r' * s0 * m) + s * (s0 * (l * s')) + s * (n * s0 * s')) by ring. lia.
Qed.
(** Either no operation burns shares, or there is just one. *)
Definition gentle (os : list pl_op) : Prop := Forall (fun o => burns o = false) os \/ exists o, os = [o].
Lemma run_value rs now m r0 s0 : 0 < m -> forall os n q p', sp_wf q -> m <= sp_supply q -> Forall fees_ok os -> gentle os -> pl_run rs now (PSimple q) os = Some p' -> m <= pl_supply p' ->
  worth_kept m r0 s0 n q -> exists q', p' = PSimple q' /\ sp_wf q' /\ worth_kept m r0 s0 (n + ops_lost os) q'.
Proof.
  intros Hm os n q p' Hwf Hq Hf [Hg|[o ->]] H Hp' K.
  - clear Hp'. revert n q Hwf Hq H K. induction os as [|o os IH]; intros n q Hwf Hq H K; cbn [pl_run] in H.
    { injection H as <-. exists q. split_and!; [reflexivity|done|]. unfold ops_lost. cbn [fmap list_fmap lsum]. now rewrite N.add_0_r. }
    bnd H p1 H1. inversion Hf as [|? ? F1 F2]; subst. inversion Hg as [|? ? G1 G2]; subst. apply op_value in H1 as (q1 & -> & Hw1 & O & B); [|done|lia|done].
    specialize (B G1). apply (IH F2 G2 (n + (if changes_liquidity o then 1 else 0))) in H as (q' & -> & Hw' & K'); [|done|lia|].
    + exists q'. split_and!; [reflexivity|done|]. unfold ops_lost in *. cbn [fmap list_fmap lsum]. now rewrite N.add_assoc.
    + eapply worth_step; [|right|exact K|exact O]; lia.
  - cbn [pl_run] in H. bnd H p1 H1. injection H as <-. inversion Hf as [|? ? F1 F2]; subst. apply op_value in H1 as (q1 & -> & Hw1 & O & _); [|done|lia|done].
    cbn [pl_supply] in Hp'. exists q1. split_and!; [reflexivity|done|]. unfold ops_lost. cbn [fmap list_fmap lsum]. rewrite N.add_0_r. eapply worth_step; [|right|exact K|exact O]; lia.
Qed.
Lemma ops_lost_app os1 os2 : ops_lost (os1 ++ os2) = ops_lost os1 + ops_lost os2.
Proof. unfold ops_lost. rewrite fmap_app. induction os1 as [|o r IH]; cbn [fmap list_fmap app lsum] in *; [reflexivity|]. rewrite IH. lia. Qed.
Lemma lost_hits pid q o : ops_lost (hits pid q o) <= (if changes_liquidity o then 1 else 0).
Proof. unfold hits, ops_lost. destruct (q =? pid); cbn [fmap list_fmap lsum]; lia. Qed.
Lemma gentle_hits pid q o : gentle (hits pid q o).
Proof. unfold hits. destruct (q =? pid); [right; eauto|left; constructor]. Qed.
Lemma kept_hits pid q o : burns o = false -> Forall (fun o => burns o = false) (hits pid q o).
Proof. intros H. unfold hits. destruct (q =? pid); repeat constructor. exact H. Qed.
Lemma fees_hits pid q o : fees_ok o -> Forall fees_ok (hits pid q o).
Proof. intros H. unfold hits. destruct (q =? pid); repeat constructor. exact H. Qed.
Lemma trades_kind c pid l os : trades_with c pid l os -> cf_admin_fee (ex_cfg c) <= FEE_DIVISOR -> Forall fees_ok os /\ Forall (fun o => burns o = false) os /\ ops_lost os = 0.
Proof.
  unfold trades_with. intros H Hc. induction H as [|a o l' os' Ho _ (A & B & C)]; [split_and!; constructor|].
  assert (K : fees_ok o /\ burns o = false /\ changes_liquidity o = false). { unfold trade_of in Ho. destruct a; destruct Ho as (x & f & [F _] & _ & ->); cbn; rewrite F; auto. }
  destruct K as (K1 & K2 & K3). split_and!; [now constructor..|]. unfold ops_lost in *. cbn [fmap list_fmap lsum]. rewrite K3, C. reflexivity.
Qed.
Lemma zap_kind c s pid infos : Forall fees_ok (flat_map (zap_op c s pid) infos) /\ Forall (fun o => burns o = false) (flat_map (zap_op c s pid) infos) /\
  ops_lost (flat_map (zap_op c s pid) infos) <= N.of_nat (length infos).
Proof.
  induction infos as [|i l IH]; cbn [flat_map length]; [split_and!; [constructor..|cbn; lia]|]. destruct IH as (A & B & C).
  rewrite ops_lost_app, !Forall_app. unfold zap_op at 1 3 5. set (o := match ex_pool c (ai_pool i) with Some (PSimple _) => _ | _ => _ end).
  assert (K : fees_ok o /\ burns o = false). { unfold o. destruct (ex_pool c (ai_pool i)) as [[?|?]|]; split; exact I || reflexivity. } destruct K as [K1 K2].
  split_and!; [now apply fees_hits|done|now apply kept_hits|done|]. pose proof (lost_hits pid (ai_pool i) o). destruct (changes_liquidity o); lia.
Qed.
Lemma message_kind c s pid m os : message_ops c s pid m os -> cf_admin_fee (ex_cfg c) <= FEE_DIVISOR -> Forall fees_ok os /\ gentle os /\
  ops_lost os <= (match m with MsgHotZap _ _ infos _ => N.of_nat (length infos) | _ => 0 end).
Proof.
  intros H Hc. destruct m; cbn [message_ops] in H.
  - subst os. split_and!; [constructor|left; constructor|cbn; lia].
  - apply trades_kind in H as (A & B & C); [|done]. split_and!; [done|now left|lia].
  - destruct H as (os1 & H & ->). apply trades_kind in H as (A & B & C); [|done]. rewrite ops_lost_app.
    match goal with |- context [flat_map (zap_op c s pid) ?l] => destruct (zap_kind c s pid l) as (D & E & F) end.
    split_and!; [apply Forall_app; auto|left; apply Forall_app; auto|lia].
Qed.
Lemma one_kind pid q o : fees_ok o -> Forall fees_ok (hits pid q o) /\ gentle (hits pid q o) /\ ops_lost (hits pid q o) <= (if changes_liquidity o then 1 else 0).
Proof. intros H. split_and!; [now apply fees_hits|apply gentle_hits|apply lost_hits]. Qed.
Lemma no_kind : Forall fees_ok [] /\ gentle [] /\ ops_lost [] <= 0.
Proof. split_and!; [constructor|left; constructor|reflexivity]. Qed.
Lemma call_kind c e pid x os w : call_ops c e pid x os -> cf_admin_fee (ex_cfg c) <= FEE_DIVISOR -> Forall fees_ok os /\ gentle os /\ ops_lost os <= changes w (EvCall e x).
Proof.
  intros H Hc. destruct x; cbn [call_ops changes] in *; try (subst os; apply no_kind);
    try (apply trades_kind in H as (A & B & C); [|done]; split_and!; [done|now left|lia]).
  all: try (subst os; (refine (one_kind _ _ _ _); exact I)).
  all: try (destruct H as (? & _ & ->); (refine (one_kind _ _ _ _); exact I)).
  all: try (subst os; destruct (mft_pool_of _); [(refine (one_kind _ _ _ _); exact I)|apply no_kind]).
  all: try (destruct H as (? & _ & ->); destruct (mft_pool_of _); [(refine (one_kind _ _ _ _); exact I)|apply no_kind]).
  all: destruct H as (y & _ & ->); rewrite ops_lost_app; split_and!; [apply Forall_app; split|left; apply Forall_app; split|].
  all: try (now apply fees_hits); try (now apply kept_hits).
  all: try (destruct unregister; [now apply fees_hits|constructor]); try (destruct unregister; [now apply kept_hits|constructor]).
  match goal with |- ops_lost (hits ?a ?b ?o) + _ <= _ => pose proof (lost_hits a b o) as L1 end. cbn [changes_liquidity] in L1.
  destruct unregister; [|cbn; lia]. match goal with |- _ + ops_lost (hits ?a ?b ?o) <= _ => pose proof (lost_hits a b o) as L2 end. cbn [changes_liquidity] in L2. lia.
Qed.
Lemma event_kind w ev pid os : event_ops w ev pid os -> cf_admin_fee (ex_cfg (w_ex w)) <= FEE_DIVISOR -> Forall fees_ok os /\ gentle os /\ ops_lost os <= changes w ev.
Proof.
  intros H Hc. destruct ev; cbn [event_ops] in H; try (subst os; apply no_kind).
  - eapply call_kind; eauto.
  - destruct H as (t & s & x & m & Hf & H). cbn [changes]. rewrite Hf. destruct H as [->|H].
    + destruct no_kind as (A & B & C). split_and!; [done..|cbn; lia].
    + eapply message_kind; eauto.
  - destruct H as (tid & s & r & x & _ & [->|(q & to & y & _ & _ & _ & ->)]); [apply no_kind|(refine (one_kind _ _ _ _); exact I)].
  - eapply message_kind; eauto.
Qed.
