(** * Names of farms and seeds: C104 *)
From Coq Require Import Ascii.
From stdpp Require Import pretty.
From Verif Require Import Base BaseLemmas Exchange FarmIds PropIds.

(** Spec *)
Fixpoint lacks (ch : ascii) (s : string) : Prop :=
  match s with EmptyString => True | String c r => c <> ch /\ lacks ch r end.

(** ** Strings *)
Lemma sapp_nil t : (EmptyString +:+ t = t)%string.
Proof. reflexivity. Qed.
Lemma sapp_cons c s t : (String c s +:+ t = String c (s +:+ t))%string.
Proof. reflexivity. Qed.
Lemma split_on_lacks ch s : lacks ch s -> split_on ch s = [s].
Proof.
  induction s as [|c s IH]; cbn [lacks split_on]; [done|]. intros [H1 H2].
  destruct (Ascii.eqb_spec c ch) as [->|_]; [done|]. now rewrite IH.
Qed.
Lemma split_on_app ch s t : lacks ch s -> split_on ch (s +:+ String ch t) = s :: split_on ch t.
Proof.
  induction s as [|c s IH]; intros H; rewrite ?sapp_nil, ?sapp_cons; cbn [split_on lacks] in *.
  - now rewrite Ascii.eqb_refl.
  - destruct H as [H1 H2]. destruct (Ascii.eqb_spec c ch) as [->|_]; [done|]. now rewrite IH.
Qed.
Lemma split_on_nonempty ch s : split_on ch s <> [].
Proof. destruct s as [|c s]; cbn [split_on]; [done|]. destruct (Ascii.eqb c ch); [done|]. now destruct (split_on ch s). Qed.
Lemma split_on_one ch s a : split_on ch s = [a] -> s = a /\ lacks ch s.
Proof.
  revert a; induction s as [|c s IH]; intros a H; cbn [split_on lacks] in *; [now injection H|].
  destruct (Ascii.eqb_spec c ch) as [->|Hne].
  - injection H as _ H. now apply split_on_nonempty in H.
  - destruct (split_on ch s) as [|h t] eqn:E; [now apply split_on_nonempty in E|].
    injection H as <- ->. destruct (IH h eq_refl) as [-> Hl]. done.
Qed.
Lemma split_on_two ch s a b : split_on ch s = [a; b] -> s = (a +:+ String ch b)%string /\ lacks ch a /\ lacks ch b.
Proof.
  revert a; induction s as [|c s IH]; intros a H; cbn [split_on] in *; [done|].
  destruct (Ascii.eqb_spec c ch) as [->|Hne].
  - injection H as <- H. apply split_on_one in H as [-> Hl]. done.
  - destruct (split_on ch s) as [|h t] eqn:E; [now apply split_on_nonempty in E|].
    injection H as <- ->. destruct (IH h eq_refl) as (-> & H1 & H2). done.
Qed.
Lemma split_on_many ch s t : ~ lacks ch s -> exists a b r, split_on ch (s +:+ String ch t) = a :: b :: r /\ r <> [].
Proof.
  induction s as [|c s IH]; intros H; rewrite ?sapp_nil, ?sapp_cons; cbn [lacks split_on] in *; [now destruct H|].
  destruct (Ascii.eqb_spec c ch) as [->|Hne].
  - assert (exists b r, split_on ch (s +:+ String ch t) = b :: r /\ r <> []) as (b & r & -> & Hr).
    { clear. induction s as [|c s IH]; rewrite ?sapp_nil, ?sapp_cons; cbn [split_on].
      - rewrite Ascii.eqb_refl. eexists _, _; split; [done|apply split_on_nonempty].
      - destruct IH as (b & r & -> & Hr). destruct (Ascii.eqb c ch); eexists _, _; split; try done. }
    eauto.
  - destruct IH as (a & b & r & -> & Hr); [tauto|]. eauto 10.
Qed.
Lemma rsplit_on_lacks ch s : lacks ch s -> rsplit_on ch s = None.
Proof.
  induction s as [|c s IH]; cbn [lacks rsplit_on]; [done|]. intros [H1 H2]. rewrite IH by done.
  now destruct (Ascii.eqb_spec c ch).
Qed.
Lemma rsplit_on_app ch s t : lacks ch t -> rsplit_on ch (s +:+ String ch t) = Some (s, t).
Proof.
  intros H. induction s as [|c s IH]; rewrite ?sapp_nil, ?sapp_cons; cbn [rsplit_on].
  - rewrite rsplit_on_lacks by done. now rewrite Ascii.eqb_refl.
  - now rewrite IH.
Qed.
Lemma rsplit_on_Some ch s a b : rsplit_on ch s = Some (a, b) -> s = (a +:+ String ch b)%string /\ lacks ch b.
Proof.
  revert a b; induction s as [|c s IH]; intros a b H; cbn [rsplit_on] in H; [done|].
  destruct (rsplit_on ch s) as [[a' b']|] eqn:E.
  - injection H as <- <-. destruct (IH _ _ eq_refl) as [-> Hl]. done.
  - destruct (Ascii.eqb_spec c ch) as [->|Hne]; [|done]. injection H as <- <-. split; [done|].
    clear -E. induction s as [|c s IH]; cbn [rsplit_on lacks] in *; [done|].
    destruct (rsplit_on ch s) as [[]|]; [done|]. destruct (Ascii.eqb_spec c ch); [done|]. tauto.
Qed.
Lemma digits_lack ch s : digit_value ch = None -> all_digits s -> lacks ch s.
Proof.
  intros Hch. induction s as [|c s IH]; cbn [all_digits lacks]; [done|]. intros [[d Hd] H].
  split; [intros ->; congruence|auto].
Qed.
Lemma pretty_lacks ch (n : N) : digit_value ch = None -> lacks ch (pretty n).
Proof. intros H. apply digits_lack; [done|]. eapply decimal_digits, decimal_pretty. Qed.
Lemma parse_u32_pretty n : n < 2 ^ 32 -> parse_u32 (pretty n) = Some n.
Proof.
  intros H. unfold parse_u32.
  assert (parse_u64 (pretty n) = Some n) as ->.
  { apply parse_u64_digits; [apply pretty_nonempty|eapply decimal_digits, decimal_pretty|].
    split; [apply decimal_pretty|]. change (2 ^ 64) with (2 ^ 32 * 2 ^ 32). lia. }
  cbn [mbind option_bind]. rewrite ensure_intro; [done|]. apply N.ltb_lt. exact H.
Qed.

(** ** C104: farms *)
Lemma gen_shape s i : gen_farm_id s i = (s +:+ String "#" (pretty i))%string.
Proof. reflexivity. Qed.
(** Farms of different seeds, or with different indices, have different ids. *)
Theorem C104_farms_apart s i s' i' : gen_farm_id s i = gen_farm_id s' i' -> s = s' /\ i = i'.
Proof.
  rewrite !gen_shape. intros H. apply (f_equal (rsplit_on "#")) in H.
  rewrite !rsplit_on_app in H by now apply pretty_lacks. injection H as -> H. split; [done|].
  apply (f_equal decimal) in H. unfold decimal in H.
  pose proof (decimal_pretty i) as D1. pose proof (decimal_pretty i') as D2.
  pose proof (pretty_nonempty i) as N1. pose proof (pretty_nonempty i') as N2.
  destruct (pretty i); [done|]. destruct (pretty i'); [done|]. rewrite D1, D2 in H. now injection H.
Qed.
Print Assumptions C104_farms_apart.

(** mock-boost-farming reads back every id it gives out. *)
Theorem C104_boost_reads s i : i < 2 ^ 32 -> bo_parse_farm_id (gen_farm_id s i) = Some (s, i).
Proof.
  intros H. unfold bo_parse_farm_id. rewrite gen_shape, rsplit_on_app by now apply pretty_lacks.
  cbn [mbind option_bind]. now rewrite parse_u32_pretty.
Qed.
Print Assumptions C104_boost_reads.

(** ref-farming does exactly for seeds without '#' in their ids; for any other seed every call that
    takes the farm's id panics. *)
Theorem C104_farming_reads s i : i < 2 ^ 32 ->
  (lacks "#" s -> parse_farm_id (gen_farm_id s i) = Some (s, i)) /\
  (~ lacks "#" s -> parse_farm_id (gen_farm_id s i) = None).
Proof.
  intros H. unfold parse_farm_id. rewrite gen_shape. split; intros Hs.
  - rewrite split_on_app, split_on_lacks by (try apply pretty_lacks; done). now rewrite parse_u32_pretty.
  - destruct (split_on_many "#" s (pretty i) Hs) as (a & b & r & -> & Hr). now destruct r.
Qed.
Print Assumptions C104_farming_reads.

(** A string read as a farm of seed [s] with index [i] either is the id of that farm, or is no
    farm's id at all: then no farm is found under it. *)
Theorem C104_names_one t s i :
  parse_farm_id t = Some (s, i) \/ bo_parse_farm_id t = Some (s, i) ->
  forall s' i', i' < 2 ^ 32 -> t = gen_farm_id s' i' -> s' = s /\ i' = i.
Proof.
  intros H s' i' Hi ->. destruct H as [H|H].
  - destruct (C104_farming_reads s' i' Hi) as [H1 H2]. unfold parse_farm_id in H, H1.
    rewrite gen_shape in H, H1.
    destruct (split_on "#" (s' +:+ String "#" (pretty i'))) as [|a [|b [|]]] eqn:E; try discriminate H.
    apply split_on_two in E as (E & Ha & Hb).
    apply (f_equal (rsplit_on "#")) in E. rewrite !rsplit_on_app in E by (try apply pretty_lacks; done).
    injection E as -> <-. rewrite parse_u32_pretty in H by done. injection H as -> ->. done.
  - rewrite C104_boost_reads in H by done. now injection H.
Qed.
Print Assumptions C104_names_one.

(** ** C104: seeds *)
(** Spec: what was staked, as the contract that holds it and, for shares of a pool, the pool's number
    (an id of shares is ":" and a number, C62). *)
Definition same_thing (id id' : option string) : Prop :=
  match id, id' with
  | None, None => True
  | Some x, Some y => exists n, mft_pool_of x = Some n /\ mft_pool_of y = Some n
  | _, _ => False
  end.

Lemma deposit_MFT sender x seed ty :
  seed_of_deposit sender (Some x) = Some (seed, ty) ->
  exists n, mft_pool_of x = Some n /\ n < 2 ^ 64 /\ seed = (sender +:+ String "@" (pretty n))%string /\ ty = SeedMFT.
Proof.
  destruct x as [|ch r]; cbn [seed_of_deposit mft_pool_of]; [done|].
  destruct (Ascii.eqb ch (ascii_of_N 58)); [|done]. intros H. apply bind_Some in H as (n & Hn & H).
  injection H as <- <-. exists n. split_and!; try done. now apply parse_u64_spec in Hn as [? _].
Qed.
Lemma parse_seed_MFT sender (n : N) :
  lacks "@" sender -> parse_seed_id (sender +:+ String "@" (pretty n)) = Some (sender, pretty n).
Proof.
  intros H. unfold parse_seed_id. rewrite split_on_app by done. now rewrite split_on_lacks by now apply pretty_lacks.
Qed.
Lemma lacks_app ch s t : ~ lacks ch (s +:+ String ch t).
Proof. induction s as [|c s IH]; rewrite ?sapp_nil, ?sapp_cons; cbn [lacks]; tauto. Qed.

(** Whatever is staked goes back the way it came: to the contract that sent it, under an id that names
    the same shares. *)
Lemma deposit_back sender id seed ty :
  lacks "@" sender -> seed_of_deposit sender id = Some (seed, ty) ->
  exists id', withdraw_goes_to ty seed = Some (sender, id') /\ same_thing id id'.
Proof.
  intros Hs H. destruct id as [x|].
  - apply deposit_MFT in H as (n & Hx & Hn & -> & ->). eexists. unfold withdraw_goes_to.
    rewrite parse_seed_MFT by done. cbn [mbind option_bind]. split; [done|]. exists n. split; [done|].
    now apply C62_share_id.
  - injection H as <- <-. eexists. split; [done|]. exact I.
Qed.

(** Deposits recorded under the same seed id are of the same thing. *)
Theorem C104_seeds_apart sender id sender' id' seed ty ty' :
  lacks "@" sender -> lacks "@" sender' ->
  seed_of_deposit sender id = Some (seed, ty) -> seed_of_deposit sender' id' = Some (seed, ty') ->
  sender = sender' /\ same_thing id id' /\ ty = ty'.
Proof.
  intros Hs Hs' H H'. destruct id as [x|], id' as [y|].
  - apply deposit_MFT in H as (n & Hx & Hn & -> & ->). apply deposit_MFT in H' as (m & Hy & Hm & E & ->).
    apply (f_equal (rsplit_on "@")) in E. rewrite !rsplit_on_app in E by now apply pretty_lacks.
    injection E as <- E. split; [done|]. split; [|done]. exists n. split; [done|].
    assert (n = m) as ->; [|done]. apply C62_ids_distinct; [done|done|]. left. now rewrite E.
  - exfalso. apply deposit_MFT in H as (n & _ & _ & -> & ->). injection H' as E <-.
    rewrite E in Hs'. now apply lacks_app in Hs'.
  - exfalso. apply deposit_MFT in H' as (n & _ & _ & E & ->). injection H as -> <-.
    rewrite E in Hs. now apply lacks_app in Hs.
  - injection H as -> <-. injection H' as <- <-. done.
Qed.
Print Assumptions C104_seeds_apart.

(** Senders are account ids, which have no '@'. *)
Definition account_senders (es : list TyEvent) : Prop :=
  Forall (fun e => match e with TyDeposit sender _ => lacks "@" sender | _ => True end) es.
Definition deposited (seed : string) (ty : SeedType) : Prop :=
  exists sender id, lacks "@" sender /\ seed_of_deposit sender id = Some (seed, ty).
Record ty_ok (w : Types) : Prop := {
  ok_staked : forall seed ty, ty_types w !! seed = Some ty -> seed ∈ ty_staked w -> deposited seed ty;
  ok_known : forall seed, seed ∈ ty_staked w -> is_Some (ty_types w !! seed);
  ok_pending : Forall (fun p => deposited p.1 p.2 /\ p.1 ∈ ty_staked w) (ty_pending w) }.

Lemma ty_step_ok w e w' :
  ty_ok w -> account_senders [e] -> ty_step w e = Some w' -> ty_ok w'.
Proof.
  intros [H1 H2 H3] He H. apply Forall_cons in He as [He _].
  destruct e as [seed|sender id|seed|k failed]; cbn [ty_step] in H.
  - destruct (ty_types w !! seed) as [t|] eqn:E; [injection H as <-; split; auto|].
    apply bind_Some in H as (ty & _ & H). injection H as <-. split; cbn; [| |done].
    + intros s t Hs Hin. destruct (decide (s = seed)) as [->|Hne].
      * destruct (H2 _ Hin) as [? Hk]. congruence.
      * rewrite lookup_insert_ne in Hs by done. eauto.
    + intros s Hin. destruct (H2 _ Hin) as [? Hk]. destruct (decide (s = seed)) as [->|Hne]; [congruence|].
      rewrite lookup_insert_ne by done. eauto.
  - apply bind_Some in H as ([seed ty] & Hd & H). apply bind_Some in H as (old & Ho & H). injection H as <-.
    split; cbn.
    + intros s t Hs Hin. destruct (decide (s = seed)) as [->|Hne].
      * rewrite lookup_insert in Hs. injection Hs as <-. exists sender, id. auto.
      * rewrite lookup_insert_ne in Hs by done. eapply H1; [done|set_solver].
    + intros s Hin. destruct (decide (s = seed)) as [->|Hne]; [rewrite lookup_insert; eauto|].
      rewrite lookup_insert_ne by done. apply H2. set_solver.
    + eapply Forall_impl; [exact H3|]. intros [s t] [Ha Hb]. split; [done|set_solver].
  - apply bind_Some in H as (ty & Ht & H). apply bind_Some in H as (u & Hu & H). injection H as <-.
    apply ensure_Some in Hu. apply bool_decide_eq_true in Hu. split; cbn; [done|done|].
    apply Forall_cons. split; [|done]. split; [|done]. eapply H1; eauto.
  - apply bind_Some in H as ([seed ty] & Hp & H).
    assert (Forall (fun p => deposited p.1 p.2 /\ p.1 ∈ ty_staked w) (delete k (ty_pending w))) as Hr
      by now apply Forall_delete.
    pose proof (Forall_lookup_1 _ _ _ _ H3 Hp) as [Hd Hin]. cbn in Hd, Hin.
    destruct failed.
    + apply bind_Some in H as (old & Ho & H). injection H as <-. split; cbn; [| |done].
      * intros s t Hs Hi. destruct (decide (s = seed)) as [->|Hne].
        -- rewrite lookup_insert in Hs. injection Hs as <-. done.
        -- rewrite lookup_insert_ne in Hs by done. eauto.
      * intros s Hi. destruct (decide (s = seed)) as [->|Hne]; [rewrite lookup_insert; eauto|].
        rewrite lookup_insert_ne by done. auto.
    + injection H as <-. split; cbn; auto.
Qed.
Lemma ty_run_ok w es : ty_ok w -> account_senders es -> ty_ok (ty_run w es).
Proof.
  unfold ty_run. revert w; induction es as [|e es IH]; intros w Hw He; cbn [fold_left]; [done|].
  apply Forall_cons in He as [He Hes]. apply IH; [|done].
  destruct (ty_step w e) eqn:E; [|done]. eapply ty_step_ok; [done| |done]. apply Forall_cons. split; [done|constructor].
Qed.
Lemma ty_none_ok : ty_ok ty_none.
Proof. split; cbn; [set_solver|set_solver|constructor]. Qed.

(** At any time, whatever farms were created, deposits made and withdrawals failed: a withdrawal of a
    seed sends what was deposited under that seed's id back to where it came from. *)
Theorem C104_seeds_return es w seed ty sender id ty' :
  account_senders es -> lacks "@" sender -> w = ty_run ty_none es ->
  seed_of_deposit sender id = Some (seed, ty') -> seed ∈ ty_staked w -> ty_types w !! seed = Some ty ->
  exists id', withdraw_goes_to ty seed = Some (sender, id') /\ same_thing id id'.
Proof.
  intros Hes Hs -> Hd Hin Ht. pose proof (ty_run_ok _ _ ty_none_ok Hes) as [H1 _ _].
  destruct (H1 _ _ Ht Hin) as (s & x & Hsl & Hx).
  destruct (C104_seeds_apart _ _ _ _ _ _ _ Hs Hsl Hd Hx) as (-> & _ & <-). now eapply deposit_back.
Qed.
Print Assumptions C104_seeds_return.

(** The type a seed is created with is the one its deposits give it, unless it is a seed of shares whose contract is
    named by the number of the share. *)
Theorem C104_new_type sender id seed ty :
  lacks "@" sender -> seed_of_deposit sender id = Some (seed, ty) ->
  new_seed_type seed = Some ty \/
  (exists n : N, sender = pretty n /\ seed = (sender +:+ String "@" sender)%string /\ ty = SeedMFT /\ new_seed_type seed = Some SeedFT).
Proof.
  intros Hs H. unfold new_seed_type, parse_seed_id. destruct id as [x|].
  - apply deposit_MFT in H as (n & _ & _ & -> & ->).
    rewrite split_on_app, split_on_lacks by (try apply pretty_lacks; done). cbn [mbind option_bind].
    destruct (String.eqb_spec sender (pretty n)) as [E|E]; [right|left; done].
    exists n. rewrite <- E. done.
  - injection H as <- <-. rewrite split_on_lacks by done. cbn [mbind option_bind]. rewrite String.eqb_refl. now left.
Qed.
Print Assumptions C104_new_type.

(** The contract whose seed id has the number of its own name, "55@55", starts with the wrong type;
    its first deposit corrects it before anything can be withdrawn. *)
Example C104_ex :
  let es := [TyCreate "55@55"; TyCreate "v2.ref@79"; TyCreate "token.ref"; TyDeposit "55" (Some ":55");
             TyDeposit "v2.ref" (Some ":079"); TyDeposit "token.ref" None; TyWithdraw "v2.ref@79";
             TyResolve 0 true]%string in
  let w := ty_run ty_none es in
  new_seed_type "55@55" = Some SeedFT /\ ty_types w !! "55@55" = Some SeedMFT /\
  ty_types w !! "v2.ref@79" = Some SeedMFT /\ ty_types w !! "token.ref" = Some SeedFT /\
  withdraw_goes_to SeedMFT "v2.ref@79" = Some ("v2.ref", Some ":79") /\
  account_senders es /\ "v2.ref@79" ∈ ty_staked w.
Proof.
  cbv zeta. split_and!; try (vm_compute; reflexivity).
  unfold account_senders. repeat (apply Forall_cons; split); try apply Forall_nil; cbn [lacks]; try exact I;
    repeat split; discriminate.
Qed.
Example C104_farm_ex :
  gen_farm_id "v2.ref@79" 3 = "v2.ref@79#3" /\ parse_farm_id "v2.ref@79#3" = Some ("v2.ref@79", 3)%string /\
  bo_parse_farm_id "v2.ref@79#3" = Some ("v2.ref@79", 3)%string /\ parse_farm_id "a#b#3" = None /\
  parse_farm_id "v2.ref@79#03" = Some ("v2.ref@79", 3)%string /\ bo_parse_farm_id "a#b#3" = Some ("a#b", 3)%string.
Proof. split_and!; vm_compute; reflexivity. Qed.

(** mock-boost-farming names the seed of any id ":x" by "{contract}@x": different ids or contracts,
    different seeds; never the seed of a fungible token, whose id is the contract. *)
Theorem C104_boost_seeds_apart sender x sender' y seed :
  lacks "@" sender -> lacks "@" sender' ->
  bo_seed_of_mft sender x = Some seed -> bo_seed_of_mft sender' y = Some seed ->
  sender = sender' /\ x = y /\ seed <> sender'.
Proof.
  intros Hs Hs' H H'. destruct x as [|c x], y as [|d y]; cbn [bo_seed_of_mft] in *; try discriminate.
  destruct (Ascii.eqb_spec c (ascii_of_N 58)) as [->|]; [|done].
  destruct (Ascii.eqb_spec d (ascii_of_N 58)) as [->|]; [|done]. injection H as <-. injection H' as E.
  change ("@" +:+ y)%string with (String "@" y) in E. change ("@" +:+ x)%string with (String "@" x) in *.
  assert (Hsplit : forall a a' b b', lacks "@" a -> lacks "@" a' ->
    (a +:+ String "@" b)%string = (a' +:+ String "@" b')%string -> a = a' /\ b = b').
  { induction a as [|k a IH]; intros [|k' a'] b b' Ha Ha' He; rewrite ?sapp_nil, ?sapp_cons in He; cbn [lacks] in *.
    - now injection He.
    - injection He as <- _. now destruct Ha'.
    - injection He as -> _. now destruct Ha.
    - injection He as -> He. destruct Ha, Ha'. apply IH in He as [-> ->]; done. }
  destruct (Hsplit _ _ _ _ Hs' Hs E) as [-> ->]. split_and!; try done.
  intros F. rewrite <- F in Hs at 1. now apply lacks_app in Hs.
Qed.
Print Assumptions C104_boost_seeds_apart.
Example C104_boost_ex : bo_seed_of_mft "v2.ref" ":79" = Some "v2.ref@79"%string /\ bo_seed_of_mft "v2.ref" "usdt" = None.
Proof. split; reflexivity. Qed.
