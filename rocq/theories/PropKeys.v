(** * Entries of different collections never share a storage key: C103 *)
From Coq Require Import Ascii.
From Verif Require Import Base BaseLemmas Keys.

(** ** Spec: which entries there are *)
(** Strings have fewer than 2^32 bytes (account ids have at most 64; the VM could not hold longer ones). *)
Definition short (s : string) : Prop := N.of_nat (String.length s) < 2 ^ 32.
Definition entry_of (t : EntryType) (e : Entry) : Prop :=
  match t, e with
  | TStr, EStr s => short s | TU32, EU32 x => x < 2 ^ 32 | TU64, EU64 x => x < 2 ^ 64 | _, _ => False
  end.
(** The entries a collection of a given kind has. *)
Definition member_of (k : Kind) (m : Member) : Prop :=
  match k, m with
  | KVector, MAt i => i < 2 ^ 64
  | KLookup t, MEntry e => entry_of t e
  | KMap t, MIndex e => entry_of t e
  | KMap _, (MKey i | MValue i) => i < 2 ^ 64
  | KSet t, MIndex e => entry_of t e
  | KSet _, MElem i => i < 2 ^ 64
  | KLazy, MSelf => True
  | _, _ => False
  end.
(** Pools are numbered below 2^32. *)
Definition ex_named (c : ExCollection) : Prop :=
  match c with
  | XShares p => p < 2 ^ 32 | XAccountTokens a | XShadow a | XLostTokens a => short a | _ => True
  end.
Definition fa_named (c : FaCollection) : Prop := match c with FRps a => short a | _ => True end.
Definition bo_named (c : BoCollection) : Prop := match c with BFarmerSeed a => short a | _ => True end.

(** ** Bytes *)
Lemma le_length n x : length (le n x) = n.
Proof. revert x; induction n as [|n IH]; intros x; cbn [le length]; [done|]. now rewrite IH. Qed.
Lemma le_inj n x y : x < 256 ^ N.of_nat n -> y < 256 ^ N.of_nat n -> le n x = le n y -> x = y.
Proof.
  revert x y; induction n as [|n IH]; intros x y Hx Hy H; cbn [le] in H.
  - change (256 ^ N.of_nat 0) with 1 in *. lia.
  - rewrite Nnat.Nat2N.inj_succ, N.pow_succ_r' in Hx, Hy. injection H as H1 H2.
    apply IH in H2; [|apply N.div_lt_upper_bound; lia|apply N.div_lt_upper_bound; lia].
    rewrite (N.div_mod x 256), (N.div_mod y 256) by done. now rewrite H1, H2.
Qed.
Lemma le4_inj x y : x < 2 ^ 32 -> y < 2 ^ 32 -> le 4 x = le 4 y -> x = y.
Proof. apply (le_inj 4). Qed.
Lemma le8_inj x y : x < 2 ^ 64 -> y < 2 ^ 64 -> le 8 x = le 8 y -> x = y.
Proof. apply (le_inj 8). Qed.
Lemma N_of_ascii_inj a b : N_of_ascii a = N_of_ascii b -> a = b.
Proof. intros H. rewrite <- (ascii_N_embedding a), <- (ascii_N_embedding b). now rewrite H. Qed.
Lemma sbytes_length s : length (sbytes s) = String.length s.
Proof. induction s as [|ch s IH]; cbn [sbytes String.length length]; [done|]. now rewrite IH. Qed.
Lemma sbytes_inj s t : sbytes s = sbytes t -> s = t.
Proof.
  revert t; induction s as [|ch s IH]; intros [|ch' t] H; cbn [sbytes] in H; try discriminate; [done|].
  injection H as H1 H2. apply N_of_ascii_inj in H1 as ->. now rewrite (IH _ H2).
Qed.
Lemma app_same_length {A} (a b c d : list A) : length a = length b -> a ++ c = b ++ d -> a = b /\ c = d.
Proof.
  revert b; induction a as [|x a IH]; intros [|y b] Hl H; cbn [length app] in *; try discriminate; [done|].
  injection H as -> H. apply IH in H as [-> ->]; [done|lia].
Qed.
Lemma le_split n x y r r' : x < 256 ^ N.of_nat n -> y < 256 ^ N.of_nat n -> le n x ++ r = le n y ++ r' -> x = y /\ r = r'.
Proof.
  intros Hx Hy H. apply app_same_length in H as [H ->]; [|now rewrite !le_length]. split; [eapply le_inj; eauto|done].
Qed.
Lemma bstr_split s t r r' : short s -> short t -> bstr s ++ r = bstr t ++ r' -> s = t /\ r = r'.
Proof.
  intros Hs Ht H. unfold bstr in H. rewrite <- !app_assoc in H.
  apply (le_split 4) in H as [Hl H]; [|exact Hs|exact Ht].
  apply app_same_length in H as [H ->]; [split; [now apply sbytes_inj|done]|]. rewrite !sbytes_length. lia.
Qed.
Lemma bstr_inj s t : short s -> short t -> bstr s = bstr t -> s = t.
Proof. intros Hs Ht H. apply (bstr_split s t [] []); [done|done|]. now rewrite H. Qed.

Lemma entry_inj t e e' : entry_of t e -> entry_of t e' -> entry_bytes e = entry_bytes e' -> e = e'.
Proof.
  destruct t, e, e'; cbn [entry_of entry_bytes]; try done; intros H1 H2 H; f_equal.
  - now apply bstr_inj.
  - now apply le4_inj.
  - now apply le8_inj.
Qed.
Lemma member_inj k m m' : member_of k m -> member_of k m' -> member_bytes m = member_bytes m' -> m = m'.
Proof.
  destruct k, m, m'; cbn [member_of member_bytes]; try done; intros H1 H2 H; try discriminate H; f_equal;
    try (apply (f_equal (@tl N)) in H; cbn [tl] in H; first [now apply le8_inj|now apply (entry_inj t)]).
  - now apply le8_inj.
  - now apply (entry_inj t).
Qed.

(** ** C103 *)
(** Entries of the exchange's storage. *)
Inductive ExSlot := XOne (s : ExSingle) | XIn (c : ExCollection) (m : Member).
Definition ex_key (s : ExSlot) : list N :=
  match s with XOne s => ex_single s | XIn c m => ex_prefix c ++ member_bytes m end.
Definition ex_slot (s : ExSlot) : Prop :=
  match s with XOne _ => True | XIn c m => ex_named c /\ member_of (ex_kind c) m end.

Lemma ex_prefix_free c c' r r' : ex_named c -> ex_named c' -> ex_prefix c ++ r = ex_prefix c' ++ r' -> c = c' /\ r = r'.
Proof.
  intros Hc Hc' H.
  destruct c, c'; cbn [ex_prefix app] in H; try discriminate H;
    try (split; [done|injection H as H; exact H]); cbn [ex_named] in *;
    apply (f_equal (@tl N)) in H; cbn [tl] in H.
  - apply (le_split 4) in H as [-> ->]; done.
  - apply bstr_split in H as [-> ->]; done.
  - apply bstr_split in H as [-> ->]; done.
  - apply bstr_split in H as [-> ->]; done.
Qed.

Theorem C103_exchange s t : ex_slot s -> ex_slot t -> ex_key s = ex_key t -> s = t.
Proof.
  destruct s as [s|c m], t as [t|c' m']; cbn [ex_slot ex_key]; intros Hs Ht H.
  - destruct s, t; vm_compute in H; try discriminate; done.
  - exfalso. destruct s, c'; discriminate H.
  - exfalso. destruct t, c; discriminate H.
  - destruct Hs as [Hs Hm], Ht as [Ht Hm']. apply ex_prefix_free in H as [<- H]; [|done|done].
    f_equal. eapply member_inj; eauto.
Qed.
Print Assumptions C103_exchange.

(** So writing or removing an entry leaves every other entry of the contract's storage as it is. *)
Theorem C103_exchange_apart {V} (store : gmap (list N) V) s t v :
  ex_slot s -> ex_slot t -> s <> t ->
  <[ex_key s := v]> store !! ex_key t = store !! ex_key t /\ delete (ex_key s) store !! ex_key t = store !! ex_key t.
Proof.
  intros Hs Ht Hne. assert (ex_key s <> ex_key t) by (intros E; apply Hne; now apply C103_exchange).
  split; [now apply lookup_insert_ne|now apply lookup_delete_ne].
Qed.
Print Assumptions C103_exchange_apart.

(** The farming contracts: the same for their collections and the contract state. *)
Inductive FaSlot := FState0 | FIn (c : FaCollection) (m : Member).
Definition fa_key (s : FaSlot) : list N :=
  match s with FState0 => sbytes "STATE" | FIn c m => fa_prefix c ++ member_bytes m end.
Definition fa_slot (s : FaSlot) : Prop :=
  match s with FState0 => True | FIn c m => fa_named c /\ member_of (fa_kind c) m end.
Theorem C103_farming s t : fa_slot s -> fa_slot t -> fa_key s = fa_key t -> s = t.
Proof.
  destruct s as [|c m], t as [|c' m']; cbn [fa_slot fa_key]; intros Hs Ht H.
  - done.
  - exfalso. destruct c'; discriminate H.
  - exfalso. destruct c; discriminate H.
  - destruct Hs as [Hs Hm], Ht as [Ht Hm']. assert (c = c' /\ member_bytes m = member_bytes m') as [<- Hb].
    { destruct c, c'; cbn [fa_prefix app] in H; try discriminate H; try (split; [done|injection H as H; exact H]).
      cbn [fa_named] in *. apply (f_equal (@tl N)) in H. cbn [tl] in H. apply bstr_split in H as [-> ->]; done. }
    f_equal. eapply member_inj; eauto.
Qed.
Print Assumptions C103_farming.

Inductive BoSlot := BState0 | BIn (c : BoCollection) (m : Member).
Definition bo_key (s : BoSlot) : list N :=
  match s with BState0 => sbytes "STATE" | BIn c m => bo_prefix c ++ member_bytes m end.
Definition bo_slot (s : BoSlot) : Prop :=
  match s with BState0 => True | BIn c m => bo_named c /\ member_of (bo_kind c) m end.
Theorem C103_boost s t : bo_slot s -> bo_slot t -> bo_key s = bo_key t -> s = t.
Proof.
  destruct s as [|c m], t as [|c' m']; cbn [bo_slot bo_key]; intros Hs Ht H.
  - done.
  - exfalso. destruct c'; discriminate H.
  - exfalso. destruct c; discriminate H.
  - destruct Hs as [Hs Hm], Ht as [Ht Hm']. assert (c = c' /\ member_bytes m = member_bytes m') as [<- Hb].
    { destruct c, c'; cbn [bo_prefix app] in H; try discriminate H; try (split; [done|injection H as H; exact H]).
      cbn [bo_named] in *. apply (f_equal (@tl N)) in H. cbn [tl] in H. apply bstr_split in H as [-> ->]; done. }
    f_equal. eapply member_inj; eauto.
Qed.
Print Assumptions C103_boost.

(** What the limit on pool ids is needed for: a pool's shares are kept under its id cut to 32 bits, so
    pools whose ids differ by a multiple of 2^32 would hold each other's shares. *)
Lemma le_wrap n x k : le n (x + k * 256 ^ N.of_nat n) = le n x.
Proof.
  revert x k; induction n as [|n IH]; intros x k; cbn [le]; [done|].
  rewrite Nnat.Nat2N.inj_succ, N.pow_succ_r'.
  replace (x + k * (256 * 256 ^ N.of_nat n)) with (x + (k * 256 ^ N.of_nat n) * 256) by lia.
  rewrite N.mod_add, N.div_add by done. now rewrite IH.
Qed.
Theorem C103_wide_pools p k a : ex_key (XIn (XShares (p + k * 2 ^ 32)) (MEntry (EStr a))) = ex_key (XIn (XShares p) (MEntry (EStr a))).
Proof. cbn [ex_key ex_prefix]. change (2 ^ 32) with (256 ^ N.of_nat 4). now rewrite le_wrap. Qed.
Print Assumptions C103_wide_pools.

(** Concrete entries: the same owner's balance of one token, and lost-and-found amount of it, their shares of a
    pool, the pool's volume and limit, and the whitelist entry of the token. *)
Definition ex_slots : list ExSlot :=
  [XOne XState; XOne XRates; XOne XLimit; XIn XPools (MAt 7); XIn XAccounts (MEntry (EStr "alice"));
   XIn (XShares 7) (MEntry (EStr "alice")); XIn (XAccountTokens "alice") (MIndex (EStr "usdt"));
   XIn (XAccountTokens "alice") (MKey 0); XIn (XAccountTokens "alice") (MValue 0);
   XIn (XShadow "alice") (MIndex (EU64 7)); XIn (XLostTokens "alice") (MIndex (EStr "usdt"));
   XIn XVolumes (MEntry (EU32 7)); XIn XPoolLimit (MIndex (EU64 7)); XIn XWhitelist (MIndex (EStr "usdt"));
   XIn XWhitelist (MElem 0)].
Example ex_slots_ok : Forall ex_slot ex_slots /\ NoDup (map ex_key ex_slots).
Proof.
  split; [unfold ex_slots, ex_slot, short; repeat (apply Forall_cons; split); try apply Forall_nil; try exact I; vm_compute; auto|].
  apply (bool_decide_unpack _). vm_compute. reflexivity.
Qed.
