(** * The storage keys of the three contracts.

    A NEAR contract has one flat map from byte strings to byte strings.  The model keeps every
    collection of the code as a map (or list) of its own; this file writes down the keys under which
    the code stores the entries, so that C103 can show that the separation is sound.

    The layouts inside a collection are those of near-sdk 3.1 ([collections::{Vector, LookupMap,
    UnorderedMap, UnorderedSet, LazyOption}]) and borsh; these libraries are not in /repo and are
    taken as published.  A byte is a number below 256. *)
From Coq Require Import Ascii.
From Verif Require Import Base.

Notation bytes := (list N) (only parsing).

(** The bytes of a string. *)
Fixpoint sbytes (s : string) : bytes :=
  match s with EmptyString => [] | String ch r => N_of_ascii ch :: sbytes r end.
(** borsh: an integer of [n] bytes, little endian (what does not fit is cut off, as by [as u32]). *)
Fixpoint le (n : nat) (x : N) : bytes := match n with O => [] | S n => x mod 256 :: le n (x / 256) end.
(** borsh: a string is its length in four bytes and its bytes. *)
Definition bstr (s : string) : bytes := le 4 (N.of_nat (String.length s)) ++ sbytes s.

(** Keys of maps and elements of sets. *)
Inductive Entry := EStr (s : string) | EU32 (x : N) | EU64 (x : N).
Definition entry_bytes (e : Entry) : bytes :=
  match e with EStr s => bstr s | EU32 x => le 4 x | EU64 x => le 8 x end.

(** What a collection stores besides its own record, which is part of the contract's state:
    - [MAt i]: element [i] of a Vector, at prefix + index;
    - [MEntry e]: the value of key [e] of a LookupMap, at prefix + key;
    - [MIndex e]: the position of key [e] of an UnorderedMap or UnorderedSet, at prefix + "i" + key;
    - [MKey i], [MValue i]: elements of an UnorderedMap's vectors of keys and of values, at prefix +
      "k" or "v" + index;
    - [MElem i]: element of an UnorderedSet's vector, at prefix + "e" + index;
    - [MSelf]: the value of a LazyOption, at its prefix. *)
Inductive Member := MAt (i : N) | MEntry (e : Entry) | MIndex (e : Entry) | MKey (i : N) | MValue (i : N)
  | MElem (i : N) | MSelf.
Definition member_bytes (m : Member) : bytes :=
  match m with
  | MAt i => le 8 i
  | MEntry e => entry_bytes e
  | MIndex e => 105 :: entry_bytes e
  | MKey i => 107 :: le 8 i
  | MValue i => 118 :: le 8 i
  | MElem i => 101 :: le 8 i
  | MSelf => []
  end.

(** Types of keys and of collections. *)
Inductive EntryType := TStr | TU32 | TU64.
Inductive Kind := KVector | KLookup (t : EntryType) | KMap (t : EntryType) | KSet (t : EntryType) | KLazy.

(** ** ref-exchange *)
(** lib.rs:69-87 StorageKey, with the types of the collections at lib.rs:125-140,
    account_deposit.rs:79-97, account_lostfound.rs:6-22 and 85-100, simple_pool.rs:35 and 60,
    stable_swap/mod.rs:34 and 71, rated_swap/mod.rs:44 and 81, degen_swap/mod.rs:44 and 81,
    client_echo_limit.rs:3-47 and pool_limit_info.rs:48-56. *)
Inductive ExCollection :=
  | XPools | XAccounts | XShares (pool : N) | XWhitelist | XGuardian | XAccountTokens (a : AccountId)
  | XFrozen | XReferral | XShadow (a : AccountId) | XTwap | XPoolLimit | XEchoTokens | XEchoSenders
  | XSecureSenders | XLostAccounts | XLostTokens (a : AccountId)
  (* swap_volume.rs:47-62: LookupMap under the bytes of "sv", keyed by [pool_id as u32] *)
  | XVolumes.
Definition ex_kind (c : ExCollection) : Kind :=
  match c with
  | XPools => KVector
  | XAccounts | XShares _ | XLostAccounts => KLookup TStr
  | XWhitelist | XGuardian | XFrozen | XEchoTokens | XEchoSenders | XSecureSenders => KSet TStr
  | XAccountTokens _ | XReferral | XLostTokens _ => KMap TStr
  | XShadow _ | XTwap | XPoolLimit => KMap TU64
  | XVolumes => KLookup TU32
  end.
(** BorshStorageKey: the variant's number in one byte, then its fields.  [Shares { pool_id: u32 }] is
    made from [self.pools.len() as u32] (lib.rs:176, 200, 221, 241): the pool's id cut to four bytes. *)
Definition ex_prefix (c : ExCollection) : bytes :=
  match c with
  | XPools => [0] | XAccounts => [1] | XShares p => 2 :: le 4 p | XWhitelist => [3] | XGuardian => [4]
  | XAccountTokens a => 5 :: bstr a | XFrozen => [6] | XReferral => [7] | XShadow a => 8 :: bstr a
  | XTwap => [9] | XPoolLimit => [10] | XEchoTokens => [11] | XEchoSenders => [12] | XSecureSenders => [13]
  | XLostAccounts => [14] | XLostTokens a => 15 :: bstr a
  | XVolumes => sbytes "sv"
  end.
(** Single values: the contract's state (near-sdk: "STATE") and custom_keys.rs:1-17. *)
Inductive ExSingle := XState | XRates | XDegens | XOracle | XLimit | XEchoT | XEchoS | XSecure.
Definition ex_single (s : ExSingle) : bytes :=
  sbytes match s with
         | XState => "STATE" | XRates => "custom_rate_key" | XDegens => "custom_degen_key"
         | XOracle => "custom_degen_oracle_config_key" | XLimit => "pl"
         | XEchoT => "ce_tw" | XEchoS => "ce_sw" | XSecure => "ce_ssw"
         end.

(** ** ref-farming *)
(** lib.rs:46-53 StorageKeys; lib.rs:66-82, farmer.rs:33 and 134. *)
Inductive FaCollection := FSeed | FFarm | FOutdated | FFarmer | FReward | FRps (a : AccountId).
Definition fa_kind (c : FaCollection) : Kind :=
  match c with FSeed | FFarm | FOutdated | FReward => KMap TStr | FFarmer | FRps _ => KLookup TStr end.
Definition fa_prefix (c : FaCollection) : bytes :=
  match c with
  | FSeed => [0] | FFarm => [1] | FOutdated => [2] | FFarmer => [3] | FReward => [4] | FRps a => 5 :: bstr a
  end.

(** ** mock-boost-farming *)
(** lib.rs:53-62 StorageKeys; lib.rs:133-141, farmer.rs:14 and 44. *)
Inductive BoCollection := BOperator | BConfig | BSeed | BFarmer | BFarmerSeed (a : AccountId) | BOutdated
  | BSlashed | BLost.
Definition bo_kind (c : BoCollection) : Kind :=
  match c with
  | BOperator => KSet TStr | BConfig => KLazy | BFarmer => KLookup TStr
  | BSeed | BFarmerSeed _ | BOutdated | BSlashed | BLost => KMap TStr
  end.
Definition bo_prefix (c : BoCollection) : bytes :=
  match c with
  | BOperator => [0] | BConfig => [1] | BSeed => [2] | BFarmer => [3] | BFarmerSeed a => 4 :: bstr a
  | BOutdated => [5] | BSlashed => [6] | BLost => [7]
  end.
