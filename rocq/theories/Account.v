(** * User accounts of the exchange.
    /repo/ref-exchange/src/account_deposit.rs:22-316, legacy.rs:12-70.
    Simplifications: UnorderedMap and HashMap are [gmap]s, the unused field storage_used is dropped,
    and the u64 product in storage_usage does not overflow (it would need 2^56 token entries). *)
From Verif Require Import Base.

(** env::storage_byte_cost(): 10^19 yoctoNEAR *)
Definition STORAGE_BYTE_COST : N := 10 ^ 19.
(** account_deposit.rs:26-46: 69 + 1 + 16 + 4 + 4 + 8 *)
Definition INIT_ACCOUNT_STORAGE : N := 102.
(** ACC_ID_AS_KEY_STORAGE + U128_STORAGE *)
Definition LEGACY_ENTRY_STORAGE : N := 84.
(** KEY_PREFIX_ACC + ACC_ID_AS_KEY_STORAGE + U128_STORAGE *)
Definition TOKEN_ENTRY_STORAGE : N := 148.

(** account_deposit.rs:230-234 *)
Record ShadowRecord := mkShadow { sh_farm : N; sh_burrow : N }.

(** account_deposit.rs:72-84 *)
Record Account := mkAccount {
  ac_near : N;
  ac_legacy : gmap AccountId N;
  ac_tokens : gmap AccountId N;
  ac_shadow : gmap N ShadowRecord;
}.
Definition ac_set_near (a : Account) x := mkAccount x (ac_legacy a) (ac_tokens a) (ac_shadow a).
Definition ac_set_legacy (a : Account) x := mkAccount (ac_near a) x (ac_tokens a) (ac_shadow a).
Definition ac_set_tokens (a : Account) x := mkAccount (ac_near a) (ac_legacy a) x (ac_shadow a).
Definition ac_set_shadow (a : Account) x := mkAccount (ac_near a) (ac_legacy a) (ac_tokens a) x.

(** account_deposit.rs:48-53, legacy.rs:12-21, 39-47 *)
Inductive VAccount :=
| VA1 (near : N) (tokens : gmap AccountId N)
| VA2 (near : N) (legacy tokens : gmap AccountId N)
| VACurrent (a : Account).

(** account_deposit.rs:55-64, legacy.rs:23-37, 49-67 into_current *)
Definition into_current (v : VAccount) : Account :=
  match v with
  | VA1 near tokens => mkAccount near tokens ∅ ∅
  | VA2 near legacy tokens => mkAccount near legacy tokens ∅
  | VACurrent a => a
  end.

(** account_deposit.rs:87-98 new *)
Definition ac_new : Account := mkAccount 0 ∅ ∅ ∅.

(** account_deposit.rs:100-108 get_balance *)
Definition ac_get_balance (a : Account) (t : AccountId) : option N :=
  match ac_tokens a !! t with Some x => Some x | None => ac_legacy a !! t end.

(** account_deposit.rs:177-183 storage_usage *)
Definition ac_storage_usage (a : Account) : N :=
  (INIT_ACCOUNT_STORAGE + N.of_nat (size (ac_legacy a)) * LEGACY_ENTRY_STORAGE
   + N.of_nat (size (ac_tokens a)) * TOKEN_ENTRY_STORAGE) * STORAGE_BYTE_COST.

(** account_deposit.rs:186-194 storage_available *)
Definition ac_storage_available (a : Account) : N :=
  if ac_storage_usage a <? ac_near a then ac_near a - ac_storage_usage a else 0.

(** account_deposit.rs:205-208 min_storage_usage *)
Definition min_storage_usage : N := INIT_ACCOUNT_STORAGE * STORAGE_BYTE_COST.

(** account_deposit.rs:122-142 deposit_with_storage_check; [None]: overflow, [Some (_, false)]: not
    enough storage, the account is as before *)
Definition ac_deposit_with_storage_check (a : Account) (t : AccountId) (x : N) : option (Account * bool) :=
  match ac_tokens a !! t with
  | Some y => z ← cadd W128 y x; Some (ac_set_tokens a (<[t := z]> (ac_tokens a)), true)
  | None =>
      match ac_legacy a !! t with
      | Some y => z ← cadd W128 y x; Some (ac_set_legacy a (<[t := z]> (ac_legacy a)), true)
      | None =>
          let a' := ac_set_tokens a (<[t := x]> (ac_tokens a)) in
          if ac_storage_usage a' <=? ac_near a' then Some (a', true) else Some (a, false)
      end
  end.

(** account_deposit.rs:145-156 deposit *)
Definition ac_deposit (a : Account) (t : AccountId) (x : N) : option Account :=
  if 0 <? x then
    match ac_legacy a !! t with
    | Some y =>
        z ← cadd W128 x y;
        Some (mkAccount (ac_near a) (delete t (ac_legacy a)) (<[t := z]> (ac_tokens a)) (ac_shadow a))
    | None =>
        match ac_tokens a !! t with
        | Some y => z ← cadd W128 x y; Some (ac_set_tokens a (<[t := z]> (ac_tokens a)))
        | None => Some (ac_set_tokens a (<[t := x]> (ac_tokens a)))
        end
    end
  else Some a.

(** account_deposit.rs:160-173 withdraw *)
Definition ac_withdraw (a : Account) (t : AccountId) (x : N) : option Account :=
  if 0 <? x then
    match ac_legacy a !! t with
    | Some y =>
        z ← csub y x;
        Some (mkAccount (ac_near a) (delete t (ac_legacy a)) (<[t := z]> (ac_tokens a)) (ac_shadow a))
    | None =>
        y ← ac_tokens a !! t;
        z ← csub y x;
        Some (ac_set_tokens a (<[t := z]> (ac_tokens a)))
    end
  else Some a.

(** the loops [for i in 0..tokens.len() { deposits.withdraw(&tokens[i], amounts[i]) }] *)
Fixpoint ac_withdraw_all (a : Account) (ts : list AccountId) (xs : list N) : option Account :=
  match ts, xs with
  | [], _ => Some a
  | t :: ts', x :: xs' => a' ← ac_withdraw a t x; ac_withdraw_all a' ts' xs'
  | _ :: _, [] => None
  end.
Fixpoint ac_deposit_all (a : Account) (ts : list AccountId) (xs : list N) : option Account :=
  match ts, xs with
  | [], _ => Some a
  | t :: ts', x :: xs' => a' ← ac_deposit a t x; ac_deposit_all a' ts' xs'
  | _ :: _, [] => None
  end.

(** account_deposit.rs:211-218 register *)
Fixpoint ac_register (a : Account) (ts : list AccountId) : Account :=
  match ts with
  | [] => a
  | t :: r =>
      ac_register (match ac_get_balance a t with
                   | Some _ => a
                   | None => ac_set_tokens a (<[t := 0]> (ac_tokens a))
                   end) r
  end.

(** account_deposit.rs:222-227 unregister *)
Definition ac_unregister (a : Account) (t : AccountId) : option Account :=
  _ ← ensure (default 0 (ac_legacy a !! t) =? 0);
  _ ← ensure (default 0 (ac_tokens a !! t) =? 0);
  Some (mkAccount (ac_near a) (delete t (ac_legacy a)) (delete t (ac_tokens a)) (ac_shadow a)).
Fixpoint ac_unregister_all (a : Account) (ts : list AccountId) : option Account :=
  match ts with [] => Some a | t :: r => a' ← ac_unregister a t; ac_unregister_all a' r end.

(** account_deposit.rs:241-244 free_shares, 246-248, 250-252 *)
Definition sh_free (r : ShadowRecord) (total : N) : option N := csub total (N.max (sh_farm r) (sh_burrow r)).
Definition sh_available_farming (r : ShadowRecord) (total : N) : option N := csub total (sh_farm r).
Definition sh_available_burrow (r : ShadowRecord) (total : N) : option N := csub total (sh_burrow r).

(** account_deposit.rs:275-280 ShadowActions *)
Inductive ShadowAction := ToFarming | FromFarming | ToBurrowland | FromBurrowland.

(** account_deposit.rs:289-314 update_shadow_record *)
Definition sh_update (r : ShadowRecord) (act : ShadowAction) (x : N) : option ShadowRecord :=
  match act with
  | ToFarming => y ← cadd W128 (sh_farm r) x; Some (mkShadow y (sh_burrow r))
  | ToBurrowland => y ← cadd W128 (sh_burrow r) x; Some (mkShadow (sh_farm r) y)
  | FromFarming => y ← csub (sh_farm r) x; Some (mkShadow y (sh_burrow r))
  | FromBurrowland => y ← csub (sh_burrow r) x; Some (mkShadow (sh_farm r) y)
  end.
Definition ac_update_shadow (a : Account) (pid : N) (act : ShadowAction) (x : N) : option Account :=
  r ← sh_update (default (mkShadow 0 0) (ac_shadow a !! pid)) act x;
  Some (ac_set_shadow a (if (sh_burrow r =? 0) && (sh_farm r =? 0)
                         then delete pid (ac_shadow a) else <[pid := r]> (ac_shadow a))).
