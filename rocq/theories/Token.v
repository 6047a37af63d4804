(** * Wrapped NEAR, mock-wnear/src/lib.rs and mock-wnear/src/w_near.rs

    The contract is a [FungibleToken] of near-contract-standards 3.1.0 (mock-wnear/Cargo.toml:13) with two methods of its own.
    The library is not part of /repo; its transfer, storage and refund functions are modelled as published with that version
    (fungible_token/core_impl.rs, storage_impl.rs).  Its other user in /repo with an open [mint] is test-token.
    NEAR of the contract is [tk_near]: attached deposits come in, scheduled transfers leave at once.  What storage costs is
    [storage_balance_bounds().min], the argument [m], fixed at deployment. *)
From Verif Require Import Base.

(** FungibleToken (accounts, total_supply) with the NEAR the contract has *)
Record Token := mkToken { tk_bal : gmap AccountId N; tk_supply : N; tk_near : N }.

(** mock-wnear/src/lib.rs:33-37 new *)
Definition tk_new (near : N) : Token := mkToken ∅ 0 near.

(** FungibleToken::internal_register_account: panics if registered *)
Definition tk_register (k : Token) (a : AccountId) : option Token :=
  match tk_bal k !! a with Some _ => None | None => Some (mkToken (<[a := 0]> (tk_bal k)) (tk_supply k) (tk_near k)) end.
(** FungibleToken::internal_deposit: panics if not registered or on overflow *)
Definition tk_deposit (k : Token) (a : AccountId) (x : N) : option Token :=
  b ← tk_bal k !! a;
  b' ← cadd W128 b x;
  s' ← cadd W128 (tk_supply k) x;
  Some (mkToken (<[a := b']> (tk_bal k)) s' (tk_near k)).
(** FungibleToken::internal_withdraw *)
Definition tk_withdraw (k : Token) (a : AccountId) (x : N) : option Token :=
  b ← tk_bal k !! a;
  b' ← csub b x;
  s' ← csub (tk_supply k) x;
  Some (mkToken (<[a := b']> (tk_bal k)) s' (tk_near k)).
(** FungibleToken::internal_transfer: different accounts, a positive amount *)
Definition tk_transfer (k : Token) (s r : AccountId) (x : N) : option Token :=
  _ ← ensure (negb (String.eqb s r));
  _ ← ensure (0 <? x);
  k1 ← tk_withdraw k s x;
  tk_deposit k1 r x.

(** NEAR attached to a call, and a promise that transfers NEAR away *)
Definition tk_attach (k : Token) (x : N) : Token := mkToken (tk_bal k) (tk_supply k) (tk_near k + x).
Definition tk_pay (k : Token) (x : N) : option Token :=
  n ← csub (tk_near k) x; Some (mkToken (tk_bal k) (tk_supply k) n).

(** ft_transfer by [s] (and the first half of ft_transfer_call): assert_one_yocto, then the transfer *)
Definition tk_ft_transfer (k : Token) (s r : AccountId) (x yocto : N) : option Token :=
  _ ← ensure (yocto =? 1);
  tk_transfer (tk_attach k yocto) s r x.
(** FungibleToken::internal_ft_resolve_transfer after [s] sent [x] to [r] by ft_transfer_call.  [ans]: the parsed answer of
    ft_on_transfer, None if it failed or is no number.  Returns the amount reported as used and the amount burned. *)
Definition tk_resolve (k : Token) (s r : AccountId) (x : N) (ans : option N) : option (Token * N * N) :=
  let unused := match ans with Some u => N.min x u | None => x end in
  let rb := default 0 (tk_bal k !! r) in
  if (0 <? unused) && (0 <? rb) then
    let refund := N.min rb unused in
    let m := <[r := rb - refund]> (tk_bal k) in
    match m !! s with
    | Some sb =>
        sb' ← cadd W128 sb refund;
        Some (mkToken (<[s := sb']> m) (tk_supply k) (tk_near k), x - refund, 0)
    | None =>
        s' ← csub (tk_supply k) refund;
        Some (mkToken m s' (tk_near k), x, refund)
    end
  else Some (k, x, 0).

(** w_near.rs:13-29 near_deposit by [a] *)
Definition tk_near_deposit (m : N) (k : Token) (a : AccountId) (attached : N) : option Token :=
  _ ← ensure (0 <? attached);
  let k0 := tk_attach k attached in
  match tk_bal k !! a with
  | Some _ => tk_deposit k0 a attached
  | None =>
      _ ← ensure (m <=? attached);
      k1 ← tk_register k0 a;
      tk_deposit k1 a (attached - m)
  end.
(** w_near.rs:38-46 near_withdraw by [a] *)
Definition tk_near_withdraw (k : Token) (a : AccountId) (x yocto : N) : option Token :=
  _ ← ensure (yocto =? 1);
  k1 ← tk_withdraw (tk_attach k yocto) a x;
  y ← cadd W128 x 1;
  tk_pay k1 y.
(** storage_impl.rs storage_deposit by [by_] for [a]: registers, or sends everything back *)
Definition tk_storage_deposit (m : N) (k : Token) (a : AccountId) (attached : N) : option Token :=
  let k0 := tk_attach k attached in
  match tk_bal k !! a with
  | Some _ => if 0 <? attached then tk_pay k0 attached else Some k0
  | None =>
      _ ← ensure (m <=? attached);
      k1 ← tk_register k0 a;
      if 0 <? attached - m then tk_pay k1 (attached - m) else Some k1
  end.
(** storage_impl.rs storage_withdraw by [a]: only the amount 0 *)
Definition tk_storage_withdraw (k : Token) (a : AccountId) (amount : option N) (yocto : N) : option Token :=
  _ ← ensure (yocto =? 1);
  _ ← tk_bal k !! a;
  _ ← ensure (match amount with Some x => x =? 0 | None => true end);
  Some (tk_attach k yocto).
(** storage_impl.rs storage_unregister by [a]: the tokens of a forced exit are burned *)
Definition tk_unregister (m : N) (k : Token) (a : AccountId) (force : bool) (yocto : N) : option Token :=
  _ ← ensure (yocto =? 1);
  let k0 := tk_attach k yocto in
  match tk_bal k !! a with
  | Some b =>
      _ ← ensure ((b =? 0) || force);
      s' ← csub (tk_supply k) b;
      y ← cadd W128 m 1;
      tk_pay (mkToken (delete a (tk_bal k)) s' (tk_near k0)) y
  | None => Some k0
  end.

(** What an account can call.  ft_transfer_call is its transfer; its notification and refund are separate receipts. *)
Inductive TokenCall :=
| TkTransfer (to : AccountId) (amount yocto : N)
| TkNearDeposit (attached : N)
| TkNearWithdraw (amount yocto : N)
| TkStorageDeposit (account : AccountId) (attached : N)
| TkStorageWithdraw (amount : option N) (yocto : N)
| TkUnregister (force : bool) (yocto : N).
Definition tk_call (m : N) (k : Token) (a : AccountId) (x : TokenCall) : option Token :=
  match x with
  | TkTransfer r x y => tk_ft_transfer k a r x y
  | TkNearDeposit x => tk_near_deposit m k a x
  | TkNearWithdraw x y => tk_near_withdraw k a x y
  | TkStorageDeposit b x => tk_storage_deposit m k b x
  | TkStorageWithdraw x y => tk_storage_withdraw k a x y
  | TkUnregister f y => tk_unregister m k a f y
  end.

(** FungibleTokenCore::ft_balance_of and ft_total_supply *)
Definition v_ft_balance_of (k : Token) (a : AccountId) : N := default 0 (tk_bal k !! a).
Definition v_ft_total_supply (k : Token) : N := tk_supply k.
