(** * Client-echo whitelists and token-postfix whitelisting.
    /repo/ref-exchange/src/client_echo_limit.rs and lib.rs:664-668.
    Simplification: UnorderedSet<String> is a [gset]; strings are byte strings (account ids are
    ASCII, so slicing at byte 1 after '*' never splits a character). *)
From Coq Require Import Ascii.
From Verif Require Import Base.

(** str::ends_with *)
Fixpoint ends_with (s suf : string) : bool :=
  String.eqb s suf || match s with EmptyString => false | String _ r => ends_with r suf end.

(** str::starts_with *)
Definition starts_with (s p : string) : bool := String.prefix p s.

(** client_echo_limit.rs:48-65 matches_wildcard_pattern; character 42 is '*' *)
Definition matches_wildcard_pattern (wl : gset string) (a : AccountId) : bool :=
  bool_decide (a ∈ wl) ||
  existsb (fun pat => match pat with
                      | String c suf => Ascii.eqb c (Ascii.ascii_of_N 42) && ends_with a suf
                      | EmptyString => false
                      end) (elements wl).

(** The three whitelists. *)
Record EchoLists := mkEchoLists {
  el_tokens : gset string;   (* CLIENT_ECHO_TOKEN_ID_WHITELIST *)
  el_senders : gset string;  (* CLIENT_ECHO_SENDER_ID_WHITELIST *)
  el_secure : gset string;   (* SECURE_SENDER_WHITELIST *)
}.

(** client_echo_limit.rs:67-80 assert_client_echo_valid *)
Definition assert_client_echo_valid (l : EchoLists) (token sender : AccountId) : option unit :=
  if matches_wildcard_pattern (el_secure l) sender then Some tt else
  _ ← ensure (matches_wildcard_pattern (el_tokens l) token);
  ensure (matches_wildcard_pattern (el_senders l) sender).

(** client_echo_limit.rs:89-95, 121-124, 150-156: inserting patterns one by one; [dotted]: whether a
    leading '*' must be followed by '.' *)
Fixpoint wl_extend (dotted : bool) (wl : gset string) (l : list string) : option (gset string) :=
  match l with
  | [] => Some wl
  | p :: r =>
      _ ← ensure (negb (dotted && starts_with p "*") || starts_with p "*.");
      _ ← ensure (bool_decide (p ∉ wl));
      wl_extend dotted ({[ p ]} ∪ wl) r
  end.

(** client_echo_limit.rs:104-107, 133-136, 165-168 *)
Fixpoint wl_remove (wl : gset string) (l : list string) : option (gset string) :=
  match l with
  | [] => Some wl
  | p :: r => _ ← ensure (bool_decide (p ∈ wl)); wl_remove (wl ∖ {[ p ]}) r
  end.

(** lib.rs:664-668 is_whitelisted_token: in the set, or ending with one of the postfixes *)
Definition is_whitelisted_token (wl : gset string) (postfixes : gset string) (t : AccountId) : bool :=
  bool_decide (t ∈ wl) || existsb (fun p => ends_with t p) (elements postfixes).
