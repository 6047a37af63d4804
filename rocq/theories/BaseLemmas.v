(** * Lemmas and tactics about [Base]; sums over finite maps. *)
From Verif Require Import Base.
From stdpp Require Export fin_maps.
From Coq Require Export ZifyBool ZifyNat ZifyN.
Global Open Scope N_scope.

(** ** Inversion of panicking computations *)
Lemma ensure_Some b u : ensure b = Some u -> b = true.
Proof. unfold ensure; destruct b; congruence. Qed.
Lemma fit_Some w x y : fit w x = Some y -> y = x /\ x < w.
Proof. unfold fit; destruct (N.ltb_spec x w); intros [= <-]; auto. Qed.
Lemma cadd_Some w a b y : cadd w a b = Some y -> y = a + b /\ a + b < w.
Proof. apply fit_Some. Qed.
Lemma cmul_Some w a b y : cmul w a b = Some y -> y = a * b /\ a * b < w.
Proof. apply fit_Some. Qed.
Lemma cpow_Some w a b y : cpow w a b = Some y -> y = a ^ b /\ a ^ b < w.
Proof. apply fit_Some. Qed.
Lemma csub_Some a b y : csub a b = Some y -> y = a - b /\ b <= a.
Proof. unfold csub; destruct (N.leb_spec b a); intros [= <-]; auto. Qed.
Lemma cdiv_Some a b y : cdiv a b = Some y -> y = a / b /\ 0 < b.
Proof. unfold cdiv; destruct (N.eqb_spec b 0); intros [= <-]; split; auto; lia. Qed.
Lemma u128_ratio_Some a n d y : u128_ratio a n d = Some y -> y = a * n / d /\ 0 < d /\ y < W128.
Proof.
  unfold u128_ratio; intros H.
  apply bind_Some in H as (p & Hp & H); apply bind_Some in H as (q & Hq & H).
  apply cmul_Some in Hp as [-> _]; apply cdiv_Some in Hq as [-> ?]; apply fit_Some in H as [-> ?]; auto.
Qed.

Lemma fit_intro w x : x < w -> fit w x = Some x.
Proof. unfold fit; intros ?; destruct (N.ltb_spec x w); auto; lia. Qed.
Lemma cadd_intro w a b : a + b < w -> cadd w a b = Some (a + b).
Proof. apply fit_intro. Qed.
Lemma cmul_intro w a b : a * b < w -> cmul w a b = Some (a * b).
Proof. apply fit_intro. Qed.
Lemma csub_intro a b : b <= a -> csub a b = Some (a - b).
Proof. unfold csub; intros ?; destruct (N.leb_spec b a); auto; lia. Qed.
Lemma cdiv_intro a b : 0 < b -> cdiv a b = Some (a / b).
Proof. unfold cdiv; intros ?; destruct (N.eqb_spec b 0); auto; lia. Qed.
Lemma ensure_intro b : b = true -> ensure b = Some tt.
Proof. now intros ->. Qed.

Lemma vset_Some {A} (l : list A) i x l' :
  vset l i x = Some l' -> l' = <[i := x]> l /\ (i < length l)%nat.
Proof. unfold vset; case_decide; intros [= <-]; auto. Qed.

Lemma vset_intro {A} (l : list A) i x : (i < length l)%nat -> vset l i x = Some (<[i := x]> l).
Proof. unfold vset; intros. now rewrite decide_True. Qed.

Lemma mret_Some {A} (x y : A) : (Some x : option A) = Some y -> x = y.
Proof. congruence. Qed.

(** One step of inversion on a hypothesis of the shape [e = Some _]. *)
Ltac inv_step :=
  match goal with
  | H : mbind _ _ = Some _ |- _ =>
      let x := fresh "x" in let Hx := fresh "Hx" in
      apply bind_Some in H; destruct H as (x & Hx & H); cbv beta in H
  | H : ensure _ = Some _ |- _ => apply ensure_Some in H
  | H : fit _ _ = Some _ |- _ => apply fit_Some in H; destruct H as [? ?]
  | H : cadd _ _ _ = Some _ |- _ => apply cadd_Some in H; destruct H as [? ?]
  | H : cmul _ _ _ = Some _ |- _ => apply cmul_Some in H; destruct H as [? ?]
  | H : cpow _ _ _ = Some _ |- _ => apply cpow_Some in H; destruct H as [? ?]
  | H : csub _ _ = Some _ |- _ => apply csub_Some in H; destruct H as [? ?]
  | H : cdiv _ _ = Some _ |- _ => apply cdiv_Some in H; destruct H as [? ?]
  | H : Some _ = Some _ |- _ => apply mret_Some in H
  | H : None = Some _ |- _ => discriminate H
  | H : Some _ = None |- _ => discriminate H
  | H : (let (_, _) := ?x in _) = Some _ |- _ => is_var x; destruct x
  | x : unit |- _ => destruct x
  | H : (_, _) = (_, _) |- _ => injection H; clear H; intros
  end.
Ltac inv := repeat inv_step.

Ltac bool_inv := repeat match goal with
  | H : _ && _ = true |- _ => apply andb_true_iff in H; destruct H
  | H : _ || _ = false |- _ => apply orb_false_iff in H; destruct H
  | H : negb _ = true |- _ => apply negb_true_iff in H
  | H : (_ <? _) = true |- _ => apply N.ltb_lt in H
  | H : (_ <=? _) = true |- _ => apply N.leb_le in H
  | H : (_ =? _) = true |- _ => apply N.eqb_eq in H
  | H : (_ <? _) = false |- _ => apply N.ltb_ge in H
  | H : (_ <=? _) = false |- _ => apply N.leb_gt in H
  | H : (_ =? _) = false |- _ => apply N.eqb_neq in H
  | H : String.eqb _ _ = true |- _ => apply String.eqb_eq in H
  | H : String.eqb _ _ = false |- _ => apply String.eqb_neq in H
  | H : bool_decide _ = true |- _ => apply bool_decide_eq_true in H
  | H : bool_decide _ = false |- _ => apply bool_decide_eq_false in H
  end.

(** [lia] after making all quotients opaque (it would otherwise forget that they are >= 0). *)
Ltac gdiv := repeat match goal with
  | |- context [N.div ?a ?b] => let q := fresh "q" in set (q := N.div a b) in *; clearbody q
  | H : context [N.div ?a ?b] |- _ => let q := fresh "q" in set (q := N.div a b) in *; clearbody q
  end.
Ltac dlia := solve [lia | gdiv; lia].

Lemma W128_pos : 0 < W128. Proof. vm_compute; reflexivity. Qed.
Lemma W256_pos : 0 < W256. Proof. vm_compute; reflexivity. Qed.
Lemma W256_W128 : W256 = W128 * W128. Proof. vm_compute; reflexivity. Qed.

(** ** Division facts *)
Lemma div_le_iff a b q : 0 < b -> (q <= a / b <-> q * b <= a).
Proof.
  intros Hb. split; intros H.
  - pose proof (N.mul_div_le a b). nia.
  - apply N.div_le_lower_bound; nia.
Qed.
Lemma div_mul_le a b : 0 < b -> a / b * b <= a.
Proof. intros; rewrite N.mul_comm; apply N.mul_div_le; lia. Qed.
Lemma lt_div_succ a b : 0 < b -> a < (a / b + 1) * b.
Proof. intros Hb. pose proof (N.mul_succ_div_gt a b). nia. Qed.
Lemma div_superadd a b c : 0 < c -> a / c + b / c <= (a + b) / c.
Proof.
  intros Hc. apply div_le_iff; [done|].
  pose proof (div_mul_le a c Hc); pose proof (div_mul_le b c Hc); nia.
Qed.
Lemma div_zero_l b : 0 / b = 0.
Proof. destruct b; reflexivity. Qed.

(** ** Sums over lists and maps *)
Fixpoint lsum (l : list N) : N := match l with [] => 0 | x :: r => x + lsum r end.

Lemma lsum_app l1 l2 : lsum (l1 ++ l2) = lsum l1 + lsum l2.
Proof. induction l1; cbn [lsum app]; lia. Qed.
Lemma lsum_insert l i x y :
  l !! i = Some x -> lsum (<[i := y]> l) + x = lsum l + y.
Proof.
  revert i; induction l as [|a l IH]; intros [|i] H; try discriminate; cbn [lsum] in *.
  - injection H as ->. cbn [insert list_insert lsum]. lia.
  - change (<[S i:=y]> (a :: l)) with (a :: <[i:=y]> l). cbn [lsum]. specialize (IH i H). lia.
Qed.
Lemma lsum_lookup_le l i x : l !! i = Some x -> x <= lsum l.
Proof.
  revert i; induction l as [|a l IH]; intros [|i] H; try discriminate; cbn [lsum] in *.
  - injection H as ->. lia.
  - specialize (IH i H). lia.
Qed.
Lemma csum_Some w acc l s : csum w acc l = Some s -> s = acc + lsum l.
Proof.
  revert acc; induction l as [|a l IH]; cbn [csum lsum]; intros acc H; inv; [lia|].
  apply IH in H. lia.
Qed.

Section msum.
  Context {K V : Type} `{Countable K}.

  Definition msum (f : K -> V -> N) (m : gmap K V) : N :=
    map_fold (fun k v acc => f k v + acc) 0 m.

  Definition contrib (f : K -> V -> N) (k : K) (o : option V) : N :=
    match o with Some v => f k v | None => 0 end.

  Lemma msum_empty f : msum f ∅ = 0.
  Proof. unfold msum. now rewrite map_fold_empty. Qed.

  Lemma msum_insert_None f m i x :
    m !! i = None -> msum f (<[i := x]> m) = f i x + msum f m.
  Proof.
    intros Hi. unfold msum. rewrite map_fold_insert_L; auto.
    intros; lia.
  Qed.

  Lemma msum_delete f m i x :
    m !! i = Some x -> msum f m = f i x + msum f (delete i m).
  Proof.
    intros Hi. rewrite <- (insert_delete m i x Hi) at 1.
    apply msum_insert_None, lookup_delete.
  Qed.

  Lemma msum_insert f m i x :
    msum f (<[i := x]> m) + contrib f i (m !! i) = msum f m + f i x.
  Proof.
    destruct (m !! i) as [y|] eqn:E; cbn [contrib].
    - rewrite (msum_delete f m i y E).
      rewrite (msum_delete f (<[i:=x]> m) i x) by apply lookup_insert.
      rewrite delete_insert_delete. lia.
    - rewrite msum_insert_None by done. lia.
  Qed.

  Lemma msum_delete_gen f m i :
    msum f (delete i m) + contrib f i (m !! i) = msum f m.
  Proof.
    destruct (m !! i) as [y|] eqn:E; cbn [contrib].
    - rewrite (msum_delete f m i y E). lia.
    - rewrite delete_notin by done. lia.
  Qed.

  Lemma msum_lookup_le f m i : contrib f i (m !! i) <= msum f m.
  Proof. rewrite <- (msum_delete_gen f m i). lia. Qed.

  Lemma msum_ext f g m :
    (forall k v, m !! k = Some v -> f k v = g k v) -> msum f m = msum g m.
  Proof.
    revert m. apply (map_ind (fun m => (forall k v, m !! k = Some v -> f k v = g k v) -> msum f m = msum g m)).
    - intros _. now rewrite !msum_empty.
    - intros i x m Hi IH Hext.
      rewrite !msum_insert_None by done. rewrite (Hext i x) by apply lookup_insert.
      rewrite IH; auto. intros k v Hk. apply Hext.
      rewrite lookup_insert_ne; auto. intros ->; congruence.
  Qed.

  Lemma msum_le f g m :
    (forall k v, m !! k = Some v -> f k v <= g k v) -> msum f m <= msum g m.
  Proof.
    revert m. apply (map_ind (fun m => (forall k v, m !! k = Some v -> f k v <= g k v) -> msum f m <= msum g m)).
    - intros _. now rewrite !msum_empty.
    - intros i x m Hi IH Hext.
      rewrite !msum_insert_None by done. pose proof (Hext i x (lookup_insert _ _ _)).
      assert (msum f m <= msum g m); [|lia]. apply IH. intros k v Hk. apply Hext.
      rewrite lookup_insert_ne; auto. intros ->; congruence.
  Qed.

  Lemma msum_add f g m : msum (fun k v => f k v + g k v) m = msum f m + msum g m.
  Proof.
    revert m. apply map_ind.
    - now rewrite !msum_empty.
    - intros i x m Hi IH. rewrite !msum_insert_None by done. lia.
  Qed.

  Lemma msum_zero f m : (forall k v, m !! k = Some v -> f k v = 0) -> msum f m = 0.
  Proof.
    intros Hz. rewrite (msum_ext f (fun _ _ => 0) m Hz).
    revert m Hz. intros m _. revert m. apply map_ind.
    - apply msum_empty.
    - intros i x m Hi IH. rewrite msum_insert_None by done. lia.
  Qed.

  Lemma msum_mul c f m : msum (fun k v => c * f k v) m = c * msum f m.
  Proof.
    revert m. apply map_ind.
    - rewrite !msum_empty. lia.
    - intros i x m Hi IH. rewrite !msum_insert_None by done. lia.
  Qed.
End msum.

(** Sum of all balances in a share map. *)
Definition shares_sum (m : gmap AccountId N) : N := msum (fun _ v => v) m.

Lemma contrib_shares m a : contrib (fun (_ : AccountId) v => v) a (m !! a) = shares_get m a.
Proof. unfold shares_get, contrib. now destruct (m !! a). Qed.

Lemma shares_sum_insert m a v :
  shares_sum (<[a := v]> m) + shares_get m a = shares_sum m + v.
Proof. unfold shares_sum. rewrite <- contrib_shares. apply msum_insert. Qed.

Lemma shares_get_le m a : shares_get m a <= shares_sum m.
Proof. unfold shares_sum. rewrite <- contrib_shares. apply msum_lookup_le. Qed.

Lemma shares_get_two_le m a b : a <> b -> shares_get m a + shares_get m b <= shares_sum m.
Proof.
  intros Hab. unfold shares_sum.
  rewrite <- (msum_delete_gen _ m a), contrib_shares.
  pose proof (shares_get_le (delete a m) b) as Hle. unfold shares_sum in Hle.
  unfold shares_get in *. rewrite lookup_delete_ne in Hle by done. lia.
Qed.

Lemma shares_get_insert m a v : shares_get (<[a := v]> m) a = v.
Proof. unfold shares_get. now rewrite lookup_insert. Qed.
Lemma shares_get_insert_ne m a b v : a <> b -> shares_get (<[a := v]> m) b = shares_get m b.
Proof. unfold shares_get. intros. now rewrite lookup_insert_ne. Qed.
Lemma shares_get_Some m a v : m !! a = Some v -> shares_get m a = v.
Proof. unfold shares_get. now intros ->. Qed.

Lemma add_to_collection_Some m a x m' :
  add_to_collection m a x = Some m' -> m' = <[a := shares_get m a + x]> m /\ shares_get m a + x < W128.
Proof. unfold add_to_collection; intros; inv; subst; auto. Qed.

Lemma add_to_collection_sum m a x m' :
  add_to_collection m a x = Some m' -> shares_sum m' = shares_sum m + x.
Proof.
  intros H; apply add_to_collection_Some in H as [-> _].
  pose proof (shares_sum_insert m a (shares_get m a + x)). lia.
Qed.

(** ** Token positions *)
Lemma position_from_spec i t l j :
  position_from i t l = Some j -> (i <= j)%nat /\ l !! (j - i)%nat = Some t.
Proof.
  revert i; induction l as [|x l IH]; intros i; cbn [position_from]; [discriminate|].
  destruct (String.eqb_spec x t) as [->|Hne].
  - intros [= <-]. split; [lia|]. now rewrite Nat.sub_diag.
  - intros H. apply IH in H as [H1 H2]. split; [lia|].
    replace (j - i)%nat with (S (j - S i)) by lia. done.
Qed.
Lemma position_lookup t l j : position t l = Some j -> l !! j = Some t.
Proof. intros H; apply position_from_spec in H as [_ H]. now rewrite Nat.sub_0_r in H. Qed.
Lemma position_from_None i t l : position_from i t l = None -> t ∉ l.
Proof.
  revert i; induction l as [|x l IH]; intros i; cbn [position_from]; [intros _ H; inversion H|].
  destruct (String.eqb_spec x t) as [->|Hne]; [discriminate|].
  intros H. apply IH in H. rewrite not_elem_of_cons. auto.
Qed.
Lemma position_NoDup t l j : NoDup l -> l !! j = Some t -> position t l = Some j.
Proof.
  intros Hnd Hj. destruct (position t l) as [k|] eqn:E.
  - apply position_lookup in E. f_equal. eapply NoDup_lookup; eauto.
  - apply position_from_None in E. exfalso. apply E. eapply elem_of_list_lookup_2; eauto.
Qed.

Lemma mapM__Forall2 {A B} (f : A -> option B) l r :
  mapM_ f l = Some r <-> Forall2 (fun x y => f x = Some y) l r.
Proof.
  split.
  - revert r; induction l as [|x l IH]; cbn [mapM_]; intros r H; inv; subst; constructor; auto.
  - induction 1 as [|x y l r Hxy _ IH]; cbn [mapM_]; [done|]. now rewrite Hxy, IH.
Qed.
Lemma mapM__length {A B} (f : A -> option B) l r : mapM_ f l = Some r -> length r = length l.
Proof. intros H; apply mapM__Forall2, Forall2_length in H. done. Qed.
