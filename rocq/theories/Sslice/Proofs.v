(** Proofs about the sorted slice. *)
From Coq Require Import Sorting.Sorted Sorting.Permutation.
From Verif Require Import Base.Prelude Sslice.Model Sslice.Spec.
Local Open Scope nat_scope.

Section Proofs.
Context {T K : Type}.
Variable key : T -> K.
Variable cmp : K -> K -> comparison.
Variable OL : ord_laws cmp.

Notation sorted := (strictly_sorted key cmp).
Notation lt := (lt_elt key cmp).
Notation items := (@ss_items T).
Definition klt (k : K) (e : T) : Prop := cmp (key e) k = Lt.
Definition kgt (k : K) (e : T) : Prop := cmp (key e) k = Gt.

Lemma cmp_gt_lt x y : cmp x y = Gt <-> cmp y x = Lt.
Proof. rewrite (cmp_anti cmp OL x y). destruct (cmp x y); cbn; split; congruence. Qed.
Lemma cmp_eq_sym x y : cmp x y = Eq -> cmp y x = Eq.
Proof. intros H. rewrite (cmp_anti cmp OL x y), H. reflexivity. Qed.
Lemma cmp_eq_r x y z : cmp y z = Eq -> cmp x y = cmp x z.
Proof.
  intros H. rewrite (cmp_anti cmp OL y x), (cmp_anti cmp OL z x), (cmp_eq_l cmp OL y z x H). reflexivity.
Qed.
Lemma le_lt_trans x y z : cmp x y <> Gt -> cmp y z = Lt -> cmp x z = Lt.
Proof.
  intros H1 H2. destruct (cmp x y) eqn:E; [|eapply (cmp_trans cmp OL); eauto|congruence].
  rewrite (cmp_eq_l cmp OL x y z E). exact H2.
Qed.
Lemma lt_le_trans x y z : cmp x y = Lt -> cmp y z <> Gt -> cmp x z = Lt.
Proof.
  intros H1 H2. destruct (cmp y z) eqn:E; [|eapply (cmp_trans cmp OL); eauto|congruence].
  rewrite <- (cmp_eq_r x y z E). exact H1.
Qed.

(** ** Sorted lists *)
Lemma sorted_app l1 l2 : sorted (l1 ++ l2) <-> sorted l1 /\ sorted l2 /\ forall x y, In x l1 -> In y l2 -> lt x y.
Proof.
  unfold strictly_sorted. induction l1 as [|a l1 IH]; cbn.
  - split; [intros H; repeat split; auto; [constructor|intros ? ? []]|tauto].
  - split.
    + intros H. inversion H as [|? ? Hs Hf]; subst. apply IH in Hs. destruct Hs as (A & B & C).
      rewrite Forall_app in Hf. destruct Hf as [F1 F2]. rewrite Forall_forall in F2.
      repeat split; auto; [constructor; auto|]. intros x y [->|Hx] Hy; auto.
    + intros (A & B & C). inversion A as [|? ? Hs Hf]; subst. constructor.
      * apply IH. repeat split; auto.
      * rewrite Forall_app. split; auto. rewrite Forall_forall. auto.
Qed.

Lemma sorted_nth l i j x y : sorted l -> i < j -> nth_error l i = Some x -> nth_error l j = Some y -> lt x y.
Proof.
  revert i j. induction l as [|a l IH]; intros i j HS Hij Hx Hy; [destruct i; discriminate|].
  inversion HS as [|? ? Hs Hf]; subst. rewrite Forall_forall in Hf.
  destruct i; cbn in Hx; destruct j; cbn in Hy; try lia.
  - injection Hx as ->. apply Hf. eapply nth_error_In; eauto.
  - apply (IH i j); auto; lia.
Qed.

Lemma split_nth (l : list T) i x : nth_error l i = Some x ->
  exists l1 l2, l = l1 ++ x :: l2 /\ length l1 = i.
Proof. intros H. destruct (nth_error_split l i H) as (a & b & ? & ?). eauto. Qed.

(** ** Binary search *)
Lemma bs_loop_spec l k : sorted l -> forall fuel base size,
  1 <= size <= fuel -> base + size <= length l ->
  (base = 0 \/ exists e, nth_error l base = Some e /\ cmp (key e) k <> Gt) ->
  (forall j e, base + size <= j -> nth_error l j = Some e -> cmp (key e) k = Gt) ->
  exists b, bs_loop key cmp fuel l k base size = Some b /\ b < length l /\
    (b = 0 \/ exists e, nth_error l b = Some e /\ cmp (key e) k <> Gt) /\
    (forall j e, b + 1 <= j -> nth_error l j = Some e -> cmp (key e) k = Gt).
Proof.
  intros HS. induction fuel as [|f IH]; intros base size Hf Hb Hlo Hhi; [lia|].
  cbn [bs_loop]. destruct (Nat.leb_spec size 1).
  - assert (size = 1) by lia. subst. exists base. repeat split; auto. lia.
  - pose proof (Nat.div_mod size 2 ltac:(lia)) as DM. pose proof (Nat.mod_upper_bound size 2 ltac:(lia)).
    set (half := size / 2) in *. assert (1 <= half < size) by lia.
    destruct (nth_error l (base + half)) as [e|] eqn:E.
    2:{ apply nth_error_None in E. lia. }
    destruct (cmp (key e) k) eqn:C.
    + apply IH; try lia; [right; exists e; split; auto; congruence|]. intros j x Hj. apply Hhi. lia.
    + apply IH; try lia; [right; exists e; split; auto; congruence|]. intros j x Hj. apply Hhi. lia.
    + apply IH; try lia; auto. intros j x Hj Hx.
      destruct (Nat.eq_dec j (base + half)) as [->|]; [congruence|].
      assert (L : lt e x) by (eapply (sorted_nth l (base + half) j); eauto; lia).
      apply cmp_gt_lt. apply cmp_gt_lt in C. eapply (cmp_trans cmp OL); eauto.
Qed.

Definition search_ok (l : list T) (k : K) (r : nat + nat) : Prop :=
  match r with
  | inl i => exists l1 x l2, l = l1 ++ x :: l2 /\ length l1 = i /\ cmp (key x) k = Eq /\
               Forall (klt k) l1 /\ Forall (kgt k) l2
  | inr i => exists l1 l2, l = l1 ++ l2 /\ length l1 = i /\ Forall (klt k) l1 /\ Forall (kgt k) l2
  end.

Lemma bsearch_spec l k : sorted l -> exists r, bsearch key cmp l k = Some r /\ search_ok l k r.
Proof.
  intros HS. destruct (Nat.eq_dec (length l) 0) as [E0|N0].
  - destruct l; [|discriminate]. eexists; split; [reflexivity|]. exists [], []. repeat split; constructor.
  - assert (EB0 : bsearch key cmp l k =
      match bs_loop key cmp (length l) l k 0 (length l) with
      | None => None
      | Some base => match nth_error l base with
        | None => None
        | Some e => match cmp (key e) k with Eq => Some (inl base) | Lt => Some (inr (base + 1)) | Gt => Some (inr base) end
        end
      end) by (destruct l; [elim N0; reflexivity|reflexivity]).
    rewrite EB0. clear EB0. assert (HL : 1 <= length l) by lia.
    destruct (bs_loop_spec l k HS (length l) 0 (length l)) as (b & EB & Hb & Lo & Hi); try lia; auto.
    { intros j e Hj Hn. assert (nth_error l j <> None) by congruence. apply nth_error_Some in H. lia. }
    rewrite EB. destruct (nth_error l b) as [x|] eqn:EX; [|apply nth_error_None in EX; lia].
    destruct (split_nth l b x EX) as (l1 & l2 & E12 & Hl1).
    assert (F2 : Forall (kgt k) l2).
    { apply Forall_forall. intros y Hy. destruct (In_nth_error _ _ Hy) as (n & Hn).
      apply (Hi (b + 1 + n)); [lia|]. rewrite E12, nth_error_app2 by lia.
      replace (b + 1 + n - length l1) with (S n) by lia. exact Hn. }
    assert (S1 : sorted l1 /\ sorted (x :: l2) /\ forall u v, In u l1 -> In v (x :: l2) -> lt u v).
    { apply sorted_app. rewrite <- E12. exact HS. }
    destruct S1 as (S1 & S2 & S12).
    assert (F1 : cmp (key x) k <> Gt -> Forall (klt k) l1).
    { intros NG. apply Forall_forall. intros y Hy. unfold klt. eapply lt_le_trans; [|exact NG].
      apply S12; cbn; auto. }
    destruct (cmp (key x) k) eqn:C.
    + eexists; split; [reflexivity|]. exists l1, x, l2. repeat split; auto. apply F1. congruence.
    + eexists; split; [reflexivity|]. exists (l1 ++ [x]), l2. rewrite app_length, <- app_assoc. cbn.
      repeat split; auto. apply Forall_app. split; [apply F1; congruence|]. constructor; auto.
    + destruct Lo as [->|(e & He & Hne)].
      2:{ congruence. }
      eexists; split; [reflexivity|]. destruct l1; [|discriminate]. exists [], (x :: l2). cbn in *. repeat split; auto.
Qed.

(** ** Slice moves *)
Lemma firstn_exact {A} (a b : list A) : firstn (length a) (a ++ b) = a.
Proof. rewrite <- (Nat.add_0_r (length a)), firstn_app_2. cbn. apply app_nil_r. Qed.
Lemma skipn_exact {A} (a b : list A) : skipn (length a) (a ++ b) = b.
Proof. induction a; cbn; auto. Qed.

(** Opening a gap of [length es] after [a] and filling it. *)
Lemma insert_spec (a b c es : list T) : length es <= length c ->
  exists l1 l2, copy_within (a ++ b ++ c) (length a) (length a + length b) (length a + length es) = Some l1 /\
    write_at l1 (length a) es = Some l2 /\ length l2 = length (a ++ b ++ c) /\
    firstn (length a + length b + length es) l2 = a ++ es ++ b.
Proof.
  intros HC. unfold copy_within.
  replace (length a + length b - length a) with (length b) by lia.
  destruct (Nat.ltb_spec (length a + length b) (length a)); [lia|].
  destruct (Nat.ltb_spec (length (a ++ b ++ c)) (length a + length b)) as [H1|_]; [rewrite !app_length in H1; lia|].
  destruct (Nat.ltb_spec (length (a ++ b ++ c) - length b) (length a + length es)) as [H1|_];
    [rewrite !app_length in H1; lia|]. cbn [orb].
  eexists; eexists; split; [reflexivity|]. rewrite skipn_exact, firstn_exact.
  set (p := firstn (length a + length es) (a ++ b ++ c)).
  set (q := skipn (length a + length es + length b) (a ++ b ++ c)).
  assert (Lp : length p = length a + length es).
  { unfold p. rewrite firstn_length, !app_length. lia. }
  assert (Lq : length q = length c - length es).
  { unfold q. rewrite skipn_length, !app_length. lia. }
  assert (Ep : p = a ++ skipn (length a) p).
  { rewrite <- (firstn_skipn (length a) p) at 1. f_equal. unfold p. rewrite firstn_firstn.
    replace (Nat.min (length a) (length a + length es)) with (length a) by lia. apply firstn_exact. }
  unfold write_at. destruct (Nat.ltb_spec (length (p ++ b ++ q)) (length a + length es)) as [H1|_].
  { rewrite !app_length in H1. lia. }
  split; [reflexivity|].
  fold p q. replace (skipn (length a + length es) (p ++ b ++ q)) with (b ++ q) by (rewrite <- Lp, skipn_exact; reflexivity).
  replace (firstn (length a) (p ++ b ++ q)) with a.
  2:{ rewrite Ep, <- !app_assoc. symmetry. apply firstn_exact. }
  split; [rewrite !app_length; lia|].
  replace (a ++ es ++ b ++ q) with ((a ++ es ++ b) ++ q) by (rewrite <- !app_assoc; reflexivity).
  replace (length a + length b + length es) with (length (a ++ es ++ b)) by (rewrite !app_length; lia).
  apply firstn_exact.
Qed.

(** Closing the gap left by one element. *)
Lemma delete_spec (a b c : list T) x :
  exists l1, copy_within (a ++ x :: b ++ c) (length a + 1) (length a + 1 + length b) (length a) = Some l1 /\
    length l1 = length (a ++ x :: b ++ c) /\ firstn (length a + length b) l1 = a ++ b.
Proof.
  unfold copy_within. replace (length a + 1 + length b - (length a + 1)) with (length b) by lia.
  destruct (Nat.ltb_spec (length a + 1 + length b) (length a + 1)); [lia|].
  assert (L : length (a ++ x :: b ++ c) = length a + 1 + length b + length c)
    by (rewrite app_length; cbn [length]; rewrite app_length; lia).
  rewrite L. destruct (Nat.ltb_spec (length a + 1 + length b + length c) (length a + 1 + length b)); [lia|].
  destruct (Nat.ltb_spec (length a + 1 + length b + length c - length b) (length a)); [lia|]. cbn [orb].
  eexists; split; [reflexivity|].
  replace (skipn (length a + 1) (a ++ x :: b ++ c)) with (b ++ c).
  2:{ replace (length a + 1) with (length (a ++ [x])) by (rewrite app_length; cbn; lia).
      replace (a ++ x :: b ++ c) with ((a ++ [x]) ++ b ++ c) by (rewrite <- app_assoc; reflexivity).
      rewrite skipn_exact. reflexivity. }
  rewrite !firstn_exact. split.
  - rewrite !app_length, skipn_length, L. lia.
  - rewrite app_assoc, <- app_length. apply firstn_exact.
Qed.

(** ** States *)
Definition ss_inv (s : sslice T) : Prop := ss_count s <= ss_capacity s /\ sorted (items s).

Lemma items_len s : ss_count s <= ss_capacity s -> length (items s) = ss_count s.
Proof. unfold ss_items, ss_capacity. intros H. rewrite firstn_length. lia. Qed.

Lemma slice_parts (s : sslice T) : ss_slice s = items s ++ skipn (ss_count s) (ss_slice s).
Proof. symmetry. apply firstn_skipn. Qed.

(** [rank] on a split list. *)
Definition rk := rank key cmp.
Lemma rank_split l1 l2 e : Forall (klt (key e)) l1 -> (forall x, In x l2 -> cmp (key x) (key e) <> Lt) ->
  rk (l1 ++ l2) e = length l1.
Proof.
  intros F1 F2. unfold rk, rank. rewrite filter_app, app_length.
  assert (A : filter (fun x => match cmp (key x) (key e) with Lt => true | _ => false end) l1 = l1).
  { clear -F1. induction F1 as [|y l Hy _ IH]; cbn; [reflexivity|]. unfold klt in Hy. rewrite Hy, IH. reflexivity. }
  assert (B : filter (fun x => match cmp (key x) (key e) with Lt => true | _ => false end) l2 = []).
  { clear -F2. induction l2 as [|y l IH]; cbn; [reflexivity|].
    pose proof (F2 y (or_introl eq_refl)). destruct (cmp (key y) (key e)); try congruence; apply IH; intros; apply F2; cbn; auto. }
  rewrite A, B. cbn. lia.
Qed.

Lemma no_key l1 l2 e : Forall (klt (key e)) l1 -> Forall (kgt (key e)) l2 -> ~ has_key key cmp (l1 ++ l2) e.
Proof.
  intros F1 F2 (x & Hx & E). unfold same_key in E. rewrite Forall_forall in F1, F2.
  apply in_app_or in Hx. destruct Hx as [Hx|Hx]; [apply F1 in Hx; unfold klt in Hx|apply F2 in Hx; unfold kgt in Hx]; congruence.
Qed.

Lemma is_sorted_hd a b l : is_sorted_by_key key cmp (a :: b :: l) = true ->
  cmp (key a) (key b) <> Gt /\ is_sorted_by_key key cmp (b :: l) = true.
Proof. cbn [is_sorted_by_key]. destruct (cmp (key a) (key b)); intros; split; try congruence; auto. Qed.

Lemma checks_sorted es : is_sorted_by_key key cmp es = true -> has_equal_neighbours key cmp es = false -> sorted es.
Proof.
  unfold strictly_sorted. intros H1 H2. apply Sorted_StronglySorted.
  - intros x y z. apply (cmp_trans cmp OL).
  - induction es as [|a es IH]; [constructor|]. destruct es as [|b es]; [repeat constructor|].
    apply is_sorted_hd in H1. destruct H1 as [C1 H1]. cbn [has_equal_neighbours] in H2.
    constructor.
    + apply IH; auto. destruct (cmp (key a) (key b)); auto; congruence.
    + constructor. unfold lt_elt. destruct (cmp (key a) (key b)); congruence.
Qed.

Lemma sorted_checks es : sorted es -> is_sorted_by_key key cmp es = true /\ has_equal_neighbours key cmp es = false.
Proof.
  unfold strictly_sorted. induction es as [|a es IH]; [auto|]. intros H. inversion H as [|? ? Hs Hf]; subst.
  destruct es as [|b es]; [auto|]. inversion Hf; subst. unfold lt_elt in *.
  cbn [is_sorted_by_key has_equal_neighbours]. rewrite H2. apply IH. exact Hs.
Qed.

Lemma last_In (e0 : T) es : In (last (e0 :: es) e0) (e0 :: es).
Proof.
  destruct (exists_last (l := e0 :: es)) as (l' & a & E); [discriminate|]. rewrite E, last_last. apply in_or_app. cbn; auto.
Qed.

Lemma sorted_le_last (e0 : T) es x : sorted (e0 :: es) -> In x (e0 :: es) -> cmp (key x) (key (last (e0 :: es) e0)) <> Gt.
Proof.
  intros HS Hx. destruct (exists_last (l := e0 :: es)) as (l' & a & E); [discriminate|].
  rewrite E, last_last in *. apply sorted_app in HS. destruct HS as (_ & _ & H).
  apply in_app_or in Hx. destruct Hx as [Hx|[->|[]]].
  - rewrite (H x a Hx); [discriminate|cbn; auto].
  - rewrite (cmp_refl cmp OL). discriminate.
Qed.

Lemma sorted_ge_first (e0 : T) es x : sorted (e0 :: es) -> In x (e0 :: es) -> cmp (key e0) (key x) <> Gt.
Proof.
  intros HS [->|Hx]; [rewrite (cmp_refl cmp OL); discriminate|]. inversion HS as [|? ? _ Hf]; subst.
  rewrite Forall_forall in Hf. rewrite (Hf x Hx). discriminate.
Qed.

Definition good (s : sslice T) (o : ss_op T) (r : ss_out T * sslice T) : Prop :=
  let (out, s') := r in
  ss_inv s' /\ ss_capacity s' = ss_capacity s /\ ss_spec key cmp (ss_capacity s) (items s) o out (items s').

(** Common part of the two insertions. *)
Lemma insert_state s (l1 l2 es : list T) : ss_inv s -> items s = l1 ++ l2 -> ss_count s + length es <= ss_capacity s ->
  exists a b, copy_within (ss_slice s) (length l1) (ss_count s) (length l1 + length es) = Some a /\
    write_at a (length l1) es = Some b /\ length b = ss_capacity s /\
    items (MkS b (ss_count s + length es)) = l1 ++ es ++ l2.
Proof.
  intros [HC HS] E HF. pose proof (items_len s HC) as HL. rewrite E, app_length in HL.
  assert (E' : ss_slice s = l1 ++ l2 ++ skipn (ss_count s) (ss_slice s)) by (rewrite app_assoc, <- E; apply slice_parts).
  destruct (insert_spec l1 l2 (skipn (ss_count s) (ss_slice s)) es) as (a & b & E1 & E2 & E3 & E4).
  { rewrite skipn_length. unfold ss_capacity in *. lia. }
  exists a, b. rewrite <- E', HL in E1. rewrite <- E' in E3. rewrite HL in E4. auto.
Qed.

Lemma add_good s e : ss_inv s -> good s (SAdd e) (ss_step key cmp s (SAdd e)).
Proof.
  intros HI. pose proof HI as [HC HS]. pose proof (items_len s HC) as HL.
  cbn [ss_step]. unfold ss_add. destruct (Nat.eqb_spec (ss_capacity s) (ss_count s)) as [Ef|Nf].
  - cbn. repeat split; auto. apply sp_add_full. lia.
  - unfold ss_search. destruct (bsearch_spec (items s) (key e) HS) as (r & -> & R). destruct r as [i|i]; cbn [search_ok] in R.
    + destruct R as (l1 & x & l2 & E & _ & C & _). cbn. repeat split; auto. apply sp_add_dup; [lia|].
      exists x. split; [rewrite E; apply in_or_app; cbn; auto|exact C].
    + destruct R as (l1 & l2 & E & <- & F1 & F2).
      destruct (insert_state s l1 l2 [e] HI E) as (a & b & E1 & E2 & E3 & E4); [cbn; lia|].
      cbn [length] in E1, E4. rewrite E1, E2. cbn [out_idx good].
      split; [split|split].
      * unfold ss_capacity in *. cbn. lia.
      * rewrite E4. rewrite E in HS. apply sorted_app in HS. destruct HS as (S1 & S2 & S12).
        rewrite Forall_forall in F1, F2. apply sorted_app. split; [exact S1|split].
        -- cbn. constructor; [exact S2|]. apply Forall_forall. intros y Hy. apply cmp_gt_lt. apply F2. exact Hy.
        -- intros x y Hx [<-|Hy]; [apply F1; exact Hx|auto].
      * unfold ss_capacity. cbn. exact E3.
      * rewrite E4. replace (length l1) with (rank key cmp (items s) e).
        -- apply sp_add_ok; [lia|rewrite E; apply no_key; auto|].
           rewrite E. cbn. apply Permutation_sym, Permutation_middle.
        -- rewrite E. apply rank_split; auto. intros x Hx. rewrite Forall_forall in F2. apply F2 in Hx. unfold kgt in Hx. congruence.
Qed.

Lemma add_slice_good s es : ss_inv s -> good s (SAddSlice es) (ss_step key cmp s (SAddSlice es)).
Proof.
  intros HI. pose proof HI as [HC HS]. pose proof (items_len s HC) as HL.
  cbn [ss_step]. unfold ss_add_slice. destruct es as [|e0 es]; [cbn; repeat split; auto; constructor|].
  destruct (Nat.ltb_spec (ss_capacity s) (ss_count s + length (e0 :: es))) as [Hf|Hf].
  { cbn [out_idx good]. repeat split; auto. apply sp_slice_full; [discriminate|lia]. }
  assert (Bad : forall err, err = NotSorted \/ err = AlreadyExists ->
    (~ sorted (e0 :: es) \/ exists x, In x (items s) /\ ~ lt x e0 /\ ~ lt (last (e0 :: es) e0) x) ->
    good s (SAddSlice (e0 :: es)) (out_idx (Err err), s)).
  { intros err He Hb. cbn [out_idx good]. repeat split; auto. apply sp_slice_bad; auto. lia. }
  destruct (is_sorted_by_key key cmp (e0 :: es)) eqn:K1; cbn [negb].
  2:{ apply Bad; auto. left. intros Hs. apply sorted_checks in Hs. destruct Hs. congruence. }
  destruct (has_equal_neighbours key cmp (e0 :: es)) eqn:K2.
  { apply Bad; auto. left. intros Hs. apply sorted_checks in Hs. destruct Hs. congruence. }
  pose proof (checks_sorted _ K1 K2) as HE. unfold ss_search.
  destruct (bsearch_spec (items s) (key e0) HS) as (r & -> & R). destruct r as [i|i]; cbn [search_ok] in R.
  { destruct R as (l1 & x & l2 & E & _ & C & _). apply Bad; auto. right. exists x. split; [rewrite E; apply in_or_app; cbn; auto|].
    unfold lt_elt. split; [congruence|]. intros L.
    assert (Q : cmp (key (last (e0 :: es) e0)) (key e0) = Lt).
    { eapply lt_le_trans; [exact L|]. congruence. }
    apply (sorted_ge_first e0 es (last (e0 :: es) e0)); auto; [apply last_In|]. apply cmp_gt_lt. exact Q. }
  destruct R as (l1 & l2 & E & <- & F1 & F2).
  destruct (insert_state s l1 l2 (e0 :: es) HI E Hf) as (a & b & E1 & E2 & E3 & E4).
  rewrite E1, E2. rewrite E in HS. apply sorted_app in HS. destruct HS as (S1 & S2 & S12).
  assert (Good : (forall y, In y l2 -> lt (last (e0 :: es) e0) y) ->
    good s (SAddSlice (e0 :: es)) (out_idx (Ok (length l1)), MkS b (ss_count s + length (e0 :: es)))).
  { intros HG. cbn [out_idx good]. rewrite Forall_forall in F1, F2. split; [split|split].
    - unfold ss_capacity in *. cbn [ss_count ss_slice]. lia.
    - rewrite E4. apply sorted_app. split; [exact S1|split].
      + apply sorted_app. split; [exact HE|split; [exact S2|]]. intros x y Hx Hy. unfold lt_elt.
        eapply le_lt_trans; [apply sorted_le_last; eauto|]. apply HG. exact Hy.
      + intros x y Hx Hy. apply in_app_or in Hy. destruct Hy as [Hy|Hy]; [|auto].
        unfold lt_elt. eapply lt_le_trans; [apply F1; exact Hx|]. apply sorted_ge_first with (es := es); auto.
    - unfold ss_capacity. cbn. exact E3.
    - rewrite E4. replace (length l1) with (rank key cmp (items s) e0).
      + apply sp_slice_ok; [lia|exact HE| |].
        * intros x Hx. rewrite E in Hx. apply in_app_or in Hx. destruct Hx as [Hx|Hx]; [left; apply F1; exact Hx|right; auto].
        * rewrite E. rewrite !app_assoc. apply Permutation_app_tail, Permutation_app_comm.
      + rewrite E. apply rank_split; [apply Forall_forall; auto|]. intros x Hx. apply F2 in Hx. unfold kgt in Hx. congruence. }
  destruct (nth_error (items s) (length l1)) as [next|] eqn:EN.
  - rewrite E, nth_error_app2, Nat.sub_diag in EN by lia. destruct l2 as [|y l2]; [discriminate|]. cbn in EN. injection EN as ->.
    inversion F2 as [|? ? G1 G2]; subst. unfold kgt in G1.
    assert (NL : cmp (key (last (e0 :: es) e0)) (key next) <> Lt ->
       exists x, In x (items s) /\ ~ lt x e0 /\ ~ lt (last (e0 :: es) e0) x).
    { intros NLt. exists next. split; [rewrite E; apply in_or_app; cbn; auto|]. unfold lt_elt. split; congruence. }
    destruct (cmp (key (last (e0 :: es) e0)) (key next)) eqn:C.
    + apply Bad; auto. right. apply NL. congruence.
    + apply Good. intros y [->|Hy]; [exact C|]. inversion S2 as [|? ? _ Hf2]; subst. rewrite Forall_forall in Hf2.
      unfold lt_elt. eapply (cmp_trans cmp OL); [exact C|]. apply Hf2. exact Hy.
    + apply Bad; auto. right. apply NL. congruence.
  - apply Good. apply nth_error_None in EN. rewrite E, app_length in EN. destruct l2; [|cbn in EN; lia]. intros y [].
Qed.

(** Removing the element at a valid index. *)
Lemma remove_at_state s (l1 l2 : list T) x : ss_inv s -> items s = l1 ++ x :: l2 ->
  exists s', ss_remove_at s (length l1) = (Ok (Some x), s') /\ ss_inv s' /\ ss_capacity s' = ss_capacity s /\ items s' = l1 ++ l2.
Proof.
  intros [HC HS] E. pose proof (items_len s HC) as HL. rewrite E, app_length in HL. cbn [length] in HL.
  unfold ss_remove_at. destruct (Nat.leb_spec (ss_count s) (length l1)); [lia|].
  assert (E' : ss_slice s = l1 ++ x :: l2 ++ skipn (ss_count s) (ss_slice s)).
  { rewrite (slice_parts s) at 1. rewrite E, <- app_assoc. reflexivity. }
  destruct (delete_spec l1 l2 (skipn (ss_count s) (ss_slice s)) x) as (l & D1 & D2 & D3).
  rewrite <- E' in D1, D2. replace (length l1 + 1 + length l2) with (ss_count s) in D1 by lia.
  replace (nth_error (ss_slice s) (length l1)) with (Some x).
  2:{ rewrite E', nth_error_app2, Nat.sub_diag by lia. reflexivity. }
  rewrite D1. eexists. split; [reflexivity|].
  assert (EI : items (MkS l (ss_count s - 1)) = l1 ++ l2).
  { unfold ss_items. cbn. replace (ss_count s - 1) with (length l1 + length l2) by lia. exact D3. }
  unfold ss_capacity in *. split; [split; [unfold ss_capacity; cbn [ss_slice ss_count]; rewrite D2; lia|]|split; [exact D2|exact EI]].
  rewrite EI. rewrite E in HS. apply sorted_app in HS. destruct HS as (S1 & S2 & S12). inversion S2; subst.
  apply sorted_app. split; [exact S1|split; [assumption|]]. intros u v Hu Hv. apply S12; cbn; auto.
Qed.

Lemma remove_at_good s i : ss_inv s -> good s (SRemoveAt i) (ss_step key cmp s (SRemoveAt i)).
Proof.
  intros HI. pose proof HI as [HC HS]. pose proof (items_len s HC) as HL. cbn [ss_step].
  destruct (nth_error (items s) i) as [x|] eqn:EN.
  - destruct (split_nth _ _ _ EN) as (l1 & l2 & E & <-).
    destruct (remove_at_state s l1 l2 x HI E) as (s' & -> & I' & C' & E'). cbn [out_elt good].
    split; [exact I'|split; [exact C'|]]. apply sp_at_ok; [exact EN|]. rewrite E', E. apply Permutation_sym, Permutation_middle.
  - unfold ss_remove_at. pose proof EN as EN'. apply nth_error_None in EN'.
    destruct (Nat.leb_spec (ss_count s) i); [|lia]. cbn. repeat split; auto. apply sp_at_no. exact EN.
Qed.

Lemma remove_good s e : ss_inv s -> good s (SRemove e) (ss_step key cmp s (SRemove e)).
Proof.
  intros HI. pose proof HI as [HC HS]. cbn [ss_step]. unfold ss_remove, ss_search.
  destruct (bsearch_spec (items s) (key e) HS) as (r & -> & R). destruct r as [i|i]; cbn [search_ok] in R.
  - destruct R as (l1 & x & l2 & E & <- & C & F1 & F2).
    destruct (remove_at_state s l1 l2 x HI E) as (s' & -> & I' & C' & E'). cbn [out_idx good].
    split; [exact I'|split; [exact C'|]].
    replace (length l1) with (rank key cmp (items s) e).
    + apply sp_remove_ok with (x := x); [rewrite E; apply in_or_app; cbn; auto|exact C|].
      rewrite E', E. apply Permutation_sym, Permutation_middle.
    + rewrite E. apply rank_split; auto. rewrite Forall_forall in F2. intros y [<-|Hy]; [congruence|].
      apply F2 in Hy. unfold kgt in Hy. congruence.
  - destruct R as (l1 & l2 & E & _ & F1 & F2). cbn. repeat split; auto. apply sp_remove_no. rewrite E. apply no_key; auto.
Qed.

Lemma step_good s o : ss_inv s -> good s o (ss_step key cmp s o).
Proof.
  destruct o; [apply add_good|apply add_slice_good|apply remove_good|apply remove_at_good].
Qed.

Lemma new_inv backing : ss_inv (ss_new backing).
Proof. split; [cbn; lia|constructor]. Qed.

Lemma run_inv ops : forall s, ss_inv s -> ss_inv (ss_run key cmp s ops) /\ ss_capacity (ss_run key cmp s ops) = ss_capacity s.
Proof.
  induction ops as [|o ops IH]; intros s HI; [auto|]. cbn [ss_run].
  pose proof (step_good s o HI) as G. destruct (ss_step key cmp s o) as [out s']. cbn [snd]. cbn in G. destruct G as (I' & C' & _).
  destruct (IH s' I') as [A B]. split; [exact A|congruence].
Qed.
End Proofs.
