(** Sorted slice: the property theorems (C11). *)
From Coq Require Import Sorting.Sorted Sorting.Permutation.
From Verif Require Import Base.Prelude Sslice.Model Sslice.Spec Sslice.Proofs.
Local Open Scope nat_scope.

(** Whatever the history and the backing memory, the live slice is strictly sorted, never exceeds the capacity,
    and each further call behaves as a call on a sorted set of that capacity; it never panics. *)
Theorem sorted_slice_is_sorted_set : forall (T K : Type) (key : T -> K) cmp (backing : list T) history op,
  ord_laws cmp ->
  let s := ss_run key cmp (ss_new backing) history in
  strictly_sorted key cmp (ss_items s) /\ length (ss_items s) <= length backing /\
  ss_spec key cmp (length backing) (ss_items s) op (fst (ss_step key cmp s op)) (ss_items (snd (ss_step key cmp s op))).
Proof.
  intros T K key cmp backing history op OL s.
  destruct (run_inv key cmp OL history (ss_new backing) (new_inv key cmp backing)) as [HI HC].
  fold s in HI, HC. unfold ss_capacity in HC at 2. cbn in HC. pose proof HI as [H1 H2].
  split; [exact H2|]. split; [rewrite (items_len s H1); lia|].
  pose proof (step_good key cmp OL s op HI) as G. destruct (ss_step key cmp s op) as [out s']. cbn in G |- *. rewrite HC in G. tauto.
Qed.
Print Assumptions sorted_slice_is_sorted_set.

(** A call that reports an error leaves the whole structure as it was. *)
Theorem sorted_slice_failure_atomic : forall (T K : Type) (key : T -> K) cmp (s : sslice T) op e,
  fst (ss_step key cmp s op) = OErr e -> snd (ss_step key cmp s op) = s.
Proof.
  intros T K key cmp s op e. destruct op; cbn [ss_step].
  - unfold ss_add. destruct (_ =? _); [auto|]. destruct (ss_search _ _ _ _) as [[|]|]; cbn; auto.
    destruct (copy_within _ _ _ _); cbn; auto. destruct (write_at _ _ _); cbn; auto; discriminate.
  - unfold ss_add_slice. destruct es as [|e0 es]; [cbn; auto|]. destruct (ss_capacity s <? ss_count s + length (e0 :: es)); cbn [out_idx fst snd]; auto. destruct (negb _); cbn [out_idx fst snd]; auto.
    destruct (has_equal_neighbours _ _ _); cbn [out_idx fst snd]; auto. destruct (ss_search _ _ _ _) as [[|]|]; cbn [out_idx fst snd]; auto.
    destruct (nth_error _ _); [destruct (cmp _ _)|]; cbn [out_idx fst snd]; auto;
      (destruct (copy_within _ _ _ _); cbn [out_idx fst snd]; auto; destruct (write_at _ _ _); cbn; auto; discriminate).
  - unfold ss_remove. destruct (ss_search _ _ _ _) as [[|]|]; cbn; auto. unfold ss_remove_at.
    destruct (_ <=? _); cbn; auto. destruct (nth_error _ _); cbn; auto. destruct (copy_within _ _ _ _); cbn; auto; discriminate.
  - unfold ss_remove_at. destruct (_ <=? _); cbn; [discriminate|]. destruct (nth_error _ _); cbn; [|discriminate].
    destruct (copy_within _ _ _ _); cbn; discriminate.
Qed.
Print Assumptions sorted_slice_failure_atomic.

(** Searching reports the element with that key if there is one, and otherwise the number of smaller elements. *)
Theorem sorted_slice_search_agrees : forall (T K : Type) (key : T -> K) cmp (backing : list T) history probe,
  ord_laws cmp ->
  let s := ss_run key cmp (ss_new backing) history in
  (has_key key cmp (ss_items s) probe /\
     ss_search key cmp s (key probe) = Some (inl (rank key cmp (ss_items s) probe)) /\
     (exists x, nth_error (ss_items s) (rank key cmp (ss_items s) probe) = Some x /\ same_key key cmp x probe)) \/
  (~ has_key key cmp (ss_items s) probe /\
     ss_search key cmp s (key probe) = Some (inr (rank key cmp (ss_items s) probe))).
Proof.
  intros T K key cmp backing history probe OL s.
  destruct (run_inv key cmp OL history (ss_new backing) (new_inv key cmp backing)) as [[_ HS] _]. fold s in HS.
  unfold ss_search. destruct (bsearch_spec key cmp OL (ss_items s) (key probe) HS) as (r & -> & R).
  destruct r as [i|i]; cbn [search_ok] in R.
  - left. destruct R as (l1 & x & l2 & E & <- & C & F1 & F2).
    assert (ER : rank key cmp (ss_items s) probe = length l1).
    { rewrite E. apply (rank_split key cmp); auto. rewrite Forall_forall in F2. intros y [<-|Hy]; [congruence|].
      apply F2 in Hy. unfold kgt in Hy. congruence. }
    rewrite ER. split; [|split; [reflexivity|]].
    + exists x. split; [rewrite E; apply in_or_app; cbn; auto|exact C].
    + exists x. split; [|exact C]. rewrite E, nth_error_app2, Nat.sub_diag by lia. reflexivity.
  - right. destruct R as (l1 & l2 & E & <- & F1 & F2). split; [rewrite E; apply (no_key key cmp); auto|].
    do 2 f_equal. rewrite E. symmetry. apply (rank_split key cmp); auto.
    rewrite Forall_forall in F2. intros y Hy. apply F2 in Hy. unfold kgt in Hy. congruence.
Qed.
Print Assumptions sorted_slice_search_agrees.

(** [search_with_key] promises a nearby element for an absent key, but panics when the key is above every
    element (in particular on an empty slice). *)
Theorem sorted_slice_search_with_key_refuted :
  exists (backing : list nat) history probe,
    ss_search_with_key (fun x => x) Nat.compare (ss_run (fun x => x) Nat.compare (ss_new backing) history) probe = Panic.
Proof. exists [0; 0], [SAdd 1], 5. vm_compute. reflexivity. Qed.
Print Assumptions sorted_slice_search_with_key_refuted.

(** It panics only then. *)
Theorem sorted_slice_search_with_key_partial : forall (T K : Type) (key : T -> K) cmp (backing : list T) history probe,
  ord_laws cmp ->
  let s := ss_run key cmp (ss_new backing) history in
  (exists x, In x (ss_items s) /\ cmp (key x) (key probe) <> Lt) ->
  exists x, In x (ss_items s) /\ cmp (key x) (key probe) <> Lt /\
    (forall y, In y (ss_items s) -> cmp (key y) (key probe) <> Lt -> cmp (key x) (key y) <> Gt) /\
    ss_search_with_key key cmp s (key probe) =
      match cmp (key x) (key probe) with Eq => Ok x | _ => Err x end.
Proof.
  intros T K key cmp backing history probe OL s (z & Hz & Cz).
  destruct (run_inv key cmp OL history (ss_new backing) (new_inv key cmp backing)) as [[_ HS] _]. fold s in HS.
  unfold ss_search_with_key, ss_search. destruct (bsearch_spec key cmp OL (ss_items s) (key probe) HS) as (r & -> & R).
  destruct r as [i|i]; cbn [search_ok] in R.
  - destruct R as (l1 & x & l2 & E & <- & C & F1 & F2). rewrite Forall_forall in F1, F2. exists x.
    split; [rewrite E; apply in_or_app; cbn; auto|]. split; [congruence|]. split.
    + intros y Hy Cy. rewrite E in Hy. apply in_app_or in Hy. destruct Hy as [Hy|[->|Hy]].
      * apply F1 in Hy. unfold klt in Hy. congruence.
      * rewrite (cmp_refl cmp OL). discriminate.
      * rewrite (cmp_eq_l cmp OL _ _ (key y) C). apply F2 in Hy. apply (cmp_gt_lt cmp OL) in Hy. congruence.
    + rewrite E, nth_error_app2, Nat.sub_diag by lia. cbn. rewrite C. reflexivity.
  - destruct R as (l1 & l2 & E & <- & F1 & F2). rewrite Forall_forall in F1, F2.
    destruct l2 as [|x l2].
    { rewrite E, app_nil_r in Hz. apply F1 in Hz. unfold klt in Hz. congruence. }
    exists x. split; [rewrite E; apply in_or_app; cbn; auto|].
    pose proof (F2 x (or_introl eq_refl)) as G. unfold kgt in G. split; [congruence|]. split.
    + intros y Hy Cy. rewrite E in Hy. apply in_app_or in Hy. destruct Hy as [Hy|[->|Hy]].
      * apply F1 in Hy. unfold klt in Hy. congruence.
      * rewrite (cmp_refl cmp OL). discriminate.
      * rewrite E in HS. apply (sorted_app key cmp) in HS. destruct HS as (_ & S2 & _). inversion S2 as [|? ? _ Hf]; subst.
        rewrite Forall_forall in Hf. rewrite (Hf y Hy). discriminate.
    + rewrite E, nth_error_app2, Nat.sub_diag by lia. cbn. rewrite G. reflexivity.
Qed.
Print Assumptions sorted_slice_search_with_key_partial.

(** A non-trivial case: keys are the first component; the history exercises every operation. *)
Example sorted_slice_demo :
  ord_laws Nat.compare /\
  ss_items (ss_run fst Nat.compare (ss_new (repeat (0, 0) 6))
    [SAdd (5, 1); SAdd (2, 2); SAddSlice [(3, 3); (4, 4)]; SAdd (5, 9); SAddSlice [(1, 1); (6, 6)]; SRemove (2, 0); SRemoveAt 2])
  = [(3, 3); (4, 4)].
Proof.
  split; [|vm_compute; reflexivity]. constructor.
  - apply Nat.compare_refl.
  - intros x y. apply Nat.compare_antisym.
  - intros x y z. rewrite !Nat.compare_lt_iff. lia.
  - intros x y z H. apply Nat.compare_eq_iff in H. subst. reflexivity.
Qed.
