(** Merging intervals, and numbers as text. *)
From Verif Require Import Base.Prelude Ser.Model Ser.Spec.
From Coq Require Import Lia ZifyBool ZifyNat ZifyN Permutation Sorted.
Local Open Scope N_scope.

(** ** Sorting *)

Lemma insert_perm : forall le a l, Permutation (insert le a l) (a :: l).
Proof. intros le a l. induction l as [|b l IH]; [reflexivity|]. cbn [insert]. destruct (le a b); [reflexivity|]. rewrite IH. apply perm_swap. Qed.
Lemma sort_perm : forall le l, Permutation (sort_iv le l) l.
Proof. intros le l. induction l as [|a l IH]; [reflexivity|]. unfold sort_iv in *. cbn [fold_right]. rewrite insert_perm. constructor. exact IH. Qed.
(** An order that is total and, on a class of intervals, sorts by start. *)
Definition by_start (P : iv -> Prop) (le : iv -> iv -> bool) : Prop :=
  (forall a b, P a -> P b -> le a b = true -> i_base a <= i_base b) /\ (forall a b, P a -> P b -> le a b = false -> i_base b <= i_base a).
Definition starts (l : list iv) : Prop := StronglySorted (fun a b => i_base a <= i_base b) l.
Lemma insert_starts : forall P le a l, by_start P le -> P a -> Forall P l -> starts l -> starts (insert le a l).
Proof.
  intros P le a l [B1 B2] PA PL H. induction H as [|b l H IH F]; [repeat constructor|]. cbn [insert]. inversion PL; subst. destruct (le a b) eqn:E.
  - constructor; [constructor; assumption|]. constructor; [apply B1; assumption|]. eapply Forall_impl; [|exact F]. intros c C. cbn in C. specialize (B1 a b PA H2 E). lia.
  - constructor; [apply IH; assumption|]. eapply Permutation_Forall; [symmetry; apply insert_perm|]. constructor; [apply B2; assumption | exact F].
Qed.
Lemma sort_starts : forall P le l, by_start P le -> Forall P l -> starts (sort_iv le l).
Proof.
  intros P le l B H. induction H as [|a l PA H IH]; [constructor|]. unfold sort_iv in *. cbn [fold_right]. eapply insert_starts; [exact B | exact PA | | exact IH].
  eapply Permutation_Forall; [symmetry; apply (sort_perm le)|]. exact H.
Qed.

(** ** Merging *)

Lemma try_merge_ok : forall dbg a b, fits a -> fits b -> exists o, try_merge dbg a b = Ok o
  /\ match o with
     | Some m => fits m /\ i_base m = N.min (i_base a) (i_base b) /\ i_base m + i_len m = N.max (i_base a + i_len a) (i_base b + i_len b)
                 /\ i_base a <= i_base b + i_len b /\ i_base b <= i_base a + i_len a
                 /\ i_name m = i_name a /\ i_type m = i_type a /\ i_attr m = i_attr a
     | None => i_base a + i_len a < i_base b \/ i_base b + i_len b < i_base a
     end.
Proof.
  intros dbg a b FA FB. unfold try_merge, i_end, uadd, fits in *. destruct (i_base a + i_len a <? two64) eqn:E1; [|unfold two64 in E1; lia]. destruct (i_base b + i_len b <? two64) eqn:E2; [|unfold two64 in E2; lia].
  cbn [bind]. destruct (_ || _) eqn:C.
  - unfold i_merge, usub. destruct (N.min (i_base a) (i_base b) <=? N.max (i_base a + i_len a) (i_base b + i_len b)) eqn:E3; [|lia]. cbn [bind]. eexists. split; [reflexivity|].
    cbn [i_base i_len i_name i_type i_attr]. repeat split; lia.
  - exists None. split; [reflexivity|]. cbv iota beta. lia.
Qed.
(** When one ends where or after the other starts, the union is an interval: no address is gained. *)
Lemma merged_covers : forall a b m x, i_base m = N.min (i_base a) (i_base b) -> i_base m + i_len m = N.max (i_base a + i_len a) (i_base b + i_len b) ->
  i_base a <= i_base b + i_len b -> i_base b <= i_base a + i_len a -> (i_base m <= x /\ x < i_base m + i_len m <-> (i_base a <= x /\ x < i_base a + i_len a) \/ (i_base b <= x /\ x < i_base b + i_len b)).
Proof. intros. lia. Qed.
Definition inside (i : iv) (x : N) : Prop := i_base i <= x /\ x < i_base i + i_len i.
Lemma covered_cons : forall i l x, covered (i :: l) x <-> inside i x \/ covered l x.
Proof.
  intros i l x. split.
  - intros (j & [<- | J] & H); [left; exact H | right; exists j; split; assumption].
  - intros [H | (j & J & H)]; [exists i; split; [left; reflexivity | exact H] | exists j; split; [right; exact J | exact H]].
Qed.
Lemma covered_perm : forall l l' x, Permutation l l' -> (covered l x <-> covered l' x).
Proof. intros l l' x P. split; intros (i & I & H); exists i; (split; [|exact H]); [apply (Permutation_in _ P I) | apply (Permutation_in _ (Permutation_sym P) I)]. Qed.
Lemma loop_covers : forall dbg l done last, Forall fits l -> fits last -> exists r, merge_loop dbg done last l = Ok r
  /\ forall x, covered r x <-> covered done x \/ inside last x \/ covered l x.
Proof.
  intros dbg l. induction l as [|c l IH]; intros done last F FL.
  - exists (rev (last :: done)). split; [reflexivity|]. intros x. rewrite (covered_perm _ (last :: done)) by (symmetry; apply Permutation_rev). rewrite covered_cons.
    assert (~ covered [] x) by (intros (i & [] & _)). tauto.
  - inversion F as [|? ? FC F']; subst. cbn [merge_loop]. destruct (try_merge_ok dbg last c FL FC) as (o & E & S). rewrite E. cbn [bind]. destruct o as [m|].
    + destruct S as (FM & M1 & M2 & M3 & M4 & _). destruct (IH done m F' FM) as (r & R & C). exists r. split; [exact R|]. intros x. rewrite C, covered_cons.
      pose proof (merged_covers last c m x M1 M2 M3 M4). unfold inside in *. tauto.
    + destruct (IH (last :: done) c F' FC) as (r & R & C). exists r. split; [exact R|]. intros x. rewrite C, !covered_cons. tauto.
Qed.
(** C89: merging neither gains nor loses an address, whatever the order, and does not panic. *)
Theorem c89_covered : forall dbg le l, Forall fits l -> exists r, merge_intervals dbg le l = Ok r /\ forall x, covered r x <-> covered l x.
Proof.
  intros dbg le l F. unfold merge_intervals. pose proof (sort_perm le l) as P. destruct (sort_iv le l) as [|a s].
  - exists []. split; [reflexivity|]. intros x. apply covered_perm, P.
  - assert (F' : Forall fits (a :: s)) by (eapply Permutation_Forall; [symmetry; exact P | exact F]). inversion F'; subst. destruct (loop_covers dbg s [] a) as (r & R & C); [assumption | assumption |].
    exists r. split; [exact R|]. intros x. rewrite C, <- covered_cons. assert (N : ~ covered [] x) by (intros (i & [] & _)). rewrite (covered_perm _ _ x P). tauto.
Qed.
Inductive rsep : list iv -> Prop :=
| rsep_nil : rsep []
| rsep_cons : forall a l, Forall (fun b => i_base b + i_len b < i_base a) l -> rsep l -> rsep (a :: l).
Lemma sep_snoc : forall l a, separated l -> Forall (fun b => i_base b + i_len b < i_base a) l -> separated (l ++ [a]).
Proof.
  intros l a H. induction H as [|b l F H IH]; intros G; [repeat constructor|]. inversion G; subst. cbn [app]. constructor; [|apply IH; assumption].
  apply Forall_app. split; [exact F | constructor; [assumption | constructor]].
Qed.
Lemma rsep_rev : forall l, rsep l -> separated (rev l).
Proof. intros l H. induction H as [|a l F H IH]; [constructor|]. cbn [rev]. apply sep_snoc; [exact IH|]. eapply Permutation_Forall; [apply Permutation_rev | exact F]. Qed.
Lemma loop_separated : forall dbg l done last r, Forall fits l -> fits last -> starts (last :: l) -> rsep (last :: done) -> merge_loop dbg done last l = Ok r -> separated r.
Proof.
  intros dbg l. induction l as [|c l IH]; intros done last r F FL S D H.
  - cbn [merge_loop] in H. assert (r = rev (last :: done)) by congruence. subst r. apply rsep_rev, D.
  - inversion F as [|? ? FC F']; subst. inversion S as [|? ? S' SF]; subst. inversion S' as [|? ? S'' SF']; subst. inversion SF as [|? ? LC SF'']; subst. inversion D as [|? ? DF D']; subst.
    cbn [merge_loop] in H. destruct (try_merge_ok dbg last c FL FC) as (o & E & T). rewrite E in H. cbn [bind] in H. destruct o as [m|].
    + destruct T as (FM & M1 & M2 & _). apply (IH done m r F' FM); [| |exact H].
      * constructor; [exact S''|]. eapply Forall_impl; [|exact SF'']. intros b B. cbn in B. lia.
      * constructor; [|exact D']. eapply Forall_impl; [|exact DF]. intros b B. cbn in B. lia.
    + apply (IH (last :: done) c r F' FC S'); [|exact H]. constructor; [|exact D]. constructor; [lia|]. eapply Forall_impl; [|exact DF]. intros b B. cbn in B. lia.
Qed.
Lemma merge_separated : forall P dbg le l r, by_start P le -> Forall P l -> Forall fits l -> merge_intervals dbg le l = Ok r -> separated r.
Proof.
  intros P dbg le l r B PL F H. unfold merge_intervals in H. pose proof (sort_starts P le l B PL) as S. pose proof (sort_perm le l) as PM. destruct (sort_iv le l) as [|a s].
  - assert (r = []) by congruence. subst. constructor.
  - assert (F' : Forall fits (a :: s)) by (eapply Permutation_Forall; [symmetry; exact PM | exact F]). inversion F' as [|? ? FA FS]; subst. apply (loop_separated dbg s [] a r FS FA S); [repeat constructor | exact H].
Qed.
(** C89: resources are merged into intervals in order, with a gap between any two: as few as there can be. *)
Theorem c89_resources : forall dbg l r, Forall fits l -> merge_intervals dbg res_le l = Ok r -> separated r.
Proof.
  intros dbg l r F H. apply (merge_separated (fun _ => True) dbg res_le l r); [|apply Forall_forall; intros; exact I | exact F | exact H].
  split; intros a b _ _ E; unfold res_le in E; destruct (N.compare_spec (i_base a) (i_base b)); try discriminate; lia.
Qed.
Lemma name_cmp_refl : forall a, name_cmp a a = Eq.
Proof. intros a. induction a as [|x a IH]; [reflexivity|]. cbn [name_cmp]. rewrite N.compare_refl. exact IH. Qed.
(** C89, for memory allocations of one name: the same. *)
Theorem c89_allocations_partial : forall dbg name l r, Forall (fun i => i_name i = name) l -> Forall fits l -> merge_intervals dbg mem_le l = Ok r -> separated r.
Proof.
  intros dbg name l r N F H. apply (merge_separated (fun i => i_name i = name) dbg mem_le l r); [|exact N | exact F | exact H].
  split; intros a b NA NB E; unfold mem_le in E; rewrite NA, NB, name_cmp_refl in E; destruct (N.compare_spec (i_base a) (i_base b)); try discriminate; lia.
Qed.
(** Not so: allocations of several names.  They are sorted by name first, so that intervals remain that overlap. *)
Theorem c89_allocations_refuted : exists l r a b, Forall fits l /\ (forall dbg, merge_intervals dbg mem_le l = Ok r) /\ In a r /\ In b r /\ a <> b
  /\ i_base a < i_base b + i_len b /\ i_base b < i_base a + i_len a.
Proof.
  exists [Iv [1] 4 0 0x1000 0x1000; Iv [2] 4 0 0x8000 0x1000; Iv [3] 4 0 0x1800 0x1000]. eexists. exists (Iv [1] 4 0 0x1000 0x1000), (Iv [3] 4 0 0x1800 0x1000).
  split; [repeat constructor|]. split; [intros []; vm_compute; reflexivity|]. cbn [In]. repeat split; try (left; reflexivity) || (right; right; left; reflexivity) || discriminate || reflexivity.
Qed.
(** Not so: that types and attributes are kept.  Two resources that touch become one, of the first's type. *)
Theorem c89_types_refuted : forall dbg a b, fits a -> fits b -> i_base a + i_len a = i_base b -> 0 < i_len a ->
  exists m, merge_intervals dbg res_le [a; b] = Ok [m] /\ i_type m = i_type a /\ i_attr m = i_attr a /\ i_name m = i_name a /\ i_base m = i_base a /\ i_len m = i_len a + i_len b.
Proof.
  intros dbg a b FA FB A L. unfold merge_intervals, sort_iv. cbn [fold_right insert]. assert (E : res_le a b = true).
  { unfold res_le. destruct (N.compare_spec (i_base a) (i_base b)); [lia | reflexivity | lia]. }
  rewrite E. cbn [merge_loop]. destruct (try_merge_ok dbg a b FA FB) as (o & T & S). rewrite T. cbn [bind]. destruct o as [m|]; [|lia]. destruct S as (FM & M1 & M2 & _ & _ & M5 & M6 & M7).
  exists m. split; [reflexivity|]. repeat split; try assumption; lia.
Qed.
(** Not so: a resource that ends where the address space does.  Its end is computed, and with overflow checks that panics. *)
Theorem c89_top_refuted : forall a b, fits a -> i_base a < i_base b -> i_base b + i_len b = 2 ^ 64 -> merge_intervals true res_le [a; b] = Panic.
Proof.
  intros a b FA L T. unfold merge_intervals, sort_iv. cbn [fold_right insert]. assert (E : res_le a b = true).
  { unfold res_le. destruct (N.compare_spec (i_base a) (i_base b)); [lia | reflexivity | lia]. }
  rewrite E. cbn [merge_loop]. unfold try_merge, i_end, uadd, fits in *. destruct (i_base a + i_len a <? two64) eqn:E1; [|unfold two64 in E1; lia].
  destruct (i_base b + i_len b <? two64) eqn:E2; [unfold two64 in E2; lia|]. reflexivity.
Qed.

(** ** Numbers *)

Lemma digit_back : forall d, d < 16 -> digit_of (digit d) = Some d /\ digit d <> 43.
Proof.
  intros d D. unfold digit, digit_of. destruct (d <? 10) eqn:E.
  - replace ((48 <=? 48 + d) && (48 + d <=? 57)) with true by lia. split; [f_equal; lia | lia].
  - replace ((48 <=? 87 + d) && (87 + d <=? 57)) with false by lia. replace ((97 <=? 87 + d) && (87 + d <=? 102)) with true by lia. split; [f_equal; lia | lia].
Qed.
Lemma parse_mono : forall max l acc v, parse max acc l = Some v -> acc <= v \/ l = [].
Proof.
  intros max l. induction l as [|c l IH]; intros acc v H; [right; reflexivity|]. left. cbn [parse] in H. destruct (digit_of c) as [d|]; [|discriminate]. destruct (_ <=? max); [|discriminate].
  destruct (IH _ _ H) as [L | ->]; [lia|]. cbn [parse] in H. assert (acc * 16 + d = v) by congruence. lia.
Qed.
Lemma digits_parse : forall fuel n acc max a, n < 16 ^ N.of_nat fuel -> (0 < fuel)%nat -> exists k, (1 <= k)%nat /\ n < 16 ^ N.of_nat k /\ (k = 1%nat \/ 16 ^ N.of_nat (k - 1) <= n) /\
  (a * 16 ^ N.of_nat k + n <= max -> parse max a (digits fuel n acc) = parse max (a * 16 ^ N.of_nat k + n) acc)
  /\ (max < a * 16 ^ N.of_nat k + n -> parse max a (digits fuel n acc) = None) /\ exists c r, digits fuel n acc = c :: r /\ c <> 43.
Proof.
  intros fuel. induction fuel as [|fuel IH]; intros n acc max a H P; [lia|]. cbn [digits]. destruct (n <? 16) eqn:E.
  - destruct (digit_back n ltac:(lia)) as [D1 D2]. exists 1%nat. change (16 ^ N.of_nat 1) with 16. split; [lia|]. split; [lia|]. split; [left; reflexivity|]. cbn [parse]. rewrite D1.
    split; [intros M; destruct (a * 16 + n <=? max) eqn:L; [reflexivity | lia]|]. split; [intros M; destruct (a * 16 + n <=? max) eqn:L; [lia | reflexivity]|]. eexists. eexists. split; [reflexivity | exact D2].
  - assert (FP : (0 < fuel)%nat) by (destruct fuel; [change (16 ^ N.of_nat 1) with 16 in H; lia | lia]).
    pose proof (N.div_mod n 16 ltac:(discriminate)) as DM. pose proof (N.mod_lt n 16 ltac:(discriminate)) as ML.
    assert (H' : n / 16 < 16 ^ N.of_nat fuel). { rewrite Nnat.Nat2N.inj_succ, N.pow_succ_r' in H. apply N.div_lt_upper_bound; [discriminate | exact H]. }
    destruct (IH (n / 16) (digit (n mod 16) :: acc) max a H' FP) as (k & K1 & KL & KG & K2 & K3 & K4). destruct (digit_back (n mod 16) ML) as [D1 D2].
    exists (S k). rewrite Nnat.Nat2N.inj_succ, N.pow_succ_r'. split; [lia|]. split; [nia|]. split.
    { right. replace (S k - 1)%nat with k by lia. destruct KG as [-> | KG]; [change (16 ^ N.of_nat 1) with 16; lia|]. replace k with (S (k - 1)) by lia. rewrite Nnat.Nat2N.inj_succ, N.pow_succ_r'. nia. }
    assert (EQ : (a * 16 ^ N.of_nat k + n / 16) * 16 + n mod 16 = a * (16 * 16 ^ N.of_nat k) + n) by nia.
    split; [|split; [|exact K4]].
    + intros M. rewrite K2 by nia. cbn [parse]. rewrite D1, EQ. destruct (_ <=? max) eqn:L; [reflexivity | lia].
    + intros M. destruct (N.le_gt_cases (a * 16 ^ N.of_nat k + n / 16) max) as [LE | GT]; [|apply K3; exact GT]. rewrite K2 by exact LE. cbn [parse]. rewrite D1, EQ. destruct (_ <=? max) eqn:L; [lia | reflexivity].
Qed.
(** C89: a number written as text is read back as it was, if the type read has room for it, and refused otherwise. *)
Theorem c89_numbers : forall bits n, n < 2 ^ 64 -> 0 < bits -> of_text bits (to_text n) = if n <? 2 ^ bits then Some n else None.
Proof.
  intros bits n H B. unfold of_text, to_text. assert (P : 0 < 2 ^ bits) by (apply N.neq_0_lt_0, N.pow_nonzero; discriminate).
  destruct (digits_parse 16 n [] (2 ^ bits - 1) 0) as (k & _ & _ & _ & K2 & K3 & c & r & E & NC); [exact H | lia|]. rewrite N.mul_0_l, N.add_0_l in K2, K3. rewrite E in *.
  assert (F : from_str_radix bits (c :: r) = parse (2 ^ bits - 1) 0 (c :: r)).
  { cbn [from_str_radix]. destruct c as [|p]; [reflexivity|]. do 6 (destruct p as [p|p|]; try reflexivity). exfalso. apply NC. reflexivity. }
  rewrite F. destruct (n <? 2 ^ bits) eqn:L; [rewrite K2 by lia; reflexivity | apply K3; lia].
Qed.
(** C89: what is read is below the bound of the type; text without the prefix, or without digits, is refused. *)
Theorem c89_bounds : forall bits l n, of_text bits l = Some n -> n < 2 ^ bits /\ exists c r, l = 48 :: 120 :: c :: r.
Proof.
  intros bits l n H. assert (P : 0 < 2 ^ bits) by (apply N.neq_0_lt_0, N.pow_nonzero; discriminate).
  assert (PB : forall l max acc v, acc <= max -> parse max acc l = Some v -> v <= max).
  { intros l'. induction l' as [|c l' IH]; intros max acc v A E; cbn [parse] in E; [congruence|]. destruct (digit_of c) as [d|]; [|discriminate].
    destruct (acc * 16 + d <=? max) eqn:L; [|discriminate]. apply N.leb_le in L. exact (IH _ _ _ L E). }
  unfold of_text in H. destruct l as [|a l]; [discriminate|]. assert (A : a = 48) by (destruct a as [|p]; [discriminate|]; do 6 (destruct p as [p|p|]; try discriminate); reflexivity). subst a.
  destruct l as [|b l]; [discriminate|]. assert (A : b = 120) by (destruct b as [|p]; [discriminate|]; do 7 (destruct p as [p|p|]; try discriminate); reflexivity). subst b.
  destruct l as [|c l]; [discriminate|]. split; [|exists c, l; reflexivity].
  assert (Q : exists l', parse (2 ^ bits - 1) 0 l' = Some n).
  { unfold from_str_radix in H. destruct (c =? 43) eqn:E.
    - apply N.eqb_eq in E. subst c. destruct l as [|d l]; [discriminate|]. exists (d :: l). exact H.
    - exists (c :: l). destruct c as [|p]; [exact H|]. do 6 (destruct p as [p|p|]; try exact H). discriminate. }
  destruct Q as [l' Q]. pose proof (PB l' (2 ^ bits - 1) 0 n ltac:(lia) Q). lia.
Qed.

(** ** Cases *)

Example demo_merge : merge_intervals true res_le [Iv [1] 0 7 0x3000 0x1000; Iv [2] 0 7 0x1000 0x1000; Iv [3] 0 7 0x1800 0x1000] = Ok [Iv [2] 0 7 0x1000 0x1800; Iv [1] 0 7 0x3000 0x1000].
Proof. vm_compute. reflexivity. Qed.
Example demo_text : to_text 0xFED0 = [48; 120; 102; 101; 100; 48] /\ of_text 64 (to_text 0xFED0) = Some 0xFED0 /\ of_text 8 (to_text 0xFED0) = None /\ to_text 0 = [48; 120; 48].
Proof. vm_compute. repeat split. Qed.

Print Assumptions c89_covered.
Print Assumptions c89_resources.
Print Assumptions c89_allocations_partial.
Print Assumptions c89_allocations_refuted.
Print Assumptions c89_types_refuted.
Print Assumptions c89_top_refuted.
Print Assumptions c89_numbers.
Print Assumptions c89_bounds.
