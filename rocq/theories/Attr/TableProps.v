(** C65: the memory attributes table. *)
From Verif Require Import Base.Prelude Base.Bytes Gcd.Blocks Gcd.Model Gcd.Spec Gcd.BlockProofs Alloc.Model Alloc.Spec Alloc.System Alloc.History Alloc.Props Alloc.Demo.
From Verif Require Import MemMap.Model MemMap.Spec MemMap.Proofs MemMap.Props MemMap.Crc MemMap.Key Gcd.Spin Attr.Model.
Local Open Scope N_scope.

(** The table of a system, and the memory map with the attributes in force it is made from. *)
Definition the_table (s : sys) : list descr := memory_attributes_table (s_als s) (s_g s).

(** Runtime services code and data. *)
Definition runtime_type (ty : N) : Prop := ty = 5 \/ ty = 6.

Lemma filter_map_nth : forall A B (f : A -> option B) (l : list A) i j x y, nth_error (filter_map f l) i = Some x -> nth_error (filter_map f l) j = Some y -> (i < j)%nat ->
  exists i' j' u v, nth_error l i' = Some u /\ nth_error l j' = Some v /\ f u = Some x /\ f v = Some y /\ (i' < j')%nat.
Proof.
  intros A B f. induction l as [|a l IH]; intros i j x y Hi Hj LT; cbn [filter_map] in *; [destruct i; discriminate|].
  destruct (f a) as [b|] eqn:E.
  - destruct j as [|j]; [lia|]. cbn [nth_error] in Hj. destruct i as [|i]; cbn [nth_error] in Hi.
    + injection Hi as ->. apply nth_error_In in Hj. apply in_filter_map in Hj. destruct Hj as (v & Hv & Fv). apply In_nth_error in Hv. destruct Hv as (k & Hk).
      exists 0%nat, (S k), a, v. cbn. repeat split; auto. lia.
    + destruct (IH i j x y Hi Hj ltac:(lia)) as (i' & j' & u & v & H1 & H2 & H3 & H4 & H5). exists (S i'), (S j'), u, v. cbn. repeat split; auto. lia.
  - destruct (IH i j x y Hi Hj LT) as (i' & j' & u & v & H1 & H2 & H3 & H4 & H5). exists (S i'), (S j'), u, v. cbn. repeat split; auto. lia.
Qed.

Lemma entry_some : forall d e, mat_entry d = Some e ->
  runtime_type (d_type e) /\ d_type e = d_type d /\ d_start e = d_start d /\ d_pages e = d_pages d.
Proof.
  intros d e H. unfold mat_entry in H. destruct (N.eqb_spec (d_type d) 5), (N.eqb_spec (d_type d) 6); cbn [orb] in H; try discriminate; injection H as <-;
    cbn [d_type d_start d_pages]; unfold runtime_type; auto.
Qed.

Lemma allowed_bits : forall i, N.testbit mat_allowed i = true <-> i = 14 \/ i = 17 \/ i = 63.
Proof.
  intros i. change mat_allowed with (N.lor (2 ^ 17) (N.lor (2 ^ 14) (2 ^ 63))). rewrite !N.lor_spec, !N.pow2_bits_eqb, !orb_true_iff, !N.eqb_eq. intuition lia.
Qed.

Lemma no_protection : forall a, (N.land a (N.lor MEMORY_RO MEMORY_XP) =? 0) = negb (N.testbit a 14 || N.testbit a 17).
Proof.
  intros a. change (N.lor MEMORY_RO MEMORY_XP) with (N.lor (2 ^ 17) (2 ^ 14)).
  destruct (N.eqb_spec (N.land a (N.lor (2 ^ 17) (2 ^ 14))) 0) as [E|E]; symmetry.
  - rewrite negb_true_iff, orb_false_iff. split; [apply (f_equal (fun v => N.testbit v 14)) in E|apply (f_equal (fun v => N.testbit v 17)) in E];
      rewrite N.land_spec, N.lor_spec, !N.pow2_bits_eqb, N.bits_0 in E; cbn in E; now rewrite andb_true_r in E.
  - rewrite negb_false_iff. destruct (N.testbit a 14) eqn:B1; [reflexivity|]. destruct (N.testbit a 17) eqn:B2; [reflexivity|]. exfalso. apply E.
    apply N.bits_inj. intros i. rewrite N.land_spec, N.lor_spec, !N.pow2_bits_eqb, N.bits_0.
    destruct (N.eqb_spec 17 i), (N.eqb_spec 14 i); subst; rewrite ?B1, ?B2; try reflexivity; try discriminate; apply andb_false_r.
Qed.

(** Each entry is runtime services code or data as the memory map reports it, where every address has the attributes
    reported: bit 63, marking runtime memory, is always set; bits 14 and 17 (no execution, no writing) are those in force
    at the address if any is, and else no execution at all, and for code no writing either; no other bit is set. *)
Theorem c65_sound : forall dbg bits s L e x, history dbg bits s L -> In e (the_table s) -> covers e x ->
  exists st, state_at (g_blocks (s_g s)) x = Some st /\ runtime_type (d_type e) /\ reported s st (d_type e) /\
    N.testbit (d_attr e) 63 = true /\
    (forall i, N.testbit (d_attr e) i = true -> i = 14 \/ i = 17 \/ i = 63) /\
    (N.testbit (ms_attrs st) 14 = true \/ N.testbit (ms_attrs st) 17 = true ->
       N.testbit (d_attr e) 14 = N.testbit (ms_attrs st) 14 /\ N.testbit (d_attr e) 17 = N.testbit (ms_attrs st) 17) /\
    (N.testbit (ms_attrs st) 14 = false -> N.testbit (ms_attrs st) 17 = false ->
       N.testbit (d_attr e) 14 = true /\ (N.testbit (d_attr e) 17 = true <-> d_type e = 5)).
Proof.
  intros dbg bits s L e x H He Hx. unfold the_table, memory_attributes_table in He. apply in_filter_map in He. destruct He as (d & Hd & Ed).
  destruct (entry_some _ _ Ed) as (RT & T1 & T2 & T3).
  assert (Cx : covers d x) by (unfold covers in *; rewrite <- T2, <- T3; exact Hx).
  destruct (memory_map_sound dbg bits s L true d x H Hd Cx) as (st & S1 & S2 & S3). exists st. split; [exact S1|]. split; [exact RT|].
  split; [rewrite T1; exact S2|].
  assert (B63 : N.testbit (d_attr d) 63 = true) by (apply S3; unfold attr_bit; cbn; unfold runtime_type in RT; rewrite <- T1; tauto).
  assert (B14 : N.testbit (d_attr d) 14 = N.testbit (ms_attrs st) 14).
  { specialize (S3 14). unfold attr_bit in S3. cbn in S3. destruct (N.testbit (d_attr d) 14), (N.testbit (ms_attrs st) 14); intuition congruence. }
  assert (B17 : N.testbit (d_attr d) 17 = N.testbit (ms_attrs st) 17).
  { specialize (S3 17). unfold attr_bit in S3. cbn in S3. destruct (N.testbit (d_attr d) 17), (N.testbit (ms_attrs st) 17); intuition congruence. }
  unfold mat_entry in Ed. rewrite no_protection, B14, B17 in Ed.
  assert (TT : ((d_type d =? 5) || (d_type d =? 6)) = true) by (rewrite <- T1; destruct RT as [-> | ->]; reflexivity). rewrite TT in Ed.
  injection Ed as <-. cbn [d_type d_attr] in *. destruct (N.testbit (ms_attrs st) 14 || N.testbit (ms_attrs st) 17) eqn:OR; cbn [negb].
  - split; [rewrite N.land_spec, B63; reflexivity|]. split; [intros i Hi; rewrite N.land_spec, andb_true_iff in Hi; apply allowed_bits, Hi|].
    split.
    + intros _. rewrite !N.land_spec, B14, B17. split; apply andb_true_r.
    + intros Z1 Z2. rewrite Z1, Z2 in OR. discriminate.
  - apply orb_false_iff in OR. destruct OR as (O1 & O2). destruct (N.eqb_spec (d_type d) 5) as [E5|E5].
    + split; [reflexivity|]. split; [intros i Hi; apply allowed_bits, Hi|]. split; [rewrite O1, O2; intros [X|X]; discriminate|]. intros _ _. split; [reflexivity|]. split; auto.
    + split; [reflexivity|]. split.
      { intros i Hi. change 9223372036854792192 with (N.lor (2 ^ 63) (2 ^ 14)) in Hi. rewrite N.lor_spec, !N.pow2_bits_eqb, orb_true_iff, !N.eqb_eq in Hi. intuition lia. }
      split; [rewrite O1, O2; intros [X|X]; discriminate|]. intros _ _. split; [reflexivity|]. split; [intros X; discriminate X|congruence].
Qed.

(** So no entry is ever both writable and executable. *)
Theorem c65_never_writable_and_executable : forall dbg bits s L e, history dbg bits s L -> In e (the_table s) ->
  N.testbit (d_attr e) 14 = true \/ N.testbit (d_attr e) 17 = true.
Proof.
  intros dbg bits s L e H He.
  assert (Hx : covers e (d_start e)).
  { unfold the_table, memory_attributes_table in He. apply in_filter_map in He. destruct He as (d & Hd & Ed). destruct (entry_some _ _ Ed) as (_ & _ & T2 & T3).
    destruct (memory_map_in_order dbg bits s L true H) as (O & _). destruct (O d Hd) as (P & _). unfold covers, in_range. rewrite T2, T3. lia. }
  destruct (c65_sound dbg bits s L e (d_start e) H He Hx) as (st & _ & _ & _ & _ & _ & A & B).
  destruct (N.testbit (ms_attrs st) 14) eqn:E1; [destruct A as (A & _); auto; left; congruence|].
  destruct (N.testbit (ms_attrs st) 17) eqn:E2; [destruct A as (_ & A); auto|]. left. now apply B.
Qed.

(** All runtime memory is in the table. *)
Theorem c65_complete : forall dbg bits s L x st ty, history dbg bits s L -> page_grid (s_g s) ->
  state_at (g_blocks (s_g s)) x = Some st -> reported s st ty -> runtime_type ty -> exists e, In e (the_table s) /\ covers e x /\ d_type e = ty.
Proof.
  intros dbg bits s L x st ty H PG S1 R RT. destruct (memory_map_complete dbg bits s L true x st ty H PG S1 R) as (d & Hd & Cx & T).
  assert (TT : ((d_type d =? 5) || (d_type d =? 6)) = true) by (rewrite T; destruct RT as [-> | ->]; reflexivity).
  assert (EX : exists e, mat_entry d = Some e) by (unfold mat_entry; rewrite TT; eauto). destruct EX as (e & Ee).
  destruct (entry_some _ _ Ee) as (_ & T1 & T2 & T3). exists e. split; [|split].
  - unfold the_table, memory_attributes_table. apply in_filter_map. exists d. auto.
  - unfold covers in *. rewrite T2, T3. exact Cx.
  - congruence.
Qed.

(** Entries are whole pages within the address space, in increasing order and apart. *)
Theorem c65_in_order : forall dbg bits s L, history dbg bits s L ->
  (forall e, In e (the_table s) -> 0 < d_pages e /\ d_start e mod 4096 = 0 /\ d_start e + d_pages e * 4096 <= 2 ^ bits) /\
  (forall i j d e, nth_error (the_table s) i = Some d -> nth_error (the_table s) j = Some e -> (i < j)%nat ->
     d_start d + d_pages d * 4096 <= d_start e).
Proof.
  intros dbg bits s L H. destruct (memory_map_in_order dbg bits s L true H) as (O1 & O2). split.
  - intros e He. unfold the_table, memory_attributes_table in He. apply in_filter_map in He. destruct He as (d & Hd & Ed).
    destruct (entry_some _ _ Ed) as (_ & _ & T2 & T3). rewrite T2, T3. exact (O1 d Hd).
  - intros i j d e Hi Hj LT. destruct (filter_map_nth _ _ _ _ _ _ _ _ Hi Hj LT) as (i' & j' & u & v & H1 & H2 & H3 & H4 & H5).
    destruct (entry_some _ _ H3) as (_ & _ & A2 & A3), (entry_some _ _ H4) as (_ & _ & B2 & _). rewrite A2, A3, B2. eapply O2; eauto.
Qed.

(** Memory held by runtime drivers is in the table, as code or data as allocated. *)
Theorem c65_holdings : forall dbg bits s L h x, history dbg bits s L -> page_grid (s_g s) -> In h L -> runtime_type (type_of h) ->
  in_range (fst (extent h)) (snd (extent h)) x -> exists e, In e (the_table s) /\ covers e x /\ d_type e = type_of h.
Proof.
  intros dbg bits s L h x H PG Hh RT Hx. destruct (holdings_in_allocated_memory _ _ _ _ _ H Hh) as (a & Ha & ET & AL & _).
  destruct (AL x Hx) as (st & S1 & S2 & S3). eapply c65_complete; eauto. left. exists a. auto.
Qed.

(** The table of the history of Alloc/Demo.v, whose memory of type 6 has no protection yet: it is reported as not
    executable all the same, which the page table does not enforce. *)
Example demo_table : the_table d_end = [Descr 6 0x41F0000 16 (2 ^ 63 + 2 ^ 14)].
Proof. vm_compute. reflexivity. Qed.

Print Assumptions c65_sound.
Print Assumptions c65_never_writable_and_executable.
Print Assumptions c65_complete.
Print Assumptions c65_in_order.
Print Assumptions c65_holdings.
