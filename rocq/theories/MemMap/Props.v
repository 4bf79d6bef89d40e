(** C55, C56: GetMemoryMap and the map key. *)
From Verif Require Import Base.Prelude Base.Bytes Gcd.Blocks Gcd.Model Gcd.Spec Gcd.BlockProofs Gcd.Proofs Gcd.Props Alloc.Model Alloc.Spec Alloc.Pool Alloc.Pages Alloc.Calls Alloc.System Alloc.History Alloc.Props Alloc.PageProps Alloc.Demo.
From Verif Require Import MemMap.Model MemMap.Spec MemMap.Proofs MemMap.Crc.
Local Open Scope N_scope.

Definition the_map (active : bool) (s : sys) : list descr := descriptors active (s_als s) (s_g s).

(** ** Types and attributes *)
Lemma isa_bit : forall n, (N.land n MEMORY_ISA_VALID =? MEMORY_ISA_VALID) = N.testbit n 62.
Proof.
  intros n. change MEMORY_ISA_VALID with (2 ^ 62). destruct (N.testbit n 62) eqn:T.
  - apply N.eqb_eq. apply N.bits_inj. intros i. rewrite N.land_spec, N.pow2_bits_eqb. destruct (N.eqb_spec 62 i); [subst; rewrite T; reflexivity|apply andb_false_r].
  - apply N.eqb_neq. intros E. apply (f_equal (fun z => N.testbit z 62)) in E. rewrite N.land_spec, T, N.pow2_bits_eqb in E. discriminate.
Qed.
Lemma type_reported : forall s st t, NoDup (map al_handle (s_als s)) -> type_of_block (s_als s) st = Some t <-> reported s st t.
Proof.
  intros s st t ND. unfold type_of_block, type_for_handle, reported. destruct (find _ (s_als s)) as [a|] eqn:F; cbn [option_map].
  - apply find_some in F. destruct F as (F1 & F2). apply N.eqb_eq in F2. split.
    + intros E. injection E as <-. left. exists a. auto.
    + intros [(b & B1 & B2 & B3)|(N1 & _)]; [|exfalso; exact (N1 a F1 F2)]. f_equal. rewrite <- B3. f_equal.
      apply (NoDup_unique _ al_handle (s_als s)); auto. congruence.
  - assert (N1 : forall a, In a (s_als s) -> al_handle a <> ms_image st).
    { intros a Ha E. apply (find_none _ _ F) in Ha. rewrite E, N.eqb_refl in Ha. discriminate. }
    rewrite isa_bit. split.
    + intros E. right. split; [exact N1|]. destruct (ms_type st); try discriminate; injection E as <-; auto. destruct (N.testbit (ms_attrs st) 62); auto.
    + intros [(b & B1 & B2 & _)|(_ & E)]; [exfalso; exact (N1 b B1 B2)|]. destruct (ms_type st); try contradiction; subst; auto.
      destruct E as [(E1 & ->)|(E1 & ->)]; rewrite E1; reflexivity.
Qed.
Lemma attr_reported : forall act st t i, N.testbit (attr_of_block act t st) i = true <-> attr_bit act st t i.
Proof.
  intros act st t i. unfold attr_of_block, attr_bit.
  assert (RT : forall j, N.testbit MEMORY_RUNTIME j = (63 =? j)) by (intros j; change MEMORY_RUNTIME with (2 ^ 63); apply N.pow2_bits_eqb).
  assert (AM : forall j, N.testbit MEMORY_ACCESS_MASK j = (13 =? j) || (14 =? j) || (17 =? j)).
  { intros j. change MEMORY_ACCESS_MASK with (N.lor (N.lor (2 ^ 13) (2 ^ 14)) (2 ^ 17)). rewrite !N.lor_spec, !N.pow2_bits_eqb. reflexivity. }
  assert (G : forall u, N.testbit (if (t =? 5) || (t =? 6) then N.lor u MEMORY_RUNTIME else u) i = true <-> N.testbit u i = true \/ (i = 63 /\ (t = 5 \/ t = 6))).
  { intros u. destruct (N.eqb_spec t 5), (N.eqb_spec t 6); cbn [orb]; rewrite ?N.lor_spec, ?RT, ?orb_true_iff, ?N.eqb_eq; intuition lia. }
  rewrite G. clear G. destruct act.
  - destruct (N.eqb_spec i 63) as [->|]; [|intuition]. intuition.
  - rewrite N.lor_spec, N.ldiff_spec, N.land_spec, N.lor_spec, RT, AM, orb_true_iff, !andb_true_iff, negb_true_iff, !orb_false_iff, !N.eqb_neq, N.eqb_eq.
    destruct (N.eqb_spec i 63) as [->|]; intuition congruence.
Qed.

(** ** C55 *)

Lemma map_facts : forall dbg bits s L act, history dbg bits s L ->
  NoDup (map al_handle (s_als s)) /\ map_ok (s_g s) /\ g_max (s_g s) = 2 ^ bits /\
  let D := filter_map (convert act (s_als s)) (g_blocks (s_g s)) in
  chain (the_map act s) /\ apart_rev (rev (the_map act s)) /\ (forall t a x, cov (the_map act s) t a x <-> cov D t a x) /\
  (forall d, In d (the_map act s) -> exists e, In e D /\ d_start d = d_start e).
Proof.
  intros dbg bits s L act H. apply history_inv in H. pose proof (i_reach _ _ _ _ H) as RC. pose proof (reach_map _ _ _ RC) as (M & _ & E & _).
  split; [exact (i_handles _ _ _ _ H)|]. split; [exact M|]. split; [exact E|]. cbv zeta.
  destruct (fold_merge (filter_map (convert act (s_als s)) (g_blocks (s_g s))) []) as (R1 & R2 & R3 & R4); [cbn [rev app]; eapply chain_blocks; exact (proj1 M)|exact I|].
  unfold the_map, descriptors. rewrite rev_involutive. split; [exact R1|]. split; [exact R2|]. split.
  - intros t a x. rewrite <- (R3 t a x). unfold cov. split; intros (d & Hd & X); exists d; (split; [|exact X]); [now apply in_rev|now rewrite <- in_rev].
  - intros d Hd. rewrite <- in_rev in Hd. destruct (R4 d Hd) as (e & [[]|He] & Ee). eauto.
Qed.

(** What is reported is right. *)
Theorem memory_map_sound : forall dbg bits s L act d x, history dbg bits s L -> In d (the_map act s) -> covers d x ->
  exists st, state_at (g_blocks (s_g s)) x = Some st /\ reported s st (d_type d) /\
    forall i, N.testbit (d_attr d) i = true <-> attr_bit act st (d_type d) i.
Proof.
  intros dbg bits s L act d x H Hd Hx. destruct (map_facts _ _ _ _ act H) as (ND & M & _ & _ & _ & C & _).
  destruct (proj1 (C (d_type d) (d_attr d) x)) as (e & He & E1 & E2 & E3); [exists d; auto|].
  apply in_filter_map in He. destruct He as (b & Hb & Eb). pose proof (convert_end _ _ _ _ Eb) as (B1 & B2). apply convert_some in Eb. destruct Eb as (t & T1 & -> & T2 & T3).
  cbn [d_type d_attr d_start] in *. subst t. exists (b_st b). unfold covers, in_range, dend in *. cbn [d_start d_pages] in *. split; [|split].
  - eapply state_of_block; [exact (proj1 M)|exact Hb|lia].
  - now apply type_reported.
  - intros i. rewrite <- E2. apply attr_reported.
Qed.
Print Assumptions memory_map_sound.

(** All memory is reported, if every page has one state. *)
Theorem memory_map_complete : forall dbg bits s L act x st ty, history dbg bits s L -> page_grid (s_g s) ->
  state_at (g_blocks (s_g s)) x = Some st -> reported s st ty -> exists d, In d (the_map act s) /\ covers d x /\ d_type d = ty.
Proof.
  intros dbg bits s L act x st ty H PG ST R. destruct (map_facts _ _ _ _ act H) as (ND & M & _ & _ & _ & C & _).
  destruct (block_of_state _ _ _ ST) as (b & Hb & <- & BX). apply type_reported in R; [|exact ND].
  destruct (blocks_on_pages _ _ _ (proj1 M) (proj1 (proj2 M)) eq_refl) with (b := b) as (P1 & P2); auto.
  assert (EX : exists q, b_len b = q * 4096 /\ 0 < q).
  { apply N.mod_divide in P1, P2; try discriminate. destruct P1 as (u & U), P2 as (v & V). exists (v - u). unfold b_end in *. rewrite N.mul_sub_distr_r. split; [lia|].
    assert (u < v) by (clear - U V BX; nia). lia. }
  destruct EX as (q & Q1 & Q2).
  assert (CV : convert act (s_als s) b = Some (Descr ty (b_base b) q (attr_of_block act ty (b_st b)))).
  { unfold convert. rewrite R, shiftr_12, Q1, N.div_mul by discriminate. rewrite (proj2 (N.eqb_neq q 0)) by lia. change 0x1000 with 4096. rewrite P1. reflexivity. }
  destruct (proj2 (C ty (attr_of_block act ty (b_st b)) x)) as (d & D1 & D2 & D3 & D4).
  { eexists. split; [apply in_filter_map; eexists; split; [exact Hb|exact CV]|]. unfold covers, in_range. cbn [d_type d_attr d_start d_pages]. unfold b_end in BX. repeat split; lia. }
  exists d. auto.
Qed.
Print Assumptions memory_map_complete.

(** The descriptors are in order, apart from each other, not empty, on pages, within the address space. *)
Lemma chain_nth : forall l i j d e, chain l -> nth_error l i = Some d -> nth_error l j = Some e -> (i < j)%nat -> dend d <= d_start e.
Proof.
  induction l as [|x l IH]; intros i j d e C Hi Hj LT; [destruct i; discriminate|]. destruct C as (_ & C1 & C2). destruct j as [|j]; [lia|]. cbn [nth_error] in Hj.
  destruct i as [|i]; cbn [nth_error] in Hi; [injection Hi as <-; apply C1; eapply nth_error_In; eauto|]. eapply IH; eauto. lia.
Qed.
Theorem memory_map_in_order : forall dbg bits s L act, history dbg bits s L ->
  (forall d, In d (the_map act s) -> 0 < d_pages d /\ d_start d mod 4096 = 0 /\ d_start d + d_pages d * 4096 <= 2 ^ bits) /\
  (forall i j d e, nth_error (the_map act s) i = Some d -> nth_error (the_map act s) j = Some e -> (i < j)%nat ->
     d_start d + d_pages d * 4096 <= d_start e).
Proof.
  intros dbg bits s L act H. destruct (map_facts _ _ _ _ act H) as (ND & M & EM & CH & _ & C & ST). split.
  - intros d Hd. assert (P : 0 < d_pages d).
    { clear - CH Hd. induction (the_map act s) as [|x l IH]; [destruct Hd|]. destruct CH as (C1 & _ & C2). destruct Hd as [<-|Hd]; auto. }
    split; [exact P|]. split.
    + destruct (ST d Hd) as (e & He & ->). apply in_filter_map in He. destruct He as (b & Hb & Eb). apply convert_some in Eb. destruct Eb as (t & _ & -> & _ & X). exact X.
    + destruct (proj1 (C (d_type d) (d_attr d) (d_start d + d_pages d * 4096 - 1))) as (e & He & _ & _ & E3).
      { exists d. unfold covers, in_range. repeat split; auto; lia. }
      apply in_filter_map in He. destruct He as (b & Hb & Eb). apply convert_end in Eb. destruct (tiles_ge _ _ _ _ (proj1 M) Hb) as (_ & X). rewrite EM in X.
      unfold covers, in_range, dend in *. lia.
  - intros i j d e Hi Hj LT. exact (chain_nth _ _ _ _ _ CH Hi Hj LT).
Qed.
Print Assumptions memory_map_in_order.

(** Neighbours that touch differ in type or attributes: the map is as short as it can be. *)
Theorem memory_map_merged : forall dbg bits s L act i d e, history dbg bits s L ->
  nth_error (the_map act s) i = Some d -> nth_error (the_map act s) (S i) = Some e -> d_start d + d_pages d * 4096 = d_start e ->
  d_type d <> d_type e \/ d_attr d <> d_attr e.
Proof.
  intros dbg bits s L act i d e H Hi Hj TC. destruct (map_facts _ _ _ _ act H) as (_ & _ & _ & _ & A & _).
  apply nth_error_split in Hi. destruct Hi as (l1 & l2 & EQ & EL). rewrite EQ in *. rewrite nth_error_app2 in Hj by lia. replace (S i - length l1)%nat with 1%nat in Hj by lia.
  destruct l2 as [|y l2]; [discriminate|]. cbn [nth_error] in Hj. injection Hj as ->.
  rewrite rev_app_distr in A. cbn [rev] in A. rewrite <- !app_assoc in A. cbn [app] in A. clear - A TC.
  induction (rev l2) as [|z r IH]; [exact (proj1 A TC)|]. apply IH. cbn [app] in A. destruct (r ++ e :: d :: rev l1) eqn:X; [destruct r; discriminate|]. exact (proj2 A).
Qed.
Print Assumptions memory_map_merged.

(** What callers hold is reported under the memory type they asked for, so never as free memory of type 7. *)
Theorem holdings_reported : forall dbg bits s L act h x, history dbg bits s L -> page_grid (s_g s) -> In h L ->
  in_range (fst (extent h)) (snd (extent h)) x -> exists d, In d (the_map act s) /\ covers d x /\ d_type d = type_of h.
Proof.
  intros dbg bits s L act h x H PG Hh Hx. destruct (holdings_in_allocated_memory _ _ _ _ _ H Hh) as (a & Ha & ET & AL & _).
  destruct (AL x Hx) as (st & S1 & S2 & S3). eapply memory_map_complete; eauto. left. exists a. auto.
Qed.
Print Assumptions holdings_reported.
Theorem holdings_not_free : forall dbg bits s L act h x d, history dbg bits s L -> In h L ->
  in_range (fst (extent h)) (snd (extent h)) x -> In d (the_map act s) -> covers d x -> d_type d = type_of h.
Proof.
  intros dbg bits s L act h x d H Hh Hx Hd Cx. destruct (holdings_in_allocated_memory _ _ _ _ _ H Hh) as (a & Ha & ET & AL & _).
  destruct (AL x Hx) as (st & S1 & S2 & S3). destruct (memory_map_sound _ _ _ _ _ _ _ H Hd Cx) as (st' & S4 & R & _).
  assert (st' = st) by congruence. subst st'. destruct R as [(b & B1 & B2 & B3)|(N1 & _)]; [|exfalso; exact (N1 a Ha (eq_sym S3))].
  rewrite <- B3, <- ET. f_equal. apply history_inv in H. apply (NoDup_unique _ al_handle (s_als s)); auto; [exact (i_handles _ _ _ _ H)|congruence].
Qed.
Print Assumptions holdings_not_free.
