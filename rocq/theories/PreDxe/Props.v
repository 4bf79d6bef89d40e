(** C82: memory that earlier boot phases allocated is kept. *)
From Coq Require Import ZifyBool ZifyN.
From Verif Require Import Base.Prelude Align.Model Align.Proofs Align.Main Gcd.Blocks Gcd.Model Gcd.Spec Gcd.BlockProofs Gcd.Proofs Gcd.AllocProofs Gcd.Main Gcd.Hist Gcd.Complete Gcd.Props Alloc.Model Alloc.Spec Alloc.Pool Alloc.Pages Alloc.Calls Alloc.System PreDxe.Model PreDxe.Spec PreDxe.Proofs PreDxe.ListProofs.
Local Open Scope N_scope.

(** What a hand-off block describes stays out of everybody else's hands: when it lies in one stretch of
    memory nobody has, in whole units of pages, and no other block overlaps it, then after the core has
    read the blocks, taken page zero and made the buckets, every address of it is allocated to its owner
    and no later allocation returns it.  Missing: blocks that overlap, that cross descriptors or that are
    not in whole units ([crossing_block_refuted], [overlapping_blocks_refuted], [half_unit_block_refuted]),
    and blocks of memory types for which the core makes an allocator on the way ([own_heap_in_the_way_refuted]). *)
Theorem earlier_allocations_kept_partial : forall dbg bits p s hobs buckets s' h b n st own,
  ready dbg bits p s -> Forall phob_wf hobs -> types_known s hobs ->
  init_memory dbg p s hobs buckets = Some s' ->
  In h hobs -> describes h b n -> nobodys (s_g s) b n st -> entitled p st h own -> b + n <= 2 ^ bits ->
  (forall h', In h' hobs -> h' = h \/ forall x, in_range b n x -> ~ covers p h' x) ->
  room (s_g s) (2 * N.of_nat (length hobs)) ->
  forall x, in_range b n x -> allocated_to (s_g s') own x /\ never_handed_out (s_g s') x.
Proof.
  intros dbg bits p s hobs buckets s' h b n st own R W K E I D NB EN LE AP RM x X. unfold init_memory, process_hob_allocations in E.
  destruct (process_list dbg p s hobs) as [s1|] eqn:E1; [|discriminate]. destruct (take_page_zero dbg p s1) as [s2|] eqn:E2; [|discriminate].
  pose proof (list_keeps_block dbg bits p h b n st own hobs s s1 R W K E1 I D NB EN LE AP RM) as G1.
  destruct (list_step dbg bits p hobs s s1 R W K E1) as (R1 & _). destruct (page_zero_step dbg bits p s1 s2 R1 E2) as (R2 & _ & C2 & _).
  destruct (buckets_keep dbg bits p buckets s2 s' (ready_sane _ _ _ _ R2) E) as (SN & K3).
  assert (G3 : given (s_g s') b n own).
  { eapply given_keeps; [exact K3|]. eapply given_keeps; [|exact G1]. destruct C2 as [C2|C2]; [rewrite C2; apply keeps_refl|eapply took_keeps_taken; eauto]. }
  split; [auto|]. eapply taken_never_out; [exact (sn_reach _ _ _ _ SN)|]. destruct (G3 x X) as (st' & A & B & _). exists st'. auto.
Qed.
Print Assumptions earlier_allocations_kept_partial.

(** And nothing else is taken: an address changes only from free to allocated, because a block covers it,
    for the owner the block stands for - or because it is in page zero. *)
Theorem only_described_memory_taken : forall dbg bits p s hobs s' x,
  ready dbg bits p s -> Forall phob_wf hobs -> types_known s hobs -> process_hob_allocations dbg p s hobs = Some s' ->
  state_at (g_blocks (s_g s')) x = state_at (g_blocks (s_g s)) x \/
  exists own st st', state_at (g_blocks (s_g s)) x = Some st /\ state_at (g_blocks (s_g s')) x = Some st' /\ taken_for own st st' /\
    ((exists h, In h hobs /\ covers p h x /\ rightful p h (ms_type st) own) \/ (x < 4096 /\ own = 6 /\ ms_type st = SystemMemory)).
Proof.
  intros dbg bits p s hobs s' x R W K E. unfold process_hob_allocations in E. destruct (process_list dbg p s hobs) as [s1|] eqn:E1; [|discriminate].
  destruct (list_step dbg bits p hobs s s1 R W K E1) as (R1 & _). destruct (page_zero_step dbg bits p s1 s' R1 E) as (_ & _ & C2 & _).
  destruct (list_only dbg bits p hobs s s1 x R W K E1) as [Q|(h & own & st & st' & Q1 & Q2 & Q3 & Q4 & Q5 & Q6 & _)].
  - rewrite <- Q. destruct C2 as [C2|C2]; [left; now rewrite C2|]. destruct (N.ltb_spec x 4096) as [L|L].
    + right. destruct C2 as (st & T1 & T2 & T3 & _). destruct (T3 x ltac:(unfold in_range; lia)) as (A & B). exists 6, st. eexists. split; [exact A|]. split; [exact B|].
      split; [split; [exact T1|reflexivity]|]. right. auto.
    + left. eapply took_elsewhere; [exact C2|unfold in_range; lia].
  - right. exists own, st, st'. split; [exact Q3|]. split; [|split; [exact Q5|left; eauto]].
    destruct C2 as [C2|C2]; [now rewrite C2|]. apply (took_keeps_taken _ _ _ _ _ _ C2); [exact Q4|]. destruct Q5 as (_ & ->). reflexivity.
Qed.
Print Assumptions only_described_memory_taken.

(** Page zero, when it is free system memory, goes to boot services data, and to nobody after that. *)
Theorem page_zero_taken : forall dbg bits p s hobs buckets s' st,
  ready dbg bits p s -> Forall phob_wf hobs -> types_known s hobs -> init_memory dbg p s hobs buckets = Some s' ->
  uniform (s_g s) 0 4096 st -> ms_alloc st = false -> ms_type st = SystemMemory -> 12 <= bits ->
  room (s_g s) (2 * N.of_nat (length hobs) + 2) ->
  forall x, x < 4096 -> allocated_to (s_g s') 6 x /\ never_handed_out (s_g s') x.
Proof.
  intros dbg bits p s hobs buckets s' st R W K E U A T B RM x X. unfold init_memory, process_hob_allocations in E.
  destruct (process_list dbg p s hobs) as [s1|] eqn:E1; [|discriminate]. destruct (take_page_zero dbg p s1) as [s2|] eqn:E2; [|discriminate].
  destruct (list_step dbg bits p hobs s s1 R W K E1) as (R1 & _ & CP & LN & _). destruct (page_zero_step dbg bits p s1 s2 R1 E2) as (R2 & _ & _ & M).
  assert (U1 : uniform (s_g s1) 0 4096 st).
  { intros y Y. destruct (list_only dbg bits p hobs s s1 y R W K E1) as [->|(h & own & st0 & st' & _ & _ & Q3 & _ & _ & _ & Q7)]; [auto|].
    exfalso. rewrite (U y Y) in Q3. inversion Q3; subst st0. unfold in_range in Y. destruct Q7; [congruence|lia]. }
  assert (TK : took_at (s_g s1) (s_g s2) 0 4096 6 SystemMemory).
  { apply (M st); auto; [change 4096 with (2 ^ 12); apply N.pow_le_mono_r; lia|]. unfold room in *. fold (clen (g_blocks (s_g s))) in RM. fold (clen (g_blocks (s_g s1))). rewrite CP. lia. }
  destruct (buckets_keep dbg bits p buckets s2 s' (ready_sane _ _ _ _ R2) E) as (SN & K3).
  assert (G : allocated_to (s_g s') 6 x).
  { apply (given_keeps _ _ _ _ _ K3 (took_given _ _ _ _ _ _ TK)). unfold in_range. lia. }
  split; [exact G|]. eapply taken_never_out; [exact (sn_reach _ _ _ _ SN)|]. destruct G as (st' & G1 & G2 & _). exists st'. auto.
Qed.
Print Assumptions page_zero_taken.

(** Nothing in the hand-off blocks can make a release build panic when the allocators are there. *)
Theorem blocks_never_panic : forall bits p s hobs, ready false bits p s -> Forall phob_wf hobs -> types_known s hobs ->
  process_hob_allocations false p s hobs <> None.
Proof.
  intros bits p s hobs R W K E. unfold process_hob_allocations in E. destruct (list_release bits p hobs s R W K) as (s1 & E1). rewrite E1 in E.
  destruct (list_step false bits p hobs s s1 R W K E1) as (R1 & _). destruct (page_zero_release bits p s1 R1) as (s2 & E2). congruence.
Qed.
Print Assumptions blocks_never_panic.

(** ** A machine: 1 MB at zero, [16 MB, 32 MB), 1 MB of a second kind above that, and memory-mapped I/O *)
Definition CAPS : N := N.lor MEMORY_WB (N.lor MEMORY_RP (N.lor MEMORY_RO MEMORY_XP)).
Definition m_ops : list gcd_op :=
  [OpAdd SystemMemory 0x1000000 0x1000000 CAPS; OpAdd SystemMemory 0 0x100000 CAPS;
   OpAdd SystemMemory 0x2000000 0x100000 MEMORY_WB; OpAdd MemoryMappedIo 0xF0000000 0x10000000 0; OpAdd Reserved 0xE0000000 0x1000000 CAPS].
Definition m_new := gcd_new false 80 40 false.
Definition m_g : gcd := Eval vm_compute in match gcd_run m_new m_ops with Some g => g | None => m_new end.
Definition plat (arm : bool) : platform := Platform arm (fun ty => 100 + ty mod 1000) (fun _ => [(72, 8); (200, 8)]) (fun i _ _ => Some (0x1F00100 + 256 * N.of_nat i)).
Definition m_start (arm : bool) : sys :=
  Sys m_g (fun _ => Hdr 0 0 0 0) (map (fun ty => new_alloc ty (holder (plat arm) ty) (unit_of (plat arm) ty)) [1; 3; 4; 5; 6]).

Lemma m_ready : forall arm, ready false 40 (plat arm) (m_start arm).
Proof.
  intros arm. split.
  - exists 80, false, m_ops. split; [reflexivity|]. split; [repeat constructor; reflexivity|]. vm_compute. reflexivity.
  - discriminate.
  - reflexivity.
  - intros ty. cbn [plat p_fresh]. pose proof (N.mod_lt ty 1000 ltac:(discriminate)). unfold word. change two64 with 18446744073709551616. split; lia.
  - intros a Ha. cbn in Ha. destruct arm; repeat (destruct Ha as [<-|Ha]; [split; reflexivity|]); destruct Ha.
  - destruct arm; eexists; (split; [right; right; left; reflexivity|reflexivity]).
Qed.

(** A block of boot services code in system memory, one of runtime data, one in reserved memory, and a firmware volume in I/O. *)
Definition m_hobs : list phob :=
  [PAlloc 3 0x1100000 0x20000; POther; PAlloc 6 0x1200000 0x10000; PVolume 0xFF000000 0x800000; PAlloc 4 0xE0000000 0x2000; PAlloc 3 0x1100000 0x20000].
Definition m_buckets : list (N * N) := [(6, 32); (5, 0); (10, 4)].
Definition after (p : platform) (s : sys) (l : list phob) (b : list (N * N)) : sys := match init_memory false p s l b with Some s' => s' | None => s end.
Lemma known_by : forall s l, forallb (fun h => match h with PAlloc ty _ _ => existsb (fun a => al_type a =? ty) (s_als s) | _ => true end) l = true -> types_known s l.
Proof.
  intros s l F ty b n I _. rewrite forallb_forall in F. specialize (F _ I). cbn in F. apply existsb_exists in F. destruct F as (a & Ha & E). exists a. split; [exact Ha|lia].
Qed.
Lemma m_known : forall arm, types_known (m_start arm) m_hobs.
Proof. intros []; apply known_by; reflexivity. Qed.
Lemma m_wf : Forall phob_wf m_hobs.
Proof. repeat constructor. Qed.

Example m_runs : forall arm, exists s', init_memory false (plat arm) (m_start arm) m_hobs m_buckets = Some s'.
Proof. intros []; eexists; vm_compute; reflexivity. Qed.

Definition sysmem : mstate := Eval vm_compute in match state_at (g_blocks m_g) 0x1200000 with Some st => st | None => mkMs false NonExistent 0 0 0 0 end.
Definition lowmem : mstate := Eval vm_compute in match state_at (g_blocks m_g) 0 with Some st => st | None => mkMs false NonExistent 0 0 0 0 end.
Lemma m_uniform : forall b n st, (exists d, In d (g_blocks m_g) /\ b_base d <= b /\ b + n <= b_base d + b_len d /\ b_st d = st) -> uniform m_g b n st.
Proof.
  intros b n st (d & I & B1 & B2 & <-) x (X1 & X2). cbn in I.
  repeat (destruct I as [<-|I]; [cbn in B1, B2; cbn [g_blocks m_g state_at b_base b_len b_st]; unfold b_end; cbn [b_base b_len];
    repeat match goal with |- (if (?a <=? x) && (x <? ?c) then _ else _) = _ => destruct (N.leb_spec a x); destruct (N.ltb_spec x c); cbn [andb]; try reflexivity; try (exfalso; lia) end|]); destruct I.
Qed.

(** The theorems at work: runtime data in whole units on either architecture, the volume, the reserved memory, page zero. *)
Ltac apart := intros h' H'; cbn [m_hobs In] in H'; repeat (destruct H' as [<-|H']; [first [left; reflexivity|right; intros x X C; unfold in_range in X; cbn in C; unfold in_range in C; lia]|]); destruct H'.
Example runtime_data_kept : forall arm s', init_memory false (plat arm) (m_start arm) m_hobs m_buckets = Some s' ->
  forall x, in_range 0x1200000 0x10000 x -> allocated_to (s_g s') 8 x /\ never_handed_out (s_g s') x.
Proof.
  intros arm s' E. apply (earlier_allocations_kept_partial false 40 (plat arm) (m_start arm) m_hobs m_buckets s' (PAlloc 6 0x1200000 0x10000) 0x1200000 0x10000 sysmem 8
    (m_ready arm) m_wf (m_known arm) E).
  - right; right; left; reflexivity.
  - split; reflexivity.
  - split; [|split; reflexivity]. apply m_uniform. eexists. split; [right; right; right; left; reflexivity|]. split; [discriminate|]. split; [discriminate|reflexivity].
  - destruct arm; apply (in_system_memory _ _ 6); try reflexivity; split; [discriminate|intros (X & _); exact (X eq_refl)|discriminate|intros (X & _); exact (X eq_refl)].
  - discriminate.
  - destruct arm; apart.
  - vm_compute. discriminate.
Qed.
Example volume_kept : forall arm s', init_memory false (plat arm) (m_start arm) m_hobs m_buckets = Some s' ->
  forall x, in_range 0xFF000000 0x800000 x -> allocated_to (s_g s') 1 x /\ never_handed_out (s_g s') x.
Proof.
  intros arm s' E.
  assert (U : exists st, nobodys (s_g (m_start arm)) 0xFF000000 0x800000 st /\ ms_type st = MemoryMappedIo).
  { eexists. split; [split; [apply m_uniform; eexists; split; [do 8 right; left; reflexivity|]; split; [discriminate|]; split; [discriminate|reflexivity]|split; reflexivity]|reflexivity]. }
  destruct U as (st & U & T). apply (earlier_allocations_kept_partial false 40 (plat arm) (m_start arm) m_hobs m_buckets s' (PVolume 0xFF000000 0x800000) 0xFF000000 0x800000 st 1
    (m_ready arm) m_wf (m_known arm) E).
  - do 3 right; left; reflexivity.
  - split; reflexivity.
  - exact U.
  - apply volume_in_io; [exact T|reflexivity].
  - discriminate.
  - destruct arm; apart.
  - vm_compute. discriminate.
Qed.
Example page_zero_kept : forall arm s', init_memory false (plat arm) (m_start arm) m_hobs m_buckets = Some s' ->
  forall x, x < 4096 -> allocated_to (s_g s') 6 x /\ never_handed_out (s_g s') x.
Proof.
  intros arm s' E. apply (page_zero_taken false 40 (plat arm) (m_start arm) m_hobs m_buckets s' lowmem (m_ready arm) m_wf (m_known arm) E); try reflexivity; try discriminate.
  apply m_uniform. eexists. split; [left; reflexivity|]. split; [discriminate|]. split; [discriminate|reflexivity].
Qed.
(** Both kinds of change [only_described_memory_taken] allows happen, and the rest of the page after a block stays. *)
Example taken_and_left : forall arm, exists s', process_hob_allocations false (plat arm) (m_start arm) m_hobs = Some s' /\
  allocated_to (s_g s') 5 0x111FFFF /\ state_at (g_blocks (s_g s')) 0x1120000 = state_at (g_blocks (s_g (m_start arm))) 0x1120000 /\
  allocated_to (s_g s') 1 0xE0001FFF /\ state_at (g_blocks (s_g s')) 0xE0002000 = state_at (g_blocks (s_g (m_start arm))) 0xE0002000.
Proof.
  intros []; (eexists; split; [vm_compute; reflexivity|]; split; [eexists; split; [vm_compute; reflexivity|split; reflexivity]|]; split; [reflexivity|];
    split; [eexists; split; [vm_compute; reflexivity|split; reflexivity]|reflexivity]).
Qed.

(** ** What is not kept *)
(** Not every described block: one that crosses from one descriptor into another is not reserved at all.  The
    next AllocatePages returns memory in it. *)
Definition hands_out (arm : bool) (hobs : list phob) (h : phob) : Prop :=
  Forall phob_wf hobs /\ types_known (m_start arm) hobs /\ In h hobs /\
  exists s' v n s'', init_memory false (plat arm) (m_start arm) hobs [] = Some s' /\
    sys_step false s' (SPages 4 (TopDown None) 1 0x1000) = (Value v n, s'') /\
    exists x, in_range v n x /\ covers (plat arm) h x /\ exists b l, describes h b l /\ in_range b l x.
Ltac handed := split; [repeat constructor|]; split; [apply known_by; reflexivity|]; split; [cbn; tauto|]; do 4 eexists; split; [vm_compute; reflexivity|]; split; [vm_compute; reflexivity|];
  exists 0x20FF800; split; [split; [discriminate|reflexivity]|]; split; [split; [discriminate|reflexivity]|]; do 2 eexists; split; [split; reflexivity|]; split; [discriminate|reflexivity].
Theorem crossing_block_refuted : hands_out false [PAlloc 3 0x1F00000 0x200000] (PAlloc 3 0x1F00000 0x200000).
Proof. handed. Qed.
Print Assumptions crossing_block_refuted.

(** Nor the rest of a block of which another has taken the start. *)
Theorem overlapping_blocks_refuted : hands_out false [PAlloc 3 0x2080000 0x10000; PAlloc 3 0x2088000 0x78000] (PAlloc 3 0x2088000 0x78000).
Proof. handed. Qed.
Print Assumptions overlapping_blocks_refuted.

(** Nor, on AArch64, runtime data that does not start at a multiple of 64 KiB; on x64 it is kept. *)
Theorem half_unit_block_refuted : hands_out true [PAlloc 6 0x20F8000 0x8000] (PAlloc 6 0x20F8000 0x8000) /\
  exists s', init_memory false (plat false) (m_start false) [PAlloc 6 0x20F8000 0x8000] [] = Some s' /\ allocated_to (s_g s') 8 0x20FF800.
Proof. split; [handed|]. eexists. split; [vm_compute; reflexivity|]. eexists. split; [vm_compute; reflexivity|split; reflexivity]. Qed.
Print Assumptions half_unit_block_refuted.

(** Nor a block that does not start at a page. *)
Theorem part_page_block_refuted : hands_out false [PAlloc 3 0x20F0800 0xF800] (PAlloc 3 0x20F0800 0xF800).
Proof. handed. Qed.
Print Assumptions part_page_block_refuted.

(** A block of ACPI NVS memory makes the core create an allocator.  Its heap may grow for that, into
    what the next block describes: the core's own data then lie in it and it is not its owner's. *)
Definition plat2 : platform := Platform false (fun ty => 100 + ty mod 1000) (fun _ => [(72, 8); (200, 8)]) (fun i _ _ => Some (0x2000100 + 256 * N.of_nat i)).
Theorem own_heap_in_the_way_refuted : exists s', ready false 40 plat2 (m_start false) /\
  process_hob_allocations false plat2 (m_start false) [PAlloc 10 0x1100000 0x1000; PAlloc 3 0x2000000 0x100000] = Some s' /\
  (exists a h u, In a (s_als s') /\ al_type a = 4 /\ In h (al_heaps a) /\ In u (hp_used h) /\ in_range 0x2000000 0x100000 (fst u)) /\
  allocated_to (s_g s') (holder plat2 4) 0x2000100 /\ holder plat2 4 <> holder plat2 3.
Proof.
  eexists. split; [|split; [vm_compute; reflexivity|]].
  - destruct (m_ready false) as [A B C D E F]. split; assumption.
  - split; [|split; [eexists; split; [vm_compute; reflexivity|split; reflexivity]|discriminate]].
    do 3 eexists. split; [do 2 right; left; reflexivity|]. split; [reflexivity|]. split; [left; reflexivity|]. split; [left; reflexivity|]. split; [discriminate|reflexivity].
Qed.
Print Assumptions own_heap_in_the_way_refuted.
