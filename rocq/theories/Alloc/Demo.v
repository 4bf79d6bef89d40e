(** C42, C43: a concrete history that meets the hypotheses of the theorems, and what does not hold. *)
From Coq Require Import Permutation.
From Verif Require Import Base.Prelude Align.Model Align.Proofs Align.Main Gcd.Blocks Gcd.Model Gcd.Spec Gcd.BlockProofs Gcd.Proofs Gcd.Main Gcd.Props Alloc.Model Alloc.Spec Alloc.Pool Alloc.Pages Alloc.Calls Alloc.System Alloc.History Alloc.Props Alloc.PageProps.
Local Open Scope N_scope.

(** ** 66 MB of memory from address 0 *)
Definition CAPS : N := N.lor MEMORY_WB (N.lor MEMORY_RP (N.lor MEMORY_RO MEMORY_XP)).
Definition d_ops : list gcd_op := [OpAdd SystemMemory 0 0x4200000 CAPS].
Definition d_new := gcd_new false 80 40 false.
Definition d_g : gcd := Eval vm_compute in match gcd_run d_new d_ops with Some g => g | None => d_new end.
Definition d_start : sys := Sys d_g (fun _ => Hdr 0 0 0 0) [].
Lemma d_history : history false 40 d_start [].
Proof.
  apply (h_start false 40 80 false d_ops d_g); [|discriminate]. split; [reflexivity|]. split; [repeat constructor; reflexivity|]. vm_compute. reflexivity.
Qed.

(** No address is marked with a handle nobody has used. *)
Lemma unused : forall g h, forallb (fun b => negb (ms_image (b_st b) =? h)) (g_blocks g) = true -> forall x, ~ free_of g h x.
Proof.
  intros g h F x (st & S1 & _ & S3). revert S1. induction (g_blocks g) as [|b r IH]; cbn [forallb state_at] in *; [discriminate|].
  apply andb_prop in F. destruct F as (F1 & F2). destruct (_ && _); [intros E; injection E as <-; rewrite S3, N.eqb_refl in F1; discriminate|auto].
Qed.

(** A check that a call is polite, enough for the examples. *)
Definition checked (s : sys) (L : ledger) (o : sop) (out : sout) : bool :=
  match o with
  | SAlloc _ size align _ => is_power_of_two align && ((size + align - 1) / align * align <? 2 ^ 63)
  | SDealloc ty p size align => existsb (fun h => match h with HBlock t q z al => (t =? ty) && (q =? p) && (z =? size) && (al =? align) | _ => false end) L
  | SPool _ size _ => size <? two64
  | SFreePool b _ => existsb (fun h => match h with HBuffer _ q _ => q =? b | _ => false end) L
  | SPages ty at_ pages alignment => (pages <? two64) && (alignment <? two64) &&
      match at_ with
      | AtAddress x => (x <? two64) && forallb (fun a => (al_type a =? ty) || negb (match owner (s_g s) x with Some h => h =? al_handle a | None => false end)) (s_als s)
      | BottomUp (Some x) | TopDown (Some x) => x <? two64
      | _ => true
      end
  | SFreePages b pages => (0 <? pages) && match out with Done => true | _ => false end &&
      existsb (fun h => match h with HRun ty v len => (b mod granularity s ty =? 0) && (v <=? b) &&
                                       (b + round_up (pages * 4096) (granularity s ty) <=? v + len) | _ => false end) L
  | SReserve _ pages => (pages <? two64) && match out with Done => true | _ => false end
  | SCreate _ handle gran => negb (handle =? 0) && (handle <? two64) && forallb (fun a => negb (al_handle a =? handle)) (s_als s) &&
      forallb (fun b => negb (ms_image (b_st b) =? handle)) (g_blocks (s_g s)) && is_power_of_two gran && (4096 <=? gran) && (gran <? two64)
  | SGcd _ | SWrite _ => false
  end.
Fixpoint check (dbg : bool) (s : sys) (L : ledger) (ops : list sop) : option (sys * ledger) :=
  match ops with
  | [] => Some (s, L)
  | o :: t => let '(out, s') := sys_step dbg s o in
              if checked s L o out && match out with Crashed => false | _ => true end then check dbg s' (record s o out L) t else None
  end.
Ltac bools := repeat match goal with H : _ && _ = true |- _ => apply andb_prop in H; destruct H end.
Lemma checked_polite : forall s L o out s', checked s L o out = true -> polite s L o out s'.
Proof.
  intros s L o out s' H. destruct o as [ty size align ch|ty p size align|ty size ch|b front|ty at_ pages al|b pages|ty pages|ty h gran|o|m]; cbn [checked] in H; cbn [polite]; bools; try discriminate.
  - split; [now apply is_power_of_two_spec|]. now apply N.ltb_lt.
  - apply existsb_exists in H. destruct H as ([t q z al| |] & H & E); try discriminate. bools. repeat match goal with X : (_ =? _) = true |- _ => apply N.eqb_eq in X end. subst. exact H.
  - now apply N.ltb_lt.
  - left. apply existsb_exists in H. destruct H as ([|t q z|] & H & E); try discriminate. apply N.eqb_eq in E. subst. eauto.
  - split; [now apply N.ltb_lt|]. split; [now apply N.ltb_lt|]. destruct at_ as [[x|]|[x|]|x]; try exact I; try (now apply N.ltb_lt).
    bools. split; [now apply N.ltb_lt|]. intros a Ha NT E.
    match goal with F : forallb _ (s_als s) = true |- _ => rewrite forallb_forall in F; specialize (F a Ha); cbv beta in F;
      rewrite E, N.eqb_refl in F; cbn [negb] in F; rewrite orb_false_r in F; now apply NT, N.eqb_eq end.
  - split; [now apply N.ltb_lt|]. split; [|intros e ->; discriminate]. match goal with X : existsb _ _ = true |- _ => apply existsb_exists in X; destruct X as (hh & HX & HE) end; destruct hh as [| |t v len]; try discriminate.
    bools. exists t, v, len. split; [exact HX|]; split; [now apply N.eqb_eq|]; split; now apply N.leb_le.
  - split; [now apply N.ltb_lt|]. intros e ->. discriminate.
  - assert (X : forall h0, some_handle s h0 -> h0 <> h).
    { intros h0 (a & Ha & EH) EQ.
      match goal with F : forallb _ (s_als s) = true |- _ => rewrite forallb_forall in F; specialize (F a Ha); cbv beta in F; rewrite EH, EQ, N.eqb_refl in F; discriminate F end. }
    split; [intros ->; discriminate|]. split; [now apply N.ltb_lt|]. split; [intros Y; exact (X _ Y eq_refl)|]. split; [now apply unused|].
    split; [now apply is_power_of_two_spec|]. split; [now apply N.leb_le|now apply N.ltb_lt].
Qed.
Lemma check_history : forall dbg bits ops s L s' L', history dbg bits s L -> check dbg s L ops = Some (s', L') -> history dbg bits s' L'.
Proof.
  induction ops as [|o t IH]; intros s L s' L' H C; cbn [check] in C; [injection C as <- <-; exact H|].
  destruct (sys_step dbg s o) as [out s1] eqn:E. destruct (checked s L o out) eqn:K; [|discriminate]. cbn [andb] in C.
  destruct out; try discriminate; (eapply IH; [|exact C]; eapply h_step; [exact H|exact E|discriminate|now apply checked_polite]).
Qed.

(** ** What a history looks like: two allocators, a reserve, buffers, a block of the core, runs of pages, frees *)
Definition at_ (p : N) : nat -> nat -> option N := fun _ _ => Some p.
Definition d_calls : list sop :=
  [ SCreate 4 1 4096
  ; SCreate 6 2 0x10000
  ; SReserve 6 16
  ; SPool 4 100 (at_ 0x40F0080)
  ; SAlloc 4 5000 16 (at_ 0x40F1000)
  ; SPool 4 8 (at_ 0x40F0100)
  ; SPages 6 (TopDown None) 5 0
  ; SPages 4 (BottomUp None) 3 0x10000
  ; SFreePages 0x51000 1
  ; SFreePool 0x40F0098 true ].
Definition d_end : sys := match check false d_start [] d_calls with Some (s, _) => s | None => d_start end.
Definition d_ledger : ledger :=
  [HRun 4 0x50000 0x1000; HRun 4 0x52000 0x1000; HRun 6 0x41F0000 0x10000; HBuffer 4 0x40F0118 8; HBlock 4 0x40F1000 5000 16].
Example demo_history : history false 40 d_end d_ledger.
Proof.
  eapply check_history; [exact d_history|]. instantiate (1 := d_calls). unfold d_end. vm_compute. reflexivity.
Qed.
(** The theorems apply to it: the buffer is freed, its memory is handed out again, half a run goes back. *)
Example demo_free : exists s', sys_step false d_end (SFreePool 0x40F0118 true) = (Done, s') /\
  forall ch, fst (sys_step false s' (SPool 4 8 ch)) = Value 0x40F0118 0.
Proof.
  assert (H : In (HBuffer 4 0x40F0118 8) d_ledger) by (do 3 right; left; reflexivity).
  destruct (live_buffer_is_freed _ _ _ _ _ _ _ true demo_history H) as (s' & E & _). exists s'. split; [exact E|].
  apply (freed_buffer_is_reusable _ _ _ _ _ _ _ _ _ demo_history H) in E; [|reflexivity]. apply E. discriminate.
Qed.
Example demo_pages : exists a, In a (s_als d_end) /\ al_type a = 4 /\ al_pages a = 258 /\ outstanding a d_ledger = 258.
Proof. eexists. split; [vm_compute; left; reflexivity|]. repeat split. Qed.
Example demo_free_pages : exists s', sys_step false d_end (SFreePages 0x52000 1) = (Done, s').
Proof.
  eapply (own_pages_are_freed false 40 d_end d_ledger 4 0x52000 0x1000 0x52000 1).
  - exact demo_history.
  - right; left; reflexivity.
  - reflexivity.
  - vm_compute; reflexivity.
  - discriminate.
  - vm_compute; discriminate.
  - vm_compute; reflexivity.
  - vm_compute; discriminate.
  - instantiate (1 := mkMs true SystemMemory 9223372036854931464 8200 1 0). intros x Hx.
    change (round_up (1 * 4096) (granularity d_end 4)) with 4096 in Hx. unfold in_range in Hx.
    set (bl := g_blocks (s_g d_end)). vm_compute in bl. unfold bl. clear bl. cbn [state_at]. unfold b_end. cbn [b_base b_len b_st].
    repeat match goal with |- context [(?a <=? x) && (x <? ?b)] => destruct (N.leb_spec a x), (N.ltb_spec x b); cbn [andb]; try lia end. reflexivity.
  - discriminate.
  - assert (X : N.land (reset_attrs (mkMs true SystemMemory 9223372036854931464 8200 1 0)) 9223372036854931464 =
                reset_attrs (mkMs true SystemMemory 9223372036854931464 8200 1 0)) by reflexivity.
    intros i Hi. cbn [ms_caps]. rewrite <- X, N.land_spec in Hi. now apply andb_prop in Hi.
Qed.

Lemma step_is : forall dbg s o out, fst (sys_step dbg s o) = out -> sys_step dbg s o = (out, snd (sys_step dbg s o)).
Proof. intros dbg s o out <-. apply surjective_pairing. Qed.
Definition final (r : option (sys * ledger)) : sys := match r with Some (s, _) => s | None => d_start end.
Lemma final_history : forall ops s L L', history false 40 s L -> option_map snd (check false s L ops) = Some L' ->
  history false 40 (final (check false s L ops)) L'.
Proof.
  intros ops s L L' H E. destruct (check false s L ops) as [[s1 L1]|] eqn:C; [|discriminate]. injection E as <-. eapply check_history; eauto.
Qed.

(** ** What does not hold *)

(** Freeing a small buffer twice is accepted when the compiler puts the signature into the first word of the header and
    the next free block happens to lie at the address that reads as the signature.  The allocator then hands the same
    memory to two callers. *)
Definition twice : list sop := [SCreate 0 1 4096; SPool 0 8 (at_ 0x4151980); SPool 0 8 (at_ 0x4152000); SFreePool 0x4151998 true].
Theorem double_free_rejected_refuted : exists s L b size s1 s2 s3 s4 ch, history false 40 s L /\ In (HBuffer 0 b size) L /\
  sys_step false s (SFreePool b true) = (Done, s1) /\ sys_step false s1 (SFreePool b true) = (Done, s2) /\
  sys_step false s2 (SPool 0 size ch) = (Value b 0, s3) /\ sys_step false s3 (SPool 0 size ch) = (Value b 0, s4).
Proof.
  set (s := final (check false d_start [] twice)). set (s1 := snd (sys_step false s (SFreePool 0x4152018 true))).
  set (s2 := snd (sys_step false s1 (SFreePool 0x4152018 true))). set (s3 := snd (sys_step false s2 (SPool 0 8 (at_ 0)))).
  exists s, [HBuffer 0 0x4152018 8], 0x4152018, 8, s1, s2, s3, (snd (sys_step false s3 (SPool 0 8 (at_ 0)))), (at_ 0).
  split; [apply final_history; [exact d_history|vm_compute; reflexivity]|]. split; [left; reflexivity|].
  split; [apply step_is; vm_compute; reflexivity|]. split; [apply step_is; vm_compute; reflexivity|].
  split; apply step_is; vm_compute; reflexivity.
Qed.
Print Assumptions double_free_rejected_refuted.

(** AllocatePool of an absurd size halts the firmware instead of failing. *)
Theorem huge_pool_request_fails_refuted : exists s L size, history false 40 s L /\ word size /\
  forall ch, fst (sys_step false s (SPool 4 size ch)) = Crashed.
Proof.
  exists d_end, d_ledger, (2 ^ 63). split; [exact demo_history|]. split; [reflexivity|]. intros ch. vm_compute. reflexivity.
Qed.
Print Assumptions huge_pool_request_fails_refuted.

(** AllocatePages multiplies the number of pages without a check in release builds: for more than all of memory, the
    caller gets one page. *)
Theorem allocated_pages_enough_refuted : exists s L pages base s', history false 40 s L /\ word pages /\
  sys_step false s (SPages 4 (TopDown None) pages 0) = (Value base 4096, s') /\ 4096 < pages * 4096.
Proof.
  exists d_end, d_ledger, (2 ^ 52 + 1), 0x40EF000, (snd (sys_step false d_end (SPages 4 (TopDown None) (2 ^ 52 + 1) 0))).
  split; [exact demo_history|]. split; [reflexivity|]. split; [apply step_is; vm_compute; reflexivity|reflexivity].
Qed.
Print Assumptions allocated_pages_enough_refuted.

(** FreePages frees memory of the pool under a live buffer. *)
Theorem free_pages_spares_pool_refuted : exists s L b size s', history false 40 s L /\ In (HBuffer 4 b size) L /\
  sys_step false s (SFreePages (b / 4096 * 4096) 1) = (Done, s') /\ free_of (s_g s') 0 b.
Proof.
  exists d_end, d_ledger, 0x40F0118, 8, (snd (sys_step false d_end (SFreePages 0x40F0000 1))). split; [exact demo_history|]. split; [do 3 right; left; reflexivity|].
  split; [apply step_is; vm_compute; reflexivity|]. eexists. split; [vm_compute; reflexivity|]. split; reflexivity.
Qed.
Print Assumptions free_pages_spares_pool_refuted.

(** AllocatePages at a fixed address takes memory another memory type has reserved. *)
Definition reserve : list sop := [SCreate 4 1 4096; SCreate 6 2 0x10000; SReserve 6 16].
Theorem reserve_is_kept_refuted : exists s L x s', history false 40 s L /\ free_of (s_g s) 2 x /\
  sys_step false s (SPages 4 (AtAddress x) 16 0) = (Value x 0x10000, s') /\ allocated_to (s_g s') 1 x.
Proof.
  set (s := final (check false d_start [] reserve)).
  exists s, [], 0x41F0000, (snd (sys_step false s (SPages 4 (AtAddress 0x41F0000) 16 0))).
  split; [apply final_history; [exact d_history|vm_compute; reflexivity]|].
  split; [eexists; split; [vm_compute; reflexivity|split; reflexivity]|]. split; [apply step_is; vm_compute; reflexivity|].
  eexists. split; [vm_compute; reflexivity|split; reflexivity].
Qed.
Print Assumptions reserve_is_kept_refuted.

(** Page 0: the call reports that memory ran out but has taken the page, and counts nothing.  Freeing the page then
    takes it off the count of the pages that are outstanding. *)
Definition low_ops : list gcd_op := [OpAdd SystemMemory 0x1000000 0x1000000 CAPS; OpAdd SystemMemory 0 0x100000 CAPS].
Definition low_g : gcd := Eval vm_compute in match gcd_run d_new low_ops with Some g => g | None => d_new end.
Definition low_start : sys := Sys low_g (fun _ => Hdr 0 0 0 0) [].
Lemma low_history : history false 40 low_start [].
Proof.
  apply (h_start false 40 80 false low_ops low_g); [|discriminate]. split; [reflexivity|]. split; [repeat constructor; reflexivity|]. vm_compute. reflexivity.
Qed.
Definition one_page : list sop := [SCreate 4 1 4096; SPages 4 (TopDown None) 1 0].
Theorem page_zero_fails_without_effect_refuted : exists s L s' s'' a, history false 40 s L /\
  sys_step false s (SPages 4 (AtAddress 0) 1 0) = (Failed OutOfResources, s') /\ free_of (s_g s) 0 0 /\ allocated_to (s_g s') 1 0 /\
  sys_step false s' (SFreePages 0 1) = (Done, s'') /\ In a (s_als s'') /\ al_pages a = 0 /\ outstanding a L = 1.
Proof.
  set (s := final (check false low_start [] one_page)). set (s1 := snd (sys_step false s (SPages 4 (AtAddress 0) 1 0))).
  exists s, [HRun 4 0x1FFF000 4096], s1, (snd (sys_step false s1 (SFreePages 0 1))). eexists.
  split; [apply final_history; [exact low_history|vm_compute; reflexivity]|].
  split; [apply step_is; vm_compute; reflexivity|]. split; [eexists; split; [vm_compute; reflexivity|split; reflexivity]|].
  split; [eexists; split; [vm_compute; reflexivity|split; reflexivity]|]. split; [apply step_is; vm_compute; reflexivity|].
  split; [vm_compute; left; reflexivity|]. split; reflexivity.
Qed.
Print Assumptions page_zero_fails_without_effect_refuted.
