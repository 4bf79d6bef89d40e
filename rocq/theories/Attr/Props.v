(** C63-C65: the memory attribute services, image protections and the memory attributes table. *)
From Verif Require Import Base.Prelude Alloc.Model Gcd.Blocks Gcd.Model Gcd.Spec Gcd.BlockProofs Gcd.Proofs Gcd.AllocProofs Gcd.Main
  Gcd.Complete Gcd.Spin Gcd.SpinSpec Gcd.SpinProofs Gcd.SpinProps Attr.Model Attr.Spec Attr.Proofs Attr.Main.
Local Open Scope N_scope.

(** ** C63: the memory attribute protocol *)

Lemma request_spec : forall b l a, bad_request b l a = false <-> acceptable b l a.
Proof.
  intros b l a. rewrite bad_request_spec. unfold acceptable, bits_subset. split; intros (A & B & C & D); repeat split; auto; intros i Hi.
  - apply access_mask_bits, D, Hi.
  - apply access_mask_bits, D, Hi.
Qed.

Lemma request_bad : forall b l a, ~ acceptable b l a -> bad_request b l a = true.
Proof. intros b l a H. destruct (bad_request b l a) eqn:E; [reflexivity|]. apply request_spec in E. contradiction. Qed.

(** A request is refused as invalid exactly when it is not acceptable, and then changes nothing. *)
Theorem c63_set_invalid : forall s base len attrs,
  (~ acceptable base len attrs -> set_memory_attributes s base len attrs = (Done StInvalidParameter, s)) /\
  (acceptable base len attrs -> fst (set_memory_attributes s base len attrs) <> Done StInvalidParameter).
Proof.
  intros s b l a. unfold set_memory_attributes. split; intros H.
  - now rewrite (request_bad _ _ _ H).
  - apply request_spec in H. rewrite H. destruct (walk_range s b l (fun x => N.lor x a)) as [[[| |]| |] s']; discriminate.
Qed.

Theorem c63_clear_invalid : forall s base len attrs,
  (~ acceptable base len attrs -> clear_memory_attributes s base len attrs = (Done StInvalidParameter, s)) /\
  (acceptable base len attrs -> fst (clear_memory_attributes s base len attrs) <> Done StInvalidParameter).
Proof.
  intros s b l a. unfold clear_memory_attributes. split; intros H.
  - now rewrite (request_bad _ _ _ H).
  - apply request_spec in H. rewrite H. destruct (walk_range s b l (fun x => without x a)) as [[[| |]| |] s']; discriminate.
Qed.

Lemma quiet : forall s b l f r s', map_ok (sp_gcd s) -> 0 < g_max (sp_gcd s) < two64 ->
  walk_range s b l f = (r, s') -> r <> Crashed -> no_assertion s s' -> sp_alarm s' = false.
Proof. intros s b l f r s' HM Hmax H Hp [A|(D & A)]; [exact A|]. rewrite (walk_range_debug _ _ _ _ _ _ HM Hmax D H Hp). exact A. Qed.

(** SetMemoryAttributes that returns anything but INVALID_PARAMETER, no assertion having failed, succeeds: every address
    of the range is memory that gained exactly the attributes asked for, nothing else changed, and the page table agrees
    with the map as well as before. *)
Theorem c63_set : forall s base len attrs st s', spin_ok s -> base + len < 2 ^ 64 ->
  set_memory_attributes s base len attrs = (Done st, s') -> st <> StInvalidParameter -> no_assertion s s' ->
  st = StSuccess /\ rewritten s s' base len (fun a => N.lor a attrs) /\ spin_ok s' /\ (in_sync s -> in_sync s').
Proof.
  intros s b l a st s' WF Hb H Hst Q. pose proof WF as (HM & Hmax & _). apply spin_ok_wf in WF.
  unfold set_memory_attributes in H. destruct (bad_request b l a) eqn:B; [injection H as <- <-; congruence|].
  apply bad_request_spec in B. destruct B as (_ & _ & B1 & B2).
  destruct (walk_range s b l (fun x => N.lor x a)) as [r s1] eqn:W. injection H as R <-.
  destruct r as [w| |]; try discriminate R. assert (NP : Done w <> Crashed) by discriminate.
  pose proof (quiet _ _ _ _ _ _ HM Hmax W NP Q) as A.
  destruct (walk_range_exact _ _ _ _ _ _ HM Hmax Hb W A) as (-> & RW). injection R as <-.
  split; [reflexivity|]. split; [exact RW|].
  assert (K : keeps s s1).
  { eapply walk_range_keeps; [exact WF| |exact W|exact NP|exact A]. intros x st _ _. apply (keeps_paging a); auto.
    intros i Hi. rewrite N.lor_spec, Hi. apply orb_true_r. }
  destruct K as (K1 & _ & _ & _ & _ & K6). split; [apply spin_ok_wf, K1|]. intros Y x. apply K6, Y.
Qed.

(** The same for ClearMemoryAttributes; there the page table is only sure to follow where a cacheability or access
    attribute is left ([c63_clear_ignored_refuted]). *)
Theorem c63_clear : forall s base len attrs st s', spin_ok s -> base + len < 2 ^ 64 ->
  clear_memory_attributes s base len attrs = (Done st, s') -> st <> StInvalidParameter -> no_assertion s s' ->
  st = StSuccess /\ rewritten s s' base len (fun a => N.ldiff a attrs) /\
  ((forall x a, in_range base len x -> attrs_at s x = Some a -> N.land (N.ldiff a attrs) page_bits <> 0) ->
   spin_ok s' /\ (in_sync s -> in_sync s')).
Proof.
  intros s b l a st s' WF Hb H Hst Q. pose proof WF as (HM & Hmax & _). apply spin_ok_wf in WF.
  unfold clear_memory_attributes in H. destruct (bad_request b l a) eqn:B; [injection H as <- <-; congruence|].
  destruct (walk_range s b l (fun x => without x a)) as [r s1] eqn:W. injection H as R <-.
  destruct r as [w| |]; try discriminate R. assert (NP : Done w <> Crashed) by discriminate.
  pose proof (quiet _ _ _ _ _ _ HM Hmax W NP Q) as A.
  destruct (walk_range_exact _ _ _ _ _ _ HM Hmax Hb W A) as (-> & RW). injection R as <-.
  split; [reflexivity|]. split; [exact RW|]. intros HK.
  assert (K : keeps s s1).
  { eapply walk_range_keeps; [exact WF| |exact W|exact NP|exact A]. intros x st Hx Hst'. change PAGING_MASK with page_bits.
    apply (HK x); [exact Hx|]. unfold attrs_at. rewrite Hst'. reflexivity. }
  destruct K as (K1 & _ & _ & _ & _ & K6). split; [apply spin_ok_wf, K1|]. intros Y x. apply K6, Y.
Qed.

(** Whatever the result - assertions failing or not, either build - each address keeps its state or is in the range and
    has exactly the attributes asked for. *)
Theorem c63_set_nothing_else : forall s base len attrs r s', spin_ok s ->
  set_memory_attributes s base len attrs = (r, s') -> r <> Crashed -> partly_rewritten s s' base len (fun a => N.lor a attrs).
Proof.
  intros s b l a r s' (HM & Hmax & _) H Hp. unfold set_memory_attributes in H.
  destruct (bad_request b l a); [injection H as <- <-; left; reflexivity|].
  destruct (walk_range s b l (fun x => N.lor x a)) as [q s1] eqn:W. injection H as R <-.
  eapply walk_range_each; eauto. intros ->. cbn in R. congruence.
Qed.

Theorem c63_clear_nothing_else : forall s base len attrs r s', spin_ok s ->
  clear_memory_attributes s base len attrs = (r, s') -> r <> Crashed -> partly_rewritten s s' base len (fun a => N.ldiff a attrs).
Proof.
  intros s b l a r s' (HM & Hmax & _) H Hp. unfold clear_memory_attributes in H.
  destruct (bad_request b l a); [injection H as <- <-; left; reflexivity|].
  destruct (walk_range s b l (fun x => without x a)) as [q s1] eqn:W. injection H as R <-.
  eapply walk_range_each; eauto. intros ->. cbn in R. congruence.
Qed.

(** A request within the address space ends. *)
Theorem c63_ends : forall s base len attrs, spin_ok s -> base + len <= g_max (sp_gcd s) ->
  fst (set_memory_attributes s base len attrs) <> Stuck /\ fst (clear_memory_attributes s base len attrs) <> Stuck.
Proof.
  intros s b l a (HM & Hmax & _) Hb. unfold set_memory_attributes, clear_memory_attributes.
  destruct (bad_request b l a); [split; discriminate|].
  pose proof (walk_range_ends s b l (fun x => N.lor x a) HM Hmax Hb). pose proof (walk_range_ends s b l (fun x => without x a) HM Hmax Hb).
  destruct (walk_range s b l (fun x => N.lor x a)) as [[[| |]| |] s1], (walk_range s b l (fun x => without x a)) as [[[| |]| |] s2]; cbn in *; split; congruence.
Qed.

(** ... and one that starts at its end never does, in either build. *)
Theorem c63_past_the_end_hangs_refuted : forall s len attrs, spin_ok s ->
  acceptable (g_max (sp_gcd s)) len attrs -> 0 < len -> g_max (sp_gcd s) + len < 2 ^ 64 ->
  fst (set_memory_attributes s (g_max (sp_gcd s)) len attrs) = Stuck /\ fst (clear_memory_attributes s (g_max (sp_gcd s)) len attrs) = Stuck.
Proof.
  intros s l a (HM & Hmax & _) Ha Hl Hb. change (2 ^ 64) with two64 in Hb. apply request_spec in Ha.
  unfold set_memory_attributes, clear_memory_attributes. rewrite Ha. unfold walk_range. rewrite uadd_small by exact Hb.
  assert (W : word (g_max (sp_gcd s) + l)) by exact Hb.
  assert (L : g_max (sp_gcd s) < g_max (sp_gcd s) + l) by lia.
  split.
  - pose proof (walk_stuck (attrs_fuel s) s _ (fun x => N.lor x a) HM Hmax L W) as X.
    destruct (walk_loop (attrs_fuel s) s (g_max (sp_gcd s)) (g_max (sp_gcd s) + l) (fun x => N.lor x a)) as [r s1]. cbn in X. subst r. reflexivity.
  - pose proof (walk_stuck (attrs_fuel s) s _ (fun x => without x a) HM Hmax L W) as X.
    destruct (walk_loop (attrs_fuel s) s (g_max (sp_gcd s)) (g_max (sp_gcd s) + l) (fun x => without x a)) as [r s1]. cbn in X. subst r. reflexivity.
Qed.

(** GetMemoryAttributes returns attributes exactly for the longest stretches of memory in one state, and then the access
    attributes of every address there. *)
Theorem c63_get : forall s base len out v, spin_ok s ->
  get_memory_attributes s base len out = Done (StSuccess, Some v) <->
  out = true /\ page_aligned base /\ page_aligned len /\
  exists st, stretch s base len st /\ forall i, N.testbit v i = true <-> is_access_bit i /\ N.testbit (ms_attrs st) i = true.
Proof.
  intros s b l out v (HM & Hmax & _). unfold get_memory_attributes.
  assert (V : forall st, v = N.land (ms_attrs st) MEMORY_ACCESS_MASK <-> (forall i, N.testbit v i = true <-> is_access_bit i /\ N.testbit (ms_attrs st) i = true)).
  { intros st. split.
    - intros -> i. rewrite N.land_spec, andb_true_iff, access_mask_bits. tauto.
    - intros H. apply N.bits_inj. intros i. rewrite N.land_spec. specialize (H i). rewrite <- access_mask_bits in H.
      destruct (N.testbit v i), (N.testbit (ms_attrs st) i), (N.testbit MEMORY_ACCESS_MASK i); cbn; intuition congruence. }
  destruct (misaligned b l) eqn:M.
  { split; [discriminate|]. intros (_ & A & B & _). assert (misaligned b l = false) by (apply misaligned_spec; auto). congruence. }
  apply misaligned_spec in M. destruct out; cbn [negb]; [|split; [discriminate|intros (X & _); discriminate]].
  destruct (descriptor_end (sp_gcd s) b HM Hmax) as (d & GD & _). rewrite GD.
  destruct ((negb (b_base d =? b)) || negb (b_len d =? l)) eqn:C.
  - split; [discriminate|]. intros (_ & _ & _ & st & ST & _). apply (get_stretch s b l st HM Hmax) in ST.
    destruct ST as (d' & GD' & <- & <- & _). assert (d' = d) by congruence. subst. rewrite !N.eqb_refl in C. discriminate.
  - apply orb_false_iff in C. destruct C as (C1 & C2). apply negb_false_iff, N.eqb_eq in C1, C2. split.
    + intros H. injection H as <-. split; [reflexivity|]. split; [apply M|]. split; [apply M|]. exists (b_st d). split; [|apply V; reflexivity].
      apply (get_stretch s b l (b_st d) HM Hmax). exists d. auto.
    + intros (_ & _ & _ & st & ST & HV). apply (get_stretch s b l st HM Hmax) in ST. destruct ST as (d' & GD' & _ & _ & E).
      assert (d' = d) by congruence. subst. apply V in HV. congruence.
Qed.

(** It never fails any other way than INVALID_PARAMETER, for unaligned ranges and a null pointer, and NO_MAPPING. *)
Theorem c63_get_errors : forall s base len out, spin_ok s ->
  (~ (out = true /\ page_aligned base /\ page_aligned len) -> get_memory_attributes s base len out = Done (StInvalidParameter, None)) /\
  (out = true /\ page_aligned base /\ page_aligned len -> (forall st, ~ stretch s base len st) -> get_memory_attributes s base len out = Done (StNoMapping, None)).
Proof.
  intros s b l out (HM & Hmax & _). unfold get_memory_attributes. split.
  - intros N. destruct (misaligned b l) eqn:M; [reflexivity|]. apply misaligned_spec in M. destruct out; [|reflexivity]. exfalso. apply N. tauto.
  - intros (-> & A & B) NS. assert (M : misaligned b l = false) by (apply misaligned_spec; auto). rewrite M. cbn [negb].
    destruct (descriptor_end (sp_gcd s) b HM Hmax) as (d & GD & _). rewrite GD.
    destruct ((negb (b_base d =? b)) || negb (b_len d =? l)) eqn:C; [reflexivity|exfalso].
    apply orb_false_iff in C. destruct C as (C1 & C2). apply negb_false_iff, N.eqb_eq in C1, C2.
    apply (NS (b_st d)), (get_stretch s b l (b_st d) HM Hmax). exists d. auto.
Qed.

(** So what was just set cannot always be read back: here one page is made read-only, the page before is in the same
    state, and GetMemoryAttributes on that page fails. *)
Theorem c63_get_after_set_refuted : forall dbg, exists s1 s2,
  set_memory_attributes (booted dbg) 0x100000 0x1000 0x20000 = (Done StSuccess, s1) /\
  set_memory_attributes s1 0x101000 0x1000 0x20000 = (Done StSuccess, s2) /\ sp_alarm s2 = false /\
  attrs_at s2 0x101000 = Some 0x24008 /\
  get_memory_attributes s2 0x101000 0x1000 true = Done (StNoMapping, None) /\
  get_memory_attributes s2 0x100000 0x2000 true = Done (StSuccess, Some 0x24000).
Proof. intros dbg. destruct dbg; do 2 eexists; repeat (split; [vm_compute; reflexivity|]); vm_compute; reflexivity. Qed.

(** Clearing the last access attribute of memory without cacheability attributes (here, an I/O range) reports success and
    changes the map, but not the page table: the page stays as it was mapped. *)
Theorem c63_clear_ignored_refuted : forall dbg, exists s',
  clear_memory_attributes (booted dbg) 0x400000 0x1000 0x4000 = (Done StSuccess, s') /\ sp_alarm s' = false /\
  attrs_at s' 0x400000 = Some 0 /\ pages s' [0x400] = [Some 0x4000] /\ ~ in_sync s'.
Proof.
  intros dbg. destruct dbg; eexists; (split; [vm_compute; reflexivity|]); (split; [vm_compute; reflexivity|]); (split; [vm_compute; reflexivity|]);
    (split; [vm_compute; reflexivity|]); apply (disagrees _ 0x400000); vm_compute; reflexivity.
Qed.

(** A release build reports success where the memory map refused the change: here the range is no memory at all.  The map
    stays as it was and the page is mapped. *)
Theorem c63_refused_by_the_map_refuted : exists s',
  set_memory_attributes (booted false) 0x300000 0x1000 0x20000 = (Done StSuccess, s') /\ sp_alarm s' = true /\
  attrs_at s' 0x300000 = attrs_at (booted false) 0x300000 /\ pages (booted false) [0x300] = [None] /\ pages s' [0x300] = [Some 0x20000].
Proof. eexists. repeat (split; [vm_compute; reflexivity|]). vm_compute; reflexivity. Qed.

(** Where the page table refused it, UNSUPPORTED is returned and the range is as before. *)
Definition out_of_tables : spin :=
  let s := booted false in Spin (sp_gcd s) (sp_pt s) [Some PtOutOfResources] (sp_default s) (sp_notices s) (sp_alarm s).
Theorem c63_refused_by_the_page_table : exists s1 s2,
  set_memory_attributes out_of_tables 0x100000 0x1000 0x20000 = (Done StUnsupported, s1) /\
  attrs_at s1 0x100000 = attrs_at out_of_tables 0x100000 /\ pages s1 [0x100] = pages out_of_tables [0x100] /\
  clear_memory_attributes out_of_tables 0x100000 0x1000 0x4000 = (Done StUnsupported, s2) /\
  attrs_at s2 0x100000 = attrs_at out_of_tables 0x100000 /\ pages s2 [0x100] = pages out_of_tables [0x100].
Proof. do 2 eexists. repeat (split; [vm_compute; reflexivity|]). vm_compute; reflexivity. Qed.

(** Setting and clearing on the booted system: the hypotheses of the theorems above are met. *)
Example set_then_clear : forall dbg, exists s1 s2,
  set_memory_attributes (booted dbg) 0x100000 0x2000 0x20000 = (Done StSuccess, s1) /\ no_assertion (booted dbg) s1 /\
  clear_memory_attributes s1 0x101000 0x1000 0x4000 = (Done StSuccess, s2) /\ no_assertion s1 s2 /\
  map (attrs_at s2) [0xFF000; 0x100000; 0x101000; 0x102000] = [Some 0; Some 0x24008; Some 0x20008; Some 0x4008] /\
  pages s2 [0x100; 0x101; 0x102] = [Some 0x24008; Some 0x20008; Some 0x4008].
Proof. intros dbg. destruct dbg; do 2 eexists; repeat (split; [first [vm_compute; reflexivity|left; vm_compute; reflexivity]|]); vm_compute; reflexivity. Qed.

Example past_the_end_request : forall dbg, acceptable (g_max (sp_gcd (booted dbg))) 0x1000 0x4000.
Proof. intros dbg. apply request_spec. destruct dbg; vm_compute; reflexivity. Qed.

(** ** C63: the page attributes of the component memory service *)

(** What is refused outright, and that it changes nothing. *)
Theorem c63_page_set_refused : forall s address pages acc cch,
  (pages = 0 -> set_page_attributes s address pages acc cch = (Done (Some MInvalidPageCount), s)) /\
  (pages <> 0 -> ~ page_aligned address -> set_page_attributes s address pages acc cch = (Done (Some MUnalignedAddress), s)) /\
  (pages <> 0 -> page_aligned address -> acc = ReadWriteExecute \/ cch = Some WriteProtect ->
   set_page_attributes s address pages acc cch = (Done (Some MUnsupportedAttributes), s)).
Proof.
  intros s a n acc cch. unfold set_page_attributes, page_aligned. split; [intros ->; reflexivity|]. split.
  - intros Hn Ha. destruct (N.eqb_spec n 0); [contradiction|]. destruct (N.eqb_spec (a mod UEFI_PAGE_SIZE) 0); [contradiction|reflexivity].
  - intros Hn Ha H. destruct (N.eqb_spec n 0); [contradiction|]. rewrite Ha. cbn [negb N.eqb].
    destruct H as [->| ->]; [reflexivity|]. destruct acc; reflexivity.
Qed.

Lemma umul_small : forall dbg a b, a * b < two64 -> umul dbg a b = Ok (a * b).
Proof. intros dbg a b H. unfold umul. destruct (N.ltb_spec (a * b) two64); [reflexivity|lia]. Qed.

(** Anything else, no assertion having failed, succeeds: every address of the pages is memory with the access asked for,
    the cacheability asked for or else the one it had, and nothing else changed; the page table follows. *)
Theorem c63_page_set : forall s address pages acc cch r s', spin_ok s -> address + pages * 4096 < 2 ^ 64 ->
  pages <> 0 -> page_aligned address -> acc <> ReadWriteExecute -> cch <> Some WriteProtect ->
  set_page_attributes s address pages acc cch = (Done r, s') -> no_assertion s s' ->
  r = None /\
  (exists f, rewritten s s' address (pages * 4096) f /\ forall a, set_as acc cch a (f a)) /\
  spin_ok s' /\ (in_sync s -> in_sync s').
Proof.
  intros s b n acc cch r s' WF Hb Hn Ha Hacc Hc H Q. pose proof WF as (HM & Hmax & _). apply spin_ok_wf in WF. change (2 ^ 64) with two64 in Hb.
  unfold set_page_attributes in H. destruct (N.eqb_spec n 0); [contradiction|]. unfold page_aligned in Ha. rewrite Ha in H. cbn [negb N.eqb] in H.
  change UEFI_PAGE_SIZE with 4096 in *. rewrite umul_small in H by lia.
  destruct (access_attributes acc) as [ab|] eqn:EA; [|destruct acc; try discriminate EA; congruence].
  assert (exists cb, (match cch, cb with Some c, Some b => cache_attributes c = Some b | None, None => True | _, _ => False end) /\
    (let (r0, s1) := walk_range s b (n * 4096) (page_attributes ab cb) in (walk_result r0, s1)) = (Done r, s')) as (cb & HC & W).
  { destruct cch as [c|]; [|exists None; auto]. destruct (cache_attributes c) as [cb|] eqn:EC; [exists (Some cb); auto|].
    destruct c; try discriminate EC. congruence. }
  destruct (walk_range s b (n * 4096) (page_attributes ab cb)) as [q s1] eqn:WR. injection W as R <-.
  destruct q as [w| |]; try discriminate R. assert (NP : Done w <> Crashed) by discriminate.
  pose proof (quiet _ _ _ _ _ _ HM Hmax WR NP Q) as A.
  destruct (walk_range_exact _ _ _ _ _ _ HM Hmax Hb WR A) as (-> & RW). injection R as <-.
  split; [reflexivity|]. split; [exists (page_attributes ab cb); split; [exact RW|intros a; apply page_attributes_spec; auto]|].
  assert (K : keeps s s1).
  { eapply walk_range_keeps; [exact WF| |exact WR|exact NP|exact A]. intros x st _ _. eapply page_paging; eauto. }
  destruct K as (K1 & _ & _ & _ & _ & K6). split; [apply spin_ok_wf, K1|]. intros Y x. apply K6, Y.
Qed.

(** Where the page table refuses, an error is returned and the pages are as before. *)
Theorem c63_page_refused_by_the_page_table : exists s1,
  set_page_attributes out_of_tables 0x100000 1 ReadOnly None = (Done (Some MInternalError), s1) /\
  attrs_at s1 0x100000 = attrs_at out_of_tables 0x100000 /\ pages s1 [0x100] = pages out_of_tables [0x100].
Proof. eexists. repeat (split; [vm_compute; reflexivity|]). vm_compute; reflexivity. Qed.

(** Reading succeeds exactly where all pages are in one state, and tells the access and cacheability they have; memory
    with no cacheability attribute, or more than one, reads as write-back. *)
Theorem c63_page_get : forall s address pages acc c, spin_ok s -> address + pages * 4096 < 2 ^ 64 ->
  get_page_attributes s address pages = Done (Ok (acc, c)) <->
  pages <> 0 /\ page_aligned address /\ exists st, (forall x, in_range address (pages * 4096) x -> at_addr s x = Some st) /\
    grants acc (ms_attrs st) /\
    (cached_as c (ms_attrs st) \/ ((forall k, ~ cached_as k (ms_attrs st)) /\ c = WriteBack)).
Proof.
  intros s b n acc c (HM & Hmax & _) Hb. change (2 ^ 64) with two64 in Hb. unfold get_page_attributes, page_aligned. change UEFI_PAGE_SIZE with 4096.
  destruct (N.eqb_spec n 0) as [Z|Z]; [split; [discriminate|tauto]|].
  destruct (N.eqb_spec (b mod 4096) 0) as [AL|AL]; cbn [negb]; [|split; [discriminate|tauto]].
  rewrite umul_small by lia. destruct (descriptor_end (sp_gcd s) b HM Hmax) as (d & GD & BE & DC). rewrite GD.
  rewrite !uadd_small by lia.
  assert (CC : forall k, (match caching_of (ms_attrs (b_st d)) with Some c => c | None => WriteBack end) = k <->
    (cached_as k (ms_attrs (b_st d)) \/ ((forall k, ~ cached_as k (ms_attrs (b_st d))) /\ k = WriteBack))).
  { intros k. destruct (caching_of (ms_attrs (b_st d))) as [k'|] eqn:E; split.
    - intros <-. left. apply caching_of_spec, E.
    - intros [X|(X & _)]; [apply caching_of_spec in X; congruence|]. exfalso. apply (X k'), caching_of_spec, E.
    - intros <-. right. split; [|reflexivity]. intros k X. apply caching_of_spec in X. congruence.
    - intros [X|(_ & X)]; [apply caching_of_spec in X; congruence|congruence]. }
  destruct (N.ltb_spec (b_base d + b_len d) (b + n * 4096)) as [LT|GE].
  - split; [discriminate|]. intros (_ & _ & st & U & _). exfalso.
    destruct DC as [((D1 & D2) & D3)|(D1 & D2)].
    + destruct (N.lt_ge_cases (b_base d + b_len d) (g_max (sp_gcd s))) as [Y|Y].
      * destruct (descriptor_at (sp_gcd s) b HM ltac:(lia) ltac:(lia)) as (d' & GD' & Hin & _ & _). assert (d' = d) by congruence. subst d'.
        destruct HM as (HT & HG & _). destruct (block_maximal _ _ _ _ HT HG Hin) as (_ & B2). apply (B2 Y).
        pose proof (U b ltac:(unfold in_range; lia)) as U1. pose proof (U (b_base d + b_len d) ltac:(unfold in_range; lia)) as U2.
        unfold at_addr, b_end in *. rewrite D2 in U1 by lia. congruence.
      * specialize (U (b_base d + b_len d) ltac:(unfold in_range; lia)). unfold at_addr in U. rewrite past_end in U; [discriminate|exact HM|lia].
    + specialize (U b ltac:(unfold in_range; lia)). unfold at_addr in U. rewrite past_end in U; [discriminate|exact HM|lia].
  - destruct DC as [((D1 & D2) & D3)|(D1 & D2)]; [|exfalso; lia].
    assert (U : forall x, in_range b (n * 4096) x -> at_addr s x = Some (b_st d)) by (intros x Hx; unfold at_addr, in_range in *; apply D2; lia).
    split.
    + intros H. injection H as <- <-. split; [exact Z|]. split; [exact AL|]. exists (b_st d). split; [exact U|]. split; [apply access_of_spec|apply CC; reflexivity].
    + intros (_ & _ & st & U' & G & C). assert (st = b_st d) by (specialize (U b ltac:(unfold in_range; lia)); specialize (U' b ltac:(unfold in_range; lia)); congruence).
      subst st. apply CC in C. rewrite C. rewrite (grants_unique _ _ _ G (access_of_spec _)). reflexivity.
Qed.

(** What was set is what is read, of any pages among them - when the read succeeds at all. *)
Theorem c63_page_get_after_set : forall s address pages acc k s' at' n acc' c', spin_ok s -> address + pages * 4096 < 2 ^ 64 ->
  set_page_attributes s address pages acc (Some k) = (Done None, s') -> no_assertion s s' ->
  address <= at' -> at' + n * 4096 <= address + pages * 4096 ->
  get_page_attributes s' at' n = Done (Ok (acc', c')) -> acc' = acc /\ c' = k.
Proof.
  intros s b n acc k s' b' m acc' c' WF Hb H Q L1 L2 G.
  assert (NZ : n <> 0). { intros ->. destruct (c63_page_set_refused s b 0 acc (Some k)) as (X & _). rewrite (X eq_refl) in H. discriminate. }
  assert (AL : page_aligned b). { unfold page_aligned. destruct (N.eq_dec (b mod UEFI_PAGE_SIZE) 0) as [E|E]; [exact E|exfalso]. destruct (c63_page_set_refused s b n acc (Some k)) as (_ & X & _). rewrite (X NZ E) in H. discriminate. }
  assert (NA : acc <> ReadWriteExecute). { intros ->. destruct (c63_page_set_refused s b n ReadWriteExecute (Some k)) as (_ & _ & X). rewrite X in H by auto. discriminate. }
  assert (NC : Some k <> Some WriteProtect). { intros E. destruct (c63_page_set_refused s b n acc (Some k)) as (_ & _ & X). rewrite X in H by auto. discriminate. }
  destruct (c63_page_set s b n acc (Some k) None s' WF Hb NZ AL NA NC H Q) as (_ & (f & (RW & _) & SA) & WF' & _).
  apply c63_page_get in G; [|exact WF'|lia]. destruct G as (MZ & _ & st & U & GR & CA).
  specialize (U b' ltac:(unfold in_range; lia)). destruct (RW b' ltac:(unfold in_range; lia)) as (st0 & _ & _ & E).
  assert (st = with_attrs st0 (f (ms_attrs st0))) by congruence. subst st. destruct (SA (ms_attrs st0)) as (S1 & S2 & _). cbn [with_attrs ms_attrs] in *.
  split; [eapply grants_unique; eauto|]. change (cached_as k (f (ms_attrs st0))) in S2.
  destruct CA as [CA|(CA & _)]; [|destruct (CA k S2)]. apply caching_of_spec in CA, S2. congruence.
Qed.

(** Pages with the same access and cacheability but in different states - here allocated and free - are inconsistent to
    the reader, although both were set to the same attributes by one call. *)
Theorem c63_page_get_refuted : forall dbg, exists s' : spin,
  set_page_attributes (booted dbg) 0x14F000 2 ReadWrite (Some WriteBack) = (Done None, s') /\ sp_alarm s' = false /\
  attrs_at s' 0x14F000 = Some 0x4008 /\ attrs_at s' 0x150000 = Some 0x4008 /\
  get_page_attributes s' 0x14F000 1 = Done (Ok (ReadWrite, WriteBack)) /\
  get_page_attributes s' 0x150000 1 = Done (Ok (ReadWrite, WriteBack)) /\
  get_page_attributes s' 0x14F000 2 = Done (Err MInconsistentRangeAttributes).
Proof. intros dbg. destruct dbg; eexists; repeat (split; [vm_compute; reflexivity|]); vm_compute; reflexivity. Qed.

Print Assumptions c63_set.
Print Assumptions c63_clear.
Print Assumptions c63_set_nothing_else.
Print Assumptions c63_get.
Print Assumptions c63_page_set.
Print Assumptions c63_page_get.
