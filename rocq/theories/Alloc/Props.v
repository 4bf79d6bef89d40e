(** C42 (pool) and C43 (pages): the theorems. *)
From Coq Require Import Permutation.
From Verif Require Import Base.Prelude Align.Model Align.Proofs Align.Main Gcd.Blocks Gcd.Model Gcd.Spec Gcd.BlockProofs Gcd.Proofs Gcd.AllocProofs Gcd.Main Gcd.Hist Gcd.Complete Gcd.Props Alloc.Model Alloc.Spec Alloc.Pool Alloc.Pages Alloc.Calls Alloc.System Alloc.History.
Local Open Scope N_scope.

Lemma tag_allocated : forall g x h, tag g x = Some (true, h) -> allocated_to g h x.
Proof.
  intros g x h H. unfold tag in H. unfold allocated_to. destruct (state_at (g_blocks g) x) as [s|]; [|discriminate]. cbn [option_map] in H.
  injection H as E1 E2. eauto.
Qed.

(** ** C42: everything held is apart, and in memory of its allocator *)

Theorem holdings_in_allocated_memory : forall dbg bits s L h, history dbg bits s L -> In h L ->
  exists a, In a (s_als s) /\ al_type a = type_of h /\
    (forall x, in_range (fst (extent h)) (snd (extent h)) x -> allocated_to (s_g s) (al_handle a) x) /\
    match h with
    | HBlock _ p size align => 0 < p /\ p mod align = 0 /\
        exists r, In r (al_heaps a) /\ hp_base r < p /\ p + size <= hp_base r + hp_len r
    | HBuffer _ b size => 24 < b /\ b mod 8 = 0 /\
        exists r, In r (al_heaps a) /\ hp_base r + 24 < b /\ b + size <= hp_base r + hp_len r
    | HRun _ b len => 0 < b /\ 0 < len /\ b + len <= 2 ^ bits /\ b mod al_gran a = 0 /\ len mod al_gran a = 0
    end.
Proof.
  intros dbg bits s L h HI H. apply history_inv in HI. destruct (i_type _ _ _ _ HI h H) as (a & Ha & ET). exists a. split; [exact Ha|]. split; [exact ET|].
  pose proof (i_runs _ _ _ _ HI a Ha) as R. pose proof (i_pool _ _ _ _ HI a Ha) as P.
  destruct h as [t p size align|t b size|t b len]; cbn [type_of extent fst snd] in *; subst t.
  - assert (B : In (p, size, align) (blocks_of (al_type a) L)) by (eapply in_blocks; [exact H|]; cbn [block_of]; now rewrite N.eqb_refl).
    destruct (block_loc _ _ _ _ _ _ _ _ R P B) as (B1 & B2 & (r & B3 & B4 & B5) & B6). split.
    + intros x Hx. apply tag_allocated, B6; unfold in_range in Hx; lia.
    + split; [lia|]. split; [exact B2|]. apply in_map_iff in B3. destruct B3 as (hp & <- & B3). exists hp. split; [exact B3|].
      unfold inside, region in *. cbn [fst snd] in *. lia.
  - destruct (block_loc _ _ _ _ _ _ _ _ R P (buffer_block _ _ _ _ H)) as (B1 & B2 & (r & B3 & B4 & B5) & B6). split.
    + intros x Hx. apply tag_allocated, B6; unfold in_range in Hx; lia.
    + split; [lia|]. split.
      * apply N.mod_divide in B2; [|discriminate]. destruct B2 as (c & B2). replace b with ((c + 3) * 8) by lia. apply N.mod_mul. discriminate.
      * apply in_map_iff in B3. destruct B3 as (hp & <- & B3). exists hp. split; [exact B3|]. unfold inside, region in *. cbn [fst snd] in *. lia.
  - destruct (run_owned _ _ _ _ _ _ _ HI Ha H) as (L0 & LB & T). split; [intros x Hx; apply tag_allocated, T, Hx|].
    pose proof (r_run _ _ _ _ (proj1 R)) as F. rewrite Forall_forall in F.
    destruct (F (b, len)) as (F1 & F2 & F3 & F4 & F5); [apply in_or_app; right; now apply run_held|]. cbn [fst snd] in *. auto.
Qed.
Print Assumptions holdings_in_allocated_memory.

Lemma flat_split : forall A B (f : A -> list B) l1 x l2 y l3 u v, f x = [u] -> f y = [v] ->
  flat_map f (l1 ++ x :: l2 ++ y :: l3) = flat_map f l1 ++ u :: flat_map f l2 ++ v :: flat_map f l3.
Proof. intros. rewrite flat_map_app. cbn [flat_map]. rewrite H, flat_map_app. cbn [flat_map]. now rewrite H0. Qed.
Lemma FOP_pick : forall A (R : A -> A -> Prop) l1 u l2 v l3, FOP R (l1 ++ u :: l2 ++ v :: l3) -> R u v.
Proof.
  intros A R l1 u l2 v l3 H. apply FOP_app in H. destruct H as (_ & H & _). apply FOP_cons in H. destruct H as (H & _). rewrite Forall_forall in H.
  apply H. apply in_or_app. right. left. reflexivity.
Qed.

Definition as_block (h : holding) : option (N * N * N) :=
  match h with HBlock _ p s al => Some (p, s, al) | HBuffer _ b s => Some (b - 24, 24 + s, 8) | HRun _ _ _ => None end.
Lemma as_block_of : forall h b, as_block h = Some b -> block_of (type_of h) h = [b] /\ extent h = (fst (fst b), snd (fst b)).
Proof. intros [t p s al|t b0 s|t b0 l] b H; inversion H; subst; cbn [block_of type_of extent fst snd]; rewrite N.eqb_refl; auto. Qed.

Lemma pair_disjoint : forall dbg bits s l1 h1 l2 h2 l3, sinv dbg bits s (l1 ++ h1 :: l2 ++ h2 :: l3) -> disjoint (extent h1) (extent h2).
Proof.
  intros dbg bits s l1 h1 l2 h2 l3 I. set (L := l1 ++ h1 :: l2 ++ h2 :: l3) in *.
  assert (H1 : In h1 L) by (apply in_or_app; right; left; reflexivity).
  assert (H2 : In h2 L) by (apply in_or_app; right; right; apply in_or_app; right; left; reflexivity).
  assert (OWN : forall h, In h L -> exists a, In a (s_als s) /\ al_type a = type_of h /\
     forall x, in_range (fst (extent h)) (snd (extent h)) x -> tag (s_g s) x = Some (true, al_handle a)).
  { intros h H. destruct (i_type _ _ _ _ I h H) as (a & Ha & ET). exists a. split; [exact Ha|]. split; [exact ET|].
    pose proof (i_runs _ _ _ _ I a Ha) as R. pose proof (i_pool _ _ _ _ I a Ha) as P. intros x Hx. destruct (as_block h) as [[[p sz] al]|] eqn:EB.
    - destruct (as_block_of _ _ EB) as (B1 & B2). rewrite B2 in Hx. cbn [fst snd] in Hx. rewrite <- ET in B1.
      destruct (block_loc _ _ _ _ _ _ _ _ R P (in_blocks _ _ _ _ H B1)) as (_ & _ & _ & T). unfold in_range in Hx. apply T; lia.
    - destruct h as [| |t b len]; try discriminate. cbn [type_of] in ET. subst t. destruct (run_owned _ _ _ _ _ _ _ I Ha H) as (_ & _ & T). now apply T. }
  destruct (OWN h1 H1) as (a1 & A1 & E1 & T1). destruct (OWN h2 H2) as (a2 & A2 & E2 & T2). intros x X1 X2.
  assert (EH : al_handle a1 = al_handle a2) by (specialize (T1 x X1); specialize (T2 x X2); congruence).
  assert (EA : a1 = a2) by (eapply NoDup_unique; [exact (i_handles _ _ _ _ I)|exact A1|exact A2|exact EH]). subst a2.
  pose proof (i_runs _ _ _ _ I a1 A1) as R. pose proof (i_pool _ _ _ _ I a1 A1) as P. pose proof (r_apart _ _ _ _ (proj1 R)) as RA.
  apply FOP_app in RA. destruct RA as (_ & RA & RX).
  destruct (as_block h1) as [b1|] eqn:B1, (as_block h2) as [b2|] eqn:B2.
  - destruct (as_block_of _ _ B1) as (C1 & C2). destruct (as_block_of _ _ B2) as (D1 & D2). rewrite <- E1 in C1. rewrite <- E2 in D1.
    pose proof (p_fits _ _ P) as PF. rewrite Forall_forall in PF. pose proof (PF _ (in_blocks _ _ _ _ H1 C1)) as F1. pose proof (PF _ (in_blocks _ _ _ _ H2 D1)) as F2.
    pose proof (pinv_chunks _ _ P (regions_ok _ _ _ _ R)) as C. unfold blocks_of, L in C. rewrite (flat_split _ _ _ _ _ _ _ _ _ _ C1 D1) in C.
    rewrite map_app in C. cbn [map] in C. rewrite map_app in C. cbn [map] in C. apply FOP_pick in C.
    destruct b1 as [[p1 s1] g1], b2 as [[p2 s2] g2]. destruct (fits_chunk _ _ _ F1) as (U1 & U2 & _). destruct (fits_chunk _ _ _ F2) as (V1 & V2 & _).
    rewrite C2 in X1. rewrite D2 in X2. clear - C U1 U2 V1 V2 X1 X2. unfold apart, in_range in *. cbn [fst snd] in *. lia.
  - destruct (as_block_of _ _ B1) as (C1 & C2). rewrite <- E1 in C1. destruct h2 as [| |t b len]; try discriminate. cbn [type_of extent fst snd] in *. subst t.
    destruct b1 as [[p1 s1] g1]. destruct (block_loc _ _ _ _ _ _ _ _ R P (in_blocks _ _ _ _ H1 C1)) as (_ & _ & (r & Q1 & Q2 & _) & _).
    specialize (RX r (b, len) Q1 (run_held _ _ _ _ H2)). rewrite C2 in X1. clear - RX Q2 X1 X2. unfold apart, inside, in_range in *. cbn [fst snd] in *. lia.
  - destruct (as_block_of _ _ B2) as (C1 & C2). rewrite <- E2 in C1. destruct h1 as [| |t b len]; try discriminate. cbn [type_of extent fst snd] in *. subst t.
    destruct b2 as [[p1 s1] g1]. destruct (block_loc _ _ _ _ _ _ _ _ R P (in_blocks _ _ _ _ H2 C1)) as (_ & _ & (r & Q1 & Q2 & _) & _).
    specialize (RX r (b, len) Q1 (run_held _ _ _ _ H1)). rewrite C2 in X2. clear - RX Q2 X1 X2. unfold apart, inside, in_range in *. cbn [fst snd] in *. lia.
  - destruct h1 as [| |t1 b1 n1]; try discriminate. destruct h2 as [| |t2 b2 n2]; try discriminate. cbn [type_of extent fst snd] in *. subst t1 t2.
    unfold held, L in RA. rewrite (flat_split _ _ _ _ _ _ _ _ (b1, n1) (b2, n2)) in RA by (cbn [held_of]; now rewrite N.eqb_refl).
    apply FOP_pick in RA. clear - RA X1 X2. unfold apart, in_range in *. cbn [fst snd] in *. lia.
Qed.

Theorem holdings_disjoint : forall dbg bits s L i j h1 h2, history dbg bits s L ->
  nth_error L i = Some h1 -> nth_error L j = Some h2 -> i <> j -> disjoint (extent h1) (extent h2).
Proof.
  assert (W : forall dbg bits s L i j h1 h2, sinv dbg bits s L -> nth_error L i = Some h1 -> nth_error L j = Some h2 -> (i < j)%nat -> disjoint (extent h1) (extent h2)).
  { intros dbg bits s L i j h1 h2 I H1 H2 LT. apply nth_error_split in H1. destruct H1 as (l1 & l2 & -> & EL).
    rewrite nth_error_app2 in H2 by lia. destruct (j - length l1)%nat as [|k] eqn:EK; [lia|]. cbn [nth_error] in H2.
    apply nth_error_split in H2. destruct H2 as (l3 & l4 & -> & _). eapply pair_disjoint; eauto. }
  intros dbg bits s L i j h1 h2 H H1 H2 NE. apply history_inv in H. destruct (Nat.lt_trichotomy i j) as [LT|[EQ|GT]]; [eapply W; eauto|contradiction|].
  intros x X1 X2. eapply (W dbg bits s L j i h2 h1); eauto.
Qed.
Print Assumptions holdings_disjoint.

(** ** C42: freeing *)

(** A live buffer is freed, whatever the compiler's order of the header. *)
Theorem live_buffer_is_freed : forall dbg bits s L ty b size front, history dbg bits s L -> In (HBuffer ty b size) L ->
  exists s', sys_step dbg s (SFreePool b front) = (Done, s') /\ s_g s' = s_g s /\
             Permutation L (HBuffer ty b size :: record s (SFreePool b front) Done L).
Proof.
  intros dbg bits s L ty b size front H HB. apply history_inv in H. destruct (free_own_buffer _ _ _ _ _ _ _ front H HB) as (s' & E & _).
  exists s'. split; [exact E|]. split.
  - cbn [sys_step] in E. destruct (core_free_pool dbg front (s_als s) (s_m s) b) as [[r l'] m']. inversion E. reflexivity.
  - cbn [record]. eapply dropped_buffer; eauto.
Qed.
Print Assumptions live_buffer_is_freed.

(** A live block of the core is given back. *)
Theorem live_block_is_given_back : forall dbg bits s L ty p size align, history dbg bits s L -> In (HBlock ty p size align) L ->
  exists s', sys_step dbg s (SDealloc ty p size align) = (Done, s').
Proof.
  intros dbg bits s L ty p size align H HB. apply history_inv in H. destruct (holding_alloc _ _ _ _ _ H HB) as (pre & a & post & EL & ET & NT). cbn [type_of] in *.
  assert (Ha : In a (s_als s)) by (rewrite EL; apply in_mid; auto).
  pose proof (i_runs _ _ _ _ H a Ha) as R. pose proof (i_pool _ _ _ _ H a Ha) as P.
  assert (B : In (p, size, align) (blocks_of (al_type a) L)) by (eapply in_blocks; [exact HB|]; cbn [block_of]; now rewrite ET, N.eqb_refl).
  apply in_split in B. destruct B as (b1 & b2 & EB). rewrite EB in P.
  destruct (dealloc_ok a p size align (b1 ++ b2)) as (a' & D & _); [eapply pinv_perm; [apply Permutation_sym, Permutation_middle|exact P]|eapply regions_ok; exact R|].
  assert (WA : forall l, (forall a2, In a2 l -> al_type a2 <> ty) -> with_alloc (l ++ a :: post) ty
     (fun a => match dealloc a p size align with Some a' => (true, a') | None => (false, a) end) = Some (true, l ++ a' :: post)).
  { induction l as [|c l IH]; intros HN; cbn [app with_alloc].
    - rewrite ET, N.eqb_refl, D. reflexivity.
    - destruct (N.eqb_spec (al_type c) ty); [exfalso; eapply HN; [left; reflexivity|exact e]|]. rewrite IH by (intros; apply HN; right; assumption). reflexivity. }
  cbn [sys_step]. rewrite EL, WA by (intros; apply NT; apply in_or_app; auto). eauto.
Qed.
Print Assumptions live_block_is_given_back.

(** A buffer whose header has no signature, or a type nobody allocates, is rejected and nothing changes; a debug build
    may stop instead. *)
Theorem foreign_buffer_rejected : forall dbg s b front, word b ->
  let h := s_m s ((b + (2 ^ 64 - 24)) mod 2 ^ 64) in
  b = 0 \/ hd_sig h <> POOL_SIG \/ (forall a, In a (s_als s) -> al_type a <> hd_type h) ->
  (sys_step dbg s (SFreePool b front) = (Failed InvalidParameter, s)) \/
  (dbg = true /\ fst (sys_step dbg s (SFreePool b front)) = Crashed).
Proof.
  intros dbg [g m l] b front W h H. cbn [sys_step s_g s_m s_als] in *. unfold core_free_pool. destruct (N.eqb_spec b 0); [left; reflexivity|].
  destruct H as [H|H]; [contradiction|].
  destruct (free_pool_rejects dbg front l m b W H) as [(l' & m' & F & D)|F]; rewrite F; [right; auto|left; reflexivity].
Qed.
Print Assumptions foreign_buffer_rejected.

(** ** C42: reuse *)
Lemma give_back_in : forall gr b pages L t q sz, In (HBuffer t q sz) (give_back gr b pages L) -> In (HBuffer t q sz) L.
Proof.
  induction L as [|h L IH]; intros t q sz; [auto|]. destruct h as [t1 p1 s1 al1|t1 b1 s1|t1 v1 l1]; cbn [give_back];
    try (intros [X|X]; [left; exact X|right; eauto]).
  destruct (_ && _).
  - intros X. right. apply in_app_or in X. destruct X as [X|X]; [destruct (_ <? _); [destruct X as [X|[]]; discriminate|destruct X]|].
    apply in_app_or in X. destruct X as [X|X]; [destruct (_ <? _); [destruct X as [X|[]]; discriminate|destruct X]|exact X].
  - intros [X|X]; [discriminate|right; eauto].
Qed.

Lemma buffer_type_accepted : forall dbg bits s L ty b size, history dbg bits s L -> In (HBuffer ty b size) L -> rejected ty = false.
Proof.
  intros dbg bits s L ty b size H. revert ty b size. induction H as [|s L o out s' H IH E NC P]; intros ty b size HB; [destruct HB|].
  destruct o; cbn [record] in HB; try (eapply IH; exact HB).
  - destruct out; try (eapply IH; exact HB). destruct HB as [HB|HB]; [discriminate|eapply IH; exact HB].
  - destruct out; try (eapply IH; exact HB). eapply IH. eapply drop_first_in; exact HB.
  - destruct out; try (eapply IH; exact HB). destruct HB as [HB|HB]; [|eapply IH; exact HB]. injection HB as -> -> ->.
    cbn [sys_step] in E. destruct (rejected ty); [discriminate|reflexivity].
  - destruct out; try (eapply IH; exact HB). eapply IH. eapply drop_first_in; exact HB.
  - destruct out; try (eapply IH; exact HB). destruct HB as [HB|HB]; [discriminate|eapply IH; exact HB].
  - destruct out; try (eapply IH; exact HB). eapply IH. eapply give_back_in; exact HB.
Qed.

Lemma with_alloc_at : forall X pre a post ty (f : alloc -> X * alloc), al_type a = ty -> (forall a2, In a2 pre -> al_type a2 <> ty) ->
  with_alloc (pre ++ a :: post) ty f = Some (fst (f a), pre ++ snd (f a) :: post).
Proof.
  intros X pre a post ty f E. induction pre as [|c l IH]; intros HN; cbn [app with_alloc].
  - rewrite E, N.eqb_refl. now destruct (f a).
  - destruct (N.eqb_spec (al_type c) ty); [exfalso; eapply HN; [left; reflexivity|assumption]|]. rewrite IH by (intros; apply HN; right; assumption). reflexivity.
Qed.

(** The state after a live buffer was freed. *)
Lemma free_own_step : forall dbg bits s L ty b size front, sinv dbg bits s L -> In (HBuffer ty b size) L ->
  exists pre a post a1, s_als s = pre ++ a :: post /\ In a (s_als s) /\ al_type a = ty /\ (forall a2, In a2 (pre ++ post) -> al_type a2 <> ty) /\ 64 <= b - 24 /\
    dealloc a (b - 24) (24 + size) 8 = Some a1 /\ al_type a1 = ty /\ In (b - 24, 24 + size, 8) (blocks_of (al_type a) L) /\
    sys_step dbg s (SFreePool b front) = (Done, Sys (s_g s) (put_header (s_m s) (b - 24) (after_free front a (Hdr POOL_SIG ty (24 + size) 8))) (pre ++ a1 :: post)).
Proof.
  intros dbg bits s L ty b size front I H. destruct (holding_alloc _ _ _ _ _ I H) as (pre & a & post & EL & ET & NT). cbn [type_of] in *.
  assert (Ha : In a (s_als s)) by (rewrite EL; apply in_mid; auto).
  pose proof (i_runs _ _ _ _ I a Ha) as RA. pose proof (i_pool _ _ _ _ I a Ha) as PA.
  pose proof (buffer_block _ _ _ _ H) as BB. rewrite <- ET in BB. destruct (block_loc _ _ _ _ _ _ _ _ RA PA BB) as (B1 & _).
  assert (U : usub (E := efi_error) dbg b HEADER = Ok (b - 24)) by (unfold usub, HEADER; destruct (N.leb_spec 24 b); [reflexivity|lia]).
  pose proof (i_header _ _ _ _ I _ H) as HH. cbn [header_ok] in HH.
  pose proof BB as BB0. apply in_split in BB. destruct BB as (b1 & b2 & EB). rewrite EB in PA.
  destruct (dealloc_ok a (b - 24) (24 + size) 8 (b1 ++ b2)) as (a1 & D & D2 & D3 & D4);
    [eapply pinv_perm; [apply Permutation_sym, Permutation_middle|exact PA]|eapply regions_ok; exact RA|].
  exists pre, a, post, a1. split; [exact EL|]. split; [exact Ha|]. split; [exact ET|]. split; [exact NT|]. split; [exact B1|]. split; [exact D|].
  split; [rewrite D4; exact ET|]. split; [exact BB0|].
  cbn [sys_step]. unfold core_free_pool. destruct (N.eqb_spec b 0); [lia|]. rewrite EL.
  rewrite (free_pool_skips dbg front pre (s_m s) b (b - 24) U); [|now rewrite HH|].
  - cbn [try_free_pool]. unfold free_pool. rewrite U, HH. cbn [hd_sig hd_type hd_size hd_align]. rewrite N.eqb_refl. cbn [negb].
    rewrite ET, N.eqb_refl. cbn [negb]. destruct (N.eqb_spec (b - 24) 0); [lia|]. rewrite D. reflexivity.
  - intros a2 Ha2. rewrite HH. cbn [hd_type]. apply NT. apply in_or_app. auto.
Qed.

Lemma freed_place : forall hs p size hs', Forall heap_ok hs -> In (p, hsize size) (flat_map hp_used hs) -> regions_apart hs -> p mod 8 = 0 ->
  fallback_dealloc hs p size = Some hs' -> exists l1 h l2, hs' = l1 ++ h :: l2 /\ place_ok h p (hsize size) 8 = true.
Proof.
  induction hs as [|h t IH]; intros p size hs' HF HI RA M E; [destruct HI|].
  inversion HF as [|? ? (F1 & F2) H2]; subst. apply FOP_cons in RA. destruct RA as (R1 & R2). cbn [fallback_dealloc] in E.
  destruct (fallback_dealloc t p size) as [t'|] eqn:ET; [|discriminate].
  cbn [flat_map] in HI. apply in_app_or in HI. destruct HI as [HI|HI].
  - rewrite Forall_forall in F2. pose proof (F2 _ HI) as (B1 & B2 & B3). cbn [fst snd] in *.
    assert (IN : (bottom h <=? p) && (p <? top h) = true) by (rewrite andb_true_iff, N.leb_le, N.ltb_lt; lia). rewrite IN in E.
    destruct (remove_block (hp_used h) p (hsize size)) as [u|] eqn:EU; [|discriminate]. inversion E; subst.
    exists [], (Heap (hp_base h) (hp_len h) u), t'. split; [reflexivity|].
    pose proof (FOP_perm _ _ _ _ apart_sym (remove_block_perm _ _ _ _ EU) F1) as A. apply FOP_cons in A. destruct A as (A & _).
    unfold place_ok. rewrite !andb_true_iff. unfold bottom, top in *. cbn [hp_base hp_len hp_used]. rewrite N.leb_le, N.leb_le, N.eqb_eq.
    split; [split; [split; lia|exact M]|]. apply forallb_forall. intros w Hw. rewrite Forall_forall in A. specialize (A w Hw).
    unfold apart in A. unfold apart_from. cbn [fst snd] in A. rewrite orb_true_iff, !N.leb_le. lia.
  - destruct (IH p size t' H2 HI R2 M ET) as (l1 & h1 & l2 & -> & PL).
    destruct ((bottom h <=? p) && (p <? top h)).
    + destruct (remove_block _ _ _) as [u|]; [|discriminate]. inversion E; subst. exists (Heap (hp_base h) (hp_len h) u :: l1), h1, l2. auto.
    + inversion E; subst. exists (h :: l1), h1, l2. auto.
Qed.

Lemma first_heap_hits : forall l1 h l2 p size align j, place_ok h p (hsize size) align = true ->
  exists hs, first_heap (fun k => if (k =? j + length l1)%nat then Some p else None) j (l1 ++ h :: l2) size align = Some (p, hs).
Proof.
  induction l1 as [|h0 l1 IH]; intros h l2 p size align j PL; cbn [app first_heap length].
  - rewrite Nat.add_0_r, Nat.eqb_refl, PL. eauto.
  - destruct (Nat.eqb_spec j (j + S (length l1))); [lia|]. destruct (IH h l2 p size align (S j) PL) as (hs & E).
    replace (S j + length l1)%nat with (j + S (length l1))%nat in E by lia. rewrite E. eauto.
Qed.

(** A freed buffer can be handed out again: a small one is, by the next request of that size, a large one if the heap
    chooses its place. *)
Theorem freed_buffer_is_reusable : forall dbg bits s L ty b size front s', history dbg bits s L -> In (HBuffer ty b size) L ->
  pad (24 + size) 8 < 2 ^ 63 ->
  sys_step dbg s (SFreePool b front) = (Done, s') ->
  (exists ch, fst (sys_step dbg s' (SPool ty size ch)) = Value b 0) /\
  (24 + size <= 4096 -> forall ch, fst (sys_step dbg s' (SPool ty size ch)) = Value b 0).
Proof.
  intros dbg bits s L ty b size front s' HI H SZ E. pose proof (buffer_type_accepted _ _ _ _ _ _ _ HI H) as RJ. apply history_inv in HI.
  destruct (free_own_step _ _ _ _ _ _ _ front HI H) as (pre & a & post & a1 & EL & Ha & ET & NT & B1 & D & ET1 & BB & EX). rewrite EX in E. apply pair_equal_spec in E. destruct E as (_ & <-). clear EX.
  assert (L1 : (ISIZE_MAX <? pad size 8) = false /\ (ISIZE_MAX <? pad (HEADER + size) 8) = false).
  { change ISIZE_MAX with (2 ^ 63 - 1). rewrite !N.ltb_ge. change HEADER with 24. assert (X : pad (24 + size) 8 = pad size 8 + 24).
    { unfold pad. replace (24 + size + 8 - 1) with (3 * 8 + (size + 8 - 1)) by lia. rewrite N.div_add_l by discriminate. lia. }
    set (q := pad size 8) in *. clearbody q. change (2 ^ 63) with 9223372036854775808 in *. lia. }
  destruct L1 as (L1 & L2).
  assert (CALL : forall ch a2, fsb_alloc (ch 0%nat) a1 (24 + size) 8 = Got (b - 24) a2 ->
    fst (sys_step dbg (Sys (s_g s) (put_header (s_m s) (b - 24) (after_free front a (Hdr POOL_SIG ty (24 + size) 8))) (pre ++ a1 :: post)) (SPool ty size ch)) = Value b 0).
  { intros ch a2 F. cbn [sys_step s_g s_m s_als]. rewrite RJ. rewrite with_alloc_at; [|exact ET1|intros; apply NT; apply in_or_app; auto].
    unfold allocate_pool. rewrite L1, L2. unfold allocate. change (HEADER + size) with (24 + size). rewrite F. cbn [fst snd value]. f_equal. unfold HEADER. lia. }
  unfold dealloc in D. destruct (list_index (24 + size) 8) as [i|] eqn:EI.
  - injection D as D. destruct (list_index_lt _ _ _ EI) as (LI & _ & _).
    pose proof (i_pool _ _ _ _ HI a Ha) as PA.
    assert (NI : nth i (al_lists a1) [] = (b - 24) :: nth i (al_lists a) []).
    { rewrite <- D. cbn [with_lists al_lists]. apply set_nth_same. rewrite (p_len _ _ PA). exact LI. }
    assert (G : forall ch : nat -> nat -> option N, exists a2, fsb_alloc (ch 0%nat) a1 (24 + size) 8 = Got (b - 24) a2).
    { intros ch. unfold fsb_alloc. rewrite EI, NI. eauto. }
    split; [exists (fun _ _ => None); destruct (G (fun _ _ => None)) as (a2 & G2); eapply CALL; exact G2|].
    intros _ ch. destruct (G ch) as (a2 & G2). eapply CALL; exact G2.
  - destruct (fallback_dealloc (al_heaps a) (b - 24) (24 + size)) as [hs|] eqn:EF; [|discriminate]. injection D as D.
    pose proof (i_pool _ _ _ _ HI a Ha) as PA. pose proof (i_runs _ _ _ _ HI a Ha) as RA.
    destruct (freed_place (al_heaps a) (b - 24) (24 + size) hs) as (l1 & h & l2 & EH & PL).
    + exact (p_heaps _ _ PA).
    + eapply Permutation_in; [apply Permutation_sym; exact (p_perm _ _ PA)|]. apply in_or_app. right.
      apply in_map_iff. exists (b - 24, 24 + size, 8). split; [cbn [chunk_of]; now rewrite EI|exact BB].
    + eapply regions_ok; exact RA.
    + pose proof (p_fits _ _ PA) as PF. rewrite Forall_forall in PF. specialize (PF _ BB). now destruct (fits_chunk _ _ _ PF) as (_ & _ & X).
    + exact EF.
    + split.
      * destruct (first_heap_hits l1 h l2 (b - 24) (24 + size) 8 0%nat PL) as (hs2 & FH).
        exists (fun _ k => if (k =? 0 + length l1)%nat then Some (b - 24) else None). eapply CALL. unfold fsb_alloc. rewrite EI. unfold fallback_alloc.
        rewrite <- D. cbn [with_heaps al_heaps]. rewrite EH, FH. reflexivity.
      * intros SM. exfalso. unfold list_index in EI. apply position_none in EI. unfold BLOCK_SIZES in EI. rewrite Forall_forall in EI.
        specialize (EI 4096). cbn [In] in EI. specialize (EI ltac:(auto 15)). lia.
Qed.
Print Assumptions freed_buffer_is_reusable.

(** ** C42: freeing twice *)

(** Freeing a buffer a second time is rejected, if the compiler keeps the signature out of the first word of the header or
    the buffer has more than 104 bytes. *)
Theorem double_free_rejected_partial : forall dbg bits s L ty b size front front2 s', history dbg bits s L -> In (HBuffer ty b size) L ->
  front = false \/ 104 < size ->
  sys_step dbg s (SFreePool b front) = (Done, s') ->
  (sys_step dbg s' (SFreePool b front2) = (Failed InvalidParameter, s')) \/
  (dbg = true /\ fst (sys_step dbg s' (SFreePool b front2)) = Crashed).
Proof.
  intros dbg bits s L ty b size front front2 s' HI H C E. apply history_inv in HI.
  destruct (free_own_step _ _ _ _ _ _ _ front HI H) as (pre & a & post & a1 & EL & Ha & ET & NT & B1 & D & ET1 & BB & EX). rewrite EX in E. apply pair_equal_spec in E. destruct E as (_ & <-). clear EX.
  pose proof (i_pool _ _ _ _ HI a Ha) as PA. pose proof (i_runs _ _ _ _ HI a Ha) as RA.
  assert (W : word b).
  { destruct (block_loc _ _ _ _ _ _ _ _ RA PA BB) as (_ & _ & (r & Q1 & Q2 & _) & _). pose proof (r_run _ _ _ _ (proj1 RA)) as F. rewrite Forall_forall in F.
    destruct (F r) as (_ & _ & _ & _ & F5); [apply in_or_app; left; exact Q1|]. pose proof (pow_le_64 _ (r_bits _ _ _ _ (proj1 RA))) as HB2.
    unfold word, inside in *. cbn [fst snd] in *. clear - Q2 F5 HB2 B1. change two64 with (2 * 2 ^ 63). change (2 ^ 63) with 9223372036854775808 in *.
    set (u := 2 ^ bits) in *. clearbody u. lia. }
  apply foreign_buffer_rejected; [exact W|]. right. left. cbv beta iota zeta delta [s_m].
  assert (EA : (b + (2 ^ 64 - 24)) mod 2 ^ 64 = b - 24).
  { change (2 ^ 64) with two64 in *. unfold word in W. replace (b + (two64 - 24)) with (b - 24 + 1 * two64) by (unfold two64 in *; lia).
    rewrite N.mod_add by discriminate. apply N.mod_small. lia. }
  rewrite EA. unfold put_header. rewrite N.eqb_refl. assert (SE : 24 + size = size + 24) by lia. revert SE BB D. generalize (24 + size). intros sz SE BB D.
  unfold after_free. cbn [hd_size hd_align]. destruct (list_index sz 8) as [i|] eqn:EI; [|intros X; discriminate X].
  destruct front; [|intros X; discriminate X]. destruct C as [C|C]; [discriminate|]. cbn [hd_sig].
  destruct (list_index_lt _ _ _ EI) as (LI & LS & _).
  assert (BS : exists c, nth i BLOCK_SIZES 0 = c * 256).
  { rewrite block_pow2 in * by exact LI. assert (128 < 2 ^ (3 + N.of_nat i)) by lia. change 128 with (2 ^ 7) in *. apply N.pow_lt_mono_r_iff in H0; [|lia].
    exists (2 ^ (3 + N.of_nat i - 8)). change 256 with (2 ^ 8). rewrite <- N.pow_add_r. f_equal. lia. }
  destruct BS as (c & BS). set (next := match nth i (al_lists a) [] with [] => 0 | q :: _ => q end).
  assert (NM : next mod 256 = 0).
  { unfold next. destruct (nth i (al_lists a) []) as [|q t] eqn:EN; [reflexivity|]. pose proof (p_free _ _ PA i q) as PF. rewrite EN in PF. specialize (PF (or_introl eq_refl)).
    rewrite BS in PF. apply N.mod_divide in PF; [|intros X; rewrite BS, X in LS; clear - LS SE C; lia]. destruct PF as (d & ->). rewrite N.mul_assoc. apply N.mod_mul. discriminate. }
  intros EQ. assert (X : (next mod two32) mod 256 = POOL_SIG mod 256) by (rewrite EQ; reflexivity).
  change two32 with (256 * 16777216) in X. rewrite N.mod_mul_r in X by discriminate. rewrite NM in X.
  rewrite N.add_0_l, N.mul_comm, N.mod_mul in X by discriminate. discriminate.
Qed.
Print Assumptions double_free_rejected_partial.
