(** All allocators together: every history keeps the invariant. *)
From Coq Require Import Permutation.
From Verif Require Import Base.Prelude Align.Model Align.Proofs Align.Main Gcd.Blocks Gcd.Model Gcd.Spec Gcd.BlockProofs Gcd.Proofs Gcd.AllocProofs Gcd.Main Gcd.Hist Gcd.Complete Gcd.Props Alloc.Model Alloc.Spec Alloc.Pool Alloc.Pages Alloc.Calls.
Local Open Scope N_scope.

Definition held_of (ty : N) (h : holding) : list (N * N) := match h with HRun t b l => if t =? ty then [(b, l)] else [] | _ => [] end.
Definition held (ty : N) (L : ledger) : list (N * N) := flat_map (held_of ty) L.
Definition block_of (ty : N) (h : holding) : list (N * N * N) :=
  match h with
  | HBlock t p s al => if t =? ty then [(p, s, al)] else []
  | HBuffer t b s => if t =? ty then [(b - 24, 24 + s, 8)] else []
  | _ => []
  end.
Definition blocks_of (ty : N) (L : ledger) : list (N * N * N) := flat_map (block_of ty) L.
Definition runs (a : alloc) (L : ledger) : list (N * N) := map region (al_heaps a) ++ held (al_type a) L.

Definition header_ok (m : memory) (h : holding) : Prop :=
  match h with HBuffer ty b size => m (b - 24) = Hdr POOL_SIG ty (24 + size) 8 | _ => True end.

Record sinv (dbg : bool) (bits : N) (s : sys) (L : ledger) : Prop := {
  i_reach : reach dbg bits (s_g s);
  i_types : NoDup (map al_type (s_als s));
  i_handles : NoDup (map al_handle (s_als s));
  i_handle : forall a, In a (s_als s) -> al_handle a <> 0 /\ word (al_handle a);
  i_runs : forall a, In a (s_als s) -> rinv bits (s_g s) a (runs a L);
  i_pool : forall a, In a (s_als s) -> pinv a (blocks_of (al_type a) L);
  i_type : forall h, In h L -> exists a, In a (s_als s) /\ al_type a = type_of h;
  i_header : forall h, In h L -> header_ok (s_m s) h }.

Lemma NoDup_mid : forall A (f : alloc -> A) pre a post a2, NoDup (map f (pre ++ a :: post)) -> In a2 (pre ++ post) -> f a2 <> f a.
Proof.
  intros A f pre a post a2 H H2 E. rewrite map_app in H. cbn [map] in H. apply NoDup_remove_2 in H. apply H.
  rewrite <- map_app, <- E. now apply in_map.
Qed.
Lemma in_mid : forall A (x a : A) pre post, In x (pre ++ a :: post) <-> x = a \/ In x (pre ++ post).
Proof. intros. rewrite !in_app_iff. cbn [In]. split; intuition congruence. Qed.
Lemma map_mid : forall A (f : alloc -> A) pre a a' post, f a' = f a -> map f (pre ++ a' :: post) = map f (pre ++ a :: post).
Proof. intros. rewrite !map_app. cbn [map]. now rewrite H. Qed.

Lemma NoDup_unique : forall A (f : alloc -> A) l a1 a2, NoDup (map f l) -> In a1 l -> In a2 l -> f a1 = f a2 -> a1 = a2.
Proof.
  intros A f l a1 a2 H H1 H2 E. apply in_split in H1. destruct H1 as (pre & post & ->). apply in_mid in H2. destruct H2 as [->|H2]; [reflexivity|].
  exfalso. eapply NoDup_mid; eauto.
Qed.

Lemma NoDup_app_comm_cons : forall A (l : list A) x, NoDup l -> ~ In x l -> NoDup (l ++ [x]).
Proof. intros A l x H1 H2. apply NoDup_rev in H1. rewrite <- (rev_involutive (l ++ [x])), rev_unit. apply NoDup_rev. constructor; [rewrite <- in_rev; exact H2|exact H1]. Qed.

Lemma sinv_update : forall dbg bits g m pre a post L g' m' a' L',
  sinv dbg bits (Sys g m (pre ++ a :: post)) L ->
  reach dbg bits g' -> same_id a a' ->
  rinv bits g' a' (runs a' L') -> pinv a' (blocks_of (al_type a) L') ->
  (forall a2, In a2 (pre ++ post) -> keeps g g' (al_handle a2)) ->
  (forall ty, ty <> al_type a -> Permutation (held ty L) (held ty L') /\ Permutation (blocks_of ty L) (blocks_of ty L')) ->
  (forall h, In h L' -> In h L \/ type_of h = al_type a) ->
  (forall h, In h L' -> header_ok m' h) ->
  sinv dbg bits (Sys g' m' (pre ++ a' :: post)) L'.
Proof.
  intros dbg bits g m pre a post L g' m' a' L' I R (S1 & S2 & S3) RI PI K PM TY HD. destruct I. cbn [s_g s_m s_als] in *.
  constructor; cbn [s_g s_m s_als]; auto.
  - now rewrite (map_mid _ al_type _ a).
  - now rewrite (map_mid _ al_handle _ a).
  - intros x Hx. apply in_mid in Hx. destruct Hx as [->|Hx]; [rewrite S2; apply i_handle0; apply in_mid; auto|]. apply i_handle0. apply in_mid. auto.
  - intros x Hx. apply in_mid in Hx. destruct Hx as [->|Hx]; [exact RI|]. assert (Hx' : In x (pre ++ a :: post)) by (apply in_mid; auto).
    pose proof (i_runs0 x Hx') as (Q1 & Q2). pose proof (NoDup_mid _ al_type _ _ _ _ i_types0 Hx) as NT.
    destruct (PM _ NT) as (P1 & _). apply (rinv_perm bits g' x (runs x L)).
    + unfold runs. now apply Permutation_app_head.
    + split; [|exact Q2]. eapply rinv0_keeps; [|exact Q1]. auto.
  - intros x Hx. apply in_mid in Hx. destruct Hx as [->|Hx]; [rewrite S1; exact PI|]. assert (Hx' : In x (pre ++ a :: post)) by (apply in_mid; auto).
    pose proof (NoDup_mid _ al_type _ _ _ _ i_types0 Hx) as NT. destruct (PM _ NT) as (_ & P2). eapply pinv_perm; [exact P2|auto].
  - intros h Hh. destruct (TY h Hh) as [Hl|Hl].
    + destruct (i_type0 h Hl) as (x & Hx & E). apply in_mid in Hx. destruct Hx as [->|Hx].
      * exists a'. split; [apply in_mid; auto|congruence].
      * exists x. split; [apply in_mid; auto|exact E].
    + exists a'. split; [apply in_mid; auto|congruence].
Qed.

Lemma with_alloc_spec : forall X l ty (f : alloc -> X * alloc) x l', with_alloc l ty f = Some (x, l') ->
  exists pre a post a', l = pre ++ a :: post /\ al_type a = ty /\ f a = (x, a') /\ l' = pre ++ a' :: post.
Proof.
  induction l as [|b l IH]; intros ty f x l' H; cbn [with_alloc] in H; [discriminate|].
  destruct (N.eqb_spec (al_type b) ty).
  - destruct (f b) as [y b'] eqn:E. inversion H; subst. exists [], b, l, b'. auto.
  - destruct (with_alloc l ty f) as [[y t]|] eqn:E; [|discriminate]. inversion H; subst.
    destruct (IH _ _ _ _ E) as (pre & a & post & a' & -> & E2 & E3 & ->). exists (b :: pre), a, post, a'. auto.
Qed.

(** ** The ledger *)
Lemma held_cons_other : forall h L ty, held_of ty h = [] -> held ty (h :: L) = held ty L.
Proof. intros. unfold held. cbn [flat_map]. now rewrite H. Qed.
Lemma blocks_cons_other : forall h L ty, block_of ty h = [] -> blocks_of ty (h :: L) = blocks_of ty L.
Proof. intros. unfold blocks_of. cbn [flat_map]. now rewrite H. Qed.
Lemma of_other_type : forall h ty, ty <> type_of h -> held_of ty h = [] /\ block_of ty h = [].
Proof.
  intros h ty H. destruct h; cbn [type_of held_of block_of] in *; destruct (N.eqb_spec ty0 ty); try congruence; auto.
Qed.
Lemma cons_other : forall h L ty, ty <> type_of h ->
  Permutation (held ty L) (held ty (h :: L)) /\ Permutation (blocks_of ty L) (blocks_of ty (h :: L)).
Proof.
  intros h L ty H. destruct (of_other_type h ty H) as (E1 & E2). rewrite held_cons_other, blocks_cons_other by assumption. auto.
Qed.
Lemma held_perm : forall ty L L', Permutation L L' -> Permutation (held ty L) (held ty L').
Proof. intros. unfold held. now apply Permutation_flat_map. Qed.
Lemma blocks_perm : forall ty L L', Permutation L L' -> Permutation (blocks_of ty L) (blocks_of ty L').
Proof. intros. unfold blocks_of. now apply Permutation_flat_map. Qed.

Lemma drop_first_perm : forall A (f : A -> bool) l x, In x l -> f x = true ->
  exists y, f y = true /\ In y l /\ Permutation l (y :: drop_first f l).
Proof.
  induction l as [|z l IH]; intros x Hx Hf; [destruct Hx|]. cbn [drop_first]. destruct (f z) eqn:E.
  - exists z. split; [exact E|]. split; [left; reflexivity|reflexivity].
  - destruct Hx as [->|Hx]; [congruence|]. destruct (IH x Hx Hf) as (y & Y1 & Y2 & Y3). exists y. split; [exact Y1|]. split; [right; exact Y2|].
    rewrite Y3 at 1. apply perm_swap.
Qed.
Lemma drop_first_none : forall A (f : A -> bool) l, (forall x, In x l -> f x = false) -> drop_first f l = l.
Proof. induction l as [|z l IH]; intros H; [reflexivity|]. cbn [drop_first]. rewrite H by (left; reflexivity). now rewrite IH by (intros; apply H; right; assumption). Qed.
Lemma drop_first_in : forall A (f : A -> bool) l x, In x (drop_first f l) -> In x l.
Proof.
  induction l as [|z l IH]; intros x H; [exact H|]. cbn [drop_first] in H. destruct (f z); [right; exact H|]. destruct H as [->|H]; [left; reflexivity|right; auto].
Qed.

(** Where a held block lies. *)
Lemma block_loc : forall bits g a H B p size align, rinv bits g a (map region (al_heaps a) ++ H) -> pinv a B -> In (p, size, align) B ->
  64 <= p /\ p mod align = 0 /\
  (exists r, In r (map region (al_heaps a)) /\ inside (p, size) r /\ fst r + 64 <= p) /\
  (forall x, p <= x -> x < p + N.max 1 size -> tag g x = Some (true, al_handle a)).
Proof.
  intros bits g a H B p size align (I & _) P Hb. destruct (pinv_in _ _ _ P Hb) as (h & H1 & H2 & H3 & H4).
  assert (F : fits (p, size, align)) by (pose proof (p_fits _ _ P) as F; rewrite Forall_forall in F; auto).
  destruct (fits_chunk _ _ _ F) as (C1 & C2 & C3). unfold inside, NODE, region in *. cbn [fst snd] in *. rewrite C1 in *.
  split; [lia|]. split; [exact C3|]. split.
  - exists (region h). split; [now apply in_map|]. unfold inside, region. cbn [fst snd]. lia.
  - intros x Hx1 Hx2. apply (r_owned _ _ _ _ I (region h) x); [apply in_or_app; left; now apply in_map|].
    unfold rin, in_range, region. cbn [fst snd]. lia.
Qed.

Lemma regions_ok : forall bits g a H, rinv bits g a (map region (al_heaps a) ++ H) -> regions_apart (al_heaps a).
Proof.
  intros bits g a H (I & _). pose proof (r_apart _ _ _ _ I) as A. apply FOP_app in A. destruct A as (A & _). unfold regions_apart.
  clear I. induction (al_heaps a) as [|h t IH]; [constructor|]. cbn [map] in A. apply FOP_cons in A. destruct A as (A1 & A2). apply FOP_cons.
  split; [|auto]. rewrite Forall_forall in *. intros y Hy. apply A1. now apply in_map.
Qed.

(** Two blocks of one allocator start at different addresses. *)
Lemma new_block_apart : forall a b B b2, pinv a (b :: B) -> regions_apart (al_heaps a) -> In b2 B -> apart (chunk_of b) (chunk_of b2).
Proof.
  intros a b B b2 P RA H. pose proof (pinv_chunks _ _ P RA) as C. cbn [map] in C. apply FOP_cons in C. destruct C as (C & _).
  rewrite Forall_forall in C. apply C. now apply in_map.
Qed.

Lemma apart_neq : forall u v, apart u v -> 0 < snd u -> 0 < snd v -> fst u <> fst v.
Proof. unfold apart. intros. lia. Qed.

Lemma chunk_fst : forall p s al, fst (chunk_of (p, s, al)) = p.
Proof. intros. cbn [chunk_of]. now destruct (list_index s al). Qed.
Lemma chunk_pos : forall b, 16 <= snd (chunk_of b).
Proof. intros [[p s] al]. cbn [chunk_of]. destruct (list_index s al); cbn [snd]; apply hsize_ge. Qed.

(** A block that an allocator has just handed out does not start at the header of another live buffer. *)
Lemma fresh_header : forall dbg bits g m pre a post L g' a' p size align ty b sz,
  sinv dbg bits (Sys g m (pre ++ a :: post)) L ->
  (forall a2, In a2 (pre ++ post) -> keeps g g' (al_handle a2)) -> same_id a a' ->
  rinv bits g' a' (map region (al_heaps a') ++ held (al_type a) L) ->
  pinv a' ((p, size, align) :: blocks_of (al_type a) L) ->
  In (HBuffer ty b sz) L -> b - 24 <> p.
Proof.
  intros dbg bits g m pre a post L g' a' p size align ty b sz I K (S1 & S2 & _) RI PI HB.
  destruct (i_type _ _ _ _ I _ HB) as (a2 & Ha2 & E2). cbn [s_als type_of] in Ha2, E2. apply in_mid in Ha2.
  destruct (block_loc _ _ _ _ _ _ _ _ RI PI (or_introl eq_refl)) as (_ & _ & _ & T). specialize (T p ltac:(lia) ltac:(lia)).
  assert (BB : In (b - 24, 24 + sz, 8) (blocks_of ty L)).
  { unfold blocks_of. apply in_flat_map. exists (HBuffer ty b sz). split; [exact HB|]. cbn [block_of]. rewrite N.eqb_refl. left. reflexivity. }
  destruct Ha2 as [->|Ha2].
  - rewrite <- E2 in BB. pose proof (new_block_apart _ _ _ _ PI (regions_ok _ _ _ _ RI) BB) as A. apply apart_neq in A.
    + rewrite !chunk_fst in A. congruence.
    + pose proof (chunk_pos (p, size, align)). lia.
    + pose proof (chunk_pos (b - 24, 24 + sz, 8)). lia.
  - assert (Ha2' : In a2 (pre ++ a :: post)) by (apply in_mid; auto).
    pose proof (i_runs _ _ _ _ I a2 Ha2') as R2. pose proof (i_pool _ _ _ _ I a2 Ha2') as P2. cbn [s_g] in R2. rewrite <- E2 in BB.
    destruct (block_loc _ _ _ _ _ _ _ _ R2 P2 BB) as (_ & _ & _ & T2). specialize (T2 (b - 24) ltac:(lia) ltac:(lia)).
    apply (K a2 Ha2) in T2. pose proof (NoDup_mid _ al_handle _ _ _ _ (i_handles _ _ _ _ I) Ha2) as NH. intros E. rewrite E in T2. congruence.
Qed.

Lemma took_keeps_all : forall dbg bits g m pre a post L g' k v len,
  sinv dbg bits (Sys g m (pre ++ a :: post)) L -> took bits g g' (al_handle a) k v len ->
  (forall a2, In a2 (pre ++ post) -> k <> al_handle a2) ->
  forall a2, In a2 (pre ++ post) -> keeps g g' (al_handle a2).
Proof.
  intros dbg bits g m pre a post L g' k v len I T K a2 Ha2. eapply took_keeps; [exact T|auto|].
  pose proof (NoDup_mid _ al_handle _ _ _ _ (i_handles _ _ _ _ I) Ha2). congruence.
Qed.
Lemma zero_or_own : forall dbg bits g m pre a post L k,
  sinv dbg bits (Sys g m (pre ++ a :: post)) L -> k = 0 \/ k = al_handle a -> forall a2, In a2 (pre ++ post) -> k <> al_handle a2.
Proof.
  intros dbg bits g m pre a post L k I [->| ->] a2 Ha2.
  - destruct (i_handle _ _ _ _ I a2) as (H & _); [cbn [s_als]; apply in_mid; auto|]. congruence.
  - pose proof (NoDup_mid _ al_handle _ _ _ _ (i_handles _ _ _ _ I) Ha2). congruence.
Qed.

Lemma pow63 : forall size align, power_of_two align -> round_up size align < 2 ^ 63 -> size <= ISIZE_MAX.
Proof.
  intros size align (k & ->) H. pose proof (pow2_pos k). pose proof (pad_ge size (2 ^ k) H0) as P. unfold pad in P. unfold round_up in H.
  assert (size < 2 ^ 63) by (eapply N.le_lt_trans; eauto). unfold ISIZE_MAX. change (two64 / 2 - 1) with (2 ^ 63 - 1).
  apply N.lt_le_pred in H1. rewrite N.sub_1_r. exact H1.
Qed.

Lemma in_blocks : forall h L ty b, In h L -> block_of ty h = [b] -> In b (blocks_of ty L).
Proof. intros h L ty b H E. unfold blocks_of. apply in_flat_map. exists h. split; [exact H|]. rewrite E. left. reflexivity. Qed.

Lemma value_some : forall r p y, value r = Value p y -> r = Ok p /\ y = 0.
Proof. intros [q|e|] p y H; inversion H; auto. Qed.

(** ** Each call *)
Lemma step_alloc : forall dbg bits s L ty size align ch out s',
  sinv dbg bits s L -> sys_step dbg s (SAlloc ty size align ch) = (out, s') -> out <> Crashed ->
  polite s L (SAlloc ty size align ch) out s' -> sinv dbg bits s' (record s (SAlloc ty size align ch) out L).
Proof.
  intros dbg bits [g m l] L ty size align ch out s' I E NC (P1 & P2). cbn [sys_step s_g s_m s_als] in E.
  destruct (with_alloc l ty _) as [[[r g'] l']|] eqn:EW; [|inversion E; subst; exact I].
  destruct (with_alloc_spec _ _ _ _ _ _ EW) as (pre & a & post & a' & -> & ET & EF & ->). cbv beta in EF.
  destruct (allocate dbg ch g a size align) as [[r0 g0] a0] eqn:EA. inversion EF; subst r0 g0 a0. inversion E; subst out s'.
  assert (Ha : In a (pre ++ a :: post)) by (apply in_mid; auto).
  destruct (i_handle _ _ _ _ I a Ha) as (H0 & HW).
  destruct (allocate_ok dbg bits ch g a size align r g' a' (held (al_type a) L) (blocks_of (al_type a) L)
             (i_reach _ _ _ _ I) (i_runs _ _ _ _ I a Ha) (i_pool _ _ _ _ I a Ha) H0 HW (conj P1 (pow63 _ _ P1 P2)) EA) as (S & R & RI & TK & PI).
  { intros ->. apply NC. reflexivity. }
  assert (K : forall a2, In a2 (pre ++ post) -> keeps g g' (al_handle a2)).
  { destruct TK as [->|(k & v & len & T & Hk)]; [intros; apply keeps_refl|]. eapply took_keeps_all; eauto. eapply zero_or_own; eauto. }
  destruct r as [p|e|]; cbn [value record].
  - eapply sinv_update with (L := L); [exact I|exact R|exact S| | |exact K| | |].
    + unfold runs. rewrite (proj1 S), held_cons_other by reflexivity. exact RI.
    + unfold blocks_of. cbn [flat_map block_of]. rewrite ET, N.eqb_refl. cbn [app]. rewrite <- ET. exact PI.
    + intros t Ht. apply cons_other. cbn [type_of]. congruence.
    + intros h [<-|Hh]; [right; cbn; congruence|left; exact Hh].
    + intros h [<-|Hh]; [exact Logic.I|apply (i_header _ _ _ _ I h Hh)].
  - eapply sinv_update with (L := L); [exact I|exact R|exact S| |exact PI|exact K|auto|auto|apply (i_header _ _ _ _ I)].
    unfold runs. rewrite (proj1 S). exact RI.
  - exfalso. apply NC. reflexivity.
Qed.

Lemma step_dealloc : forall dbg bits s L ty p size align out s',
  sinv dbg bits s L -> sys_step dbg s (SDealloc ty p size align) = (out, s') -> out <> Crashed ->
  polite s L (SDealloc ty p size align) out s' -> sinv dbg bits s' (record s (SDealloc ty p size align) out L).
Proof.
  intros dbg bits [g m l] L ty p size align out s' I E NC HL. cbn [polite] in HL. cbn [sys_step s_g s_m s_als] in E.
  destruct (with_alloc l ty _) as [[ok l']|] eqn:EW; [|inversion E; subst; exact I].
  destruct (with_alloc_spec _ _ _ _ _ _ EW) as (pre & a & post & a' & -> & ET & EF & ->). cbv beta in EF.
  assert (Ha : In a (pre ++ a :: post)) by (apply in_mid; auto).
  destruct (drop_first_perm _ (fun h => match h with HBlock t q s al => (t =? ty) && (q =? p) && (s =? size) && (al =? align) | _ => false end)
             L _ HL) as (y & Y1 & Y2 & Y3).
  { cbv beta. rewrite !N.eqb_refl. reflexivity. }
  assert (EY : y = HBlock ty p size align).
  { destruct y; try discriminate. rewrite !andb_true_iff, !N.eqb_eq in Y1. destruct Y1 as (((-> & ->) & ->) & ->). reflexivity. }
  subst y. set (L' := drop_first _ L) in *.
  pose proof (i_runs _ _ _ _ I a Ha) as RA. cbn [s_g] in RA.
  assert (PB : pinv a ((p, size, align) :: blocks_of (al_type a) L')).
  { eapply pinv_perm; [|apply (i_pool _ _ _ _ I a Ha)]. rewrite (blocks_perm _ _ _ Y3). unfold blocks_of. cbn [flat_map block_of].
    rewrite ET, N.eqb_refl. reflexivity. }
  destruct (dealloc_ok _ _ _ _ _ PB (regions_ok _ _ _ _ RA)) as (a1 & D1 & D2 & D3 & D4). rewrite D1 in EF. inversion EF; subst ok a1.
  inversion E; subst out s'. cbn [record]. fold L'. destruct (fsb_same_pages _ _ D4) as (S1 & S2 & S3 & _).
  eapply sinv_update with (L := L); [exact I|exact (i_reach _ _ _ _ I)|exact S2| |exact D2| | | |].
  - unfold runs. rewrite (proj1 S2), D3. eapply rinv_same; [exact S1|exact S3|]. eapply rinv_perm; [|exact RA]. apply Permutation_app_head.
    rewrite (held_perm _ _ _ Y3). now rewrite held_cons_other.
  - intros. apply keeps_refl.
  - intros t Ht. rewrite (held_perm _ _ _ Y3), (blocks_perm _ _ _ Y3). destruct (cons_other (HBlock ty p size align) L' t) as (C1 & C2); [cbn; congruence|].
    split; apply Permutation_sym; assumption.
  - intros h Hh. left. eapply drop_first_in; exact Hh.
  - intros h Hh. apply (i_header _ _ _ _ I). eapply drop_first_in; exact Hh.
Qed.

Lemma step_pool : forall dbg bits s L ty size ch out s',
  sinv dbg bits s L -> sys_step dbg s (SPool ty size ch) = (out, s') -> out <> Crashed ->
  polite s L (SPool ty size ch) out s' -> sinv dbg bits s' (record s (SPool ty size ch) out L).
Proof.
  intros dbg bits [g m l] L ty size ch out s' I E NC _. cbn [sys_step s_g s_m s_als] in E.
  destruct (rejected ty); [inversion E; subst; exact I|].
  destruct (with_alloc l ty _) as [[[[r g'] m'] l']|] eqn:EW; [|inversion E; subst; exact I].
  destruct (with_alloc_spec _ _ _ _ _ _ EW) as (pre & a & post & a' & -> & ET & EF & ->). cbv beta in EF.
  destruct (allocate_pool dbg ch g a m size) as [[[r0 g0] a0] m0] eqn:EA. inversion EF; subst r0 g0 a0 m0. inversion E; subst out s'.
  assert (Ha : In a (pre ++ a :: post)) by (apply in_mid; auto).
  destruct (i_handle _ _ _ _ I a Ha) as (H0 & HW). unfold allocate_pool in EA.
  assert (NP : r <> Panic) by (intros ->; apply NC; reflexivity).
  destruct (ISIZE_MAX <? pad size 8); [inversion EA; subst; contradiction|].
  destruct (N.ltb_spec ISIZE_MAX (pad (HEADER + size) 8)) as [|SZ]; [inversion EA; subst; contradiction|].
  destruct (allocate dbg ch g a (HEADER + size) 8) as [[r1 g1] a1] eqn:EB.
  assert (LY : layout (HEADER + size) 8).
  { split; [exists 3; reflexivity|]. pose proof (pad_ge (HEADER + size) 8 ltac:(lia)). eapply N.le_trans; eauto. }
  assert (NP1 : r1 <> Panic) by (intros ->; inversion EA; subst; contradiction).
  destruct (allocate_ok dbg bits ch g a (HEADER + size) 8 r1 g1 a1 (held (al_type a) L) (blocks_of (al_type a) L)
             (i_reach _ _ _ _ I) (i_runs _ _ _ _ I a Ha) (i_pool _ _ _ _ I a Ha) H0 HW LY EB NP1) as (S & R & RI & TK & PI).
  assert (K : forall a2, In a2 (pre ++ post) -> keeps g g1 (al_handle a2)).
  { destruct TK as [->|(k & v & len & T & Hk)]; [intros; apply keeps_refl|]. eapply took_keeps_all; eauto. eapply zero_or_own; eauto. }
  destruct r1 as [p|e|]; [| |contradiction]; inversion EA; subst r g' a' m'; cbn [value record].
  - assert (EP : p + HEADER - 24 = p) by (unfold HEADER; lia).
    eapply sinv_update with (L := L); [exact I|exact R|exact S| | |exact K| | |].
    + unfold runs. rewrite (proj1 S), held_cons_other by reflexivity. exact RI.
    + unfold blocks_of. cbn [flat_map block_of]. rewrite ET, N.eqb_refl. cbn [app]. rewrite EP. rewrite <- ET. exact PI.
    + intros t Ht. apply cons_other. cbn [type_of]. congruence.
    + intros h [<-|Hh]; [right; cbn; congruence|left; exact Hh].
    + intros h [<-|Hh].
      * cbn [header_ok]. rewrite EP. unfold put_header. rewrite N.eqb_refl. now rewrite ET.
      * pose proof (i_header _ _ _ _ I h Hh) as HH. cbn [s_m] in HH. destruct h as [| t b sz |]; cbn [header_ok] in *; auto.
        unfold put_header. destruct (N.eqb_spec (b - 24) p) as [EQ|]; [|exact HH]. exfalso. eapply fresh_header; eauto.
  - eapply sinv_update with (L := L); [exact I|exact R|exact S| |exact PI|exact K|auto|auto|apply (i_header _ _ _ _ I)].
    unfold runs. rewrite (proj1 S). exact RI.
Qed.

Lemma step_pages : forall dbg bits s L ty at_ pages alignment out s',
  sinv dbg bits s L -> sys_step dbg s (SPages ty at_ pages alignment) = (out, s') -> out <> Crashed ->
  polite s L (SPages ty at_ pages alignment) out s' -> sinv dbg bits s' (record s (SPages ty at_ pages alignment) out L).
Proof.
  intros dbg bits [g m l] L ty at_ pages alignment out s' I E NC (W1 & W2 & PO). cbn [sys_step s_g s_m s_als] in *.
  destruct (rejected ty); [inversion E; subst; exact I|].
  destruct (with_alloc l ty _) as [[[r g'] l']|] eqn:EW; [|inversion E; subst; exact I].
  destruct (with_alloc_spec _ _ _ _ _ _ EW) as (pre & a & post & a' & -> & ET & EF & ->). cbv beta in EF.
  destruct (allocate_pages dbg g a at_ pages alignment) as [[r0 g0] a0] eqn:EA. inversion EF; subst r0 g0 a0.
  assert (Ha : In a (pre ++ a :: post)) by (apply in_mid; auto).
  destruct (i_handle _ _ _ _ I a Ha) as (H0 & HW).
  destruct (allocate_pages_ok dbg bits g a at_ pages alignment r g' a' (runs a L)
             (i_reach _ _ _ _ I) (i_runs _ _ _ _ I a Ha) H0 HW W1 W2) as (S & R & S2 & S3 & TK & RI); auto.
  { destruct at_ as [[x|]|[x|]|x]; tauto. }
  { intros ->. inversion E; subst. contradiction. }
  assert (K : forall a2, In a2 (pre ++ post) -> keeps g g' (al_handle a2)).
  { destruct TK as [->|(k & v & len & T & Hk)]; [intros; apply keeps_refl|]. eapply took_keeps_all; eauto.
    destruct at_ as [[x|]|[x|]|x]; try (eapply zero_or_own; eauto; fail). subst v. destruct PO as (_ & PO). intros a2 Ha2 ->.
    apply (PO a2); [apply in_mid; auto| |].
    - rewrite <- ET. eapply NoDup_mid; eauto. exact (i_types _ _ _ _ I).
    - destruct T as (L0 & _ & T & _). destruct (T x) as (T1 & _); [unfold in_range; lia|]. unfold owner, tag in *.
      destruct (state_at (g_blocks g) x); [|discriminate]. cbn [option_map] in *. congruence. }
  destruct r as [[base len]|e|]; inversion E; subst out s'; cbn [record].
  - destruct RI as (RI & _).
    eapply sinv_update with (L := L); [exact I|exact R|exact S| | |exact K| | |].
    + unfold runs. rewrite (proj1 S), S3. unfold held. cbn [flat_map held_of]. rewrite ET, N.eqb_refl. cbn [app].
      eapply rinv_perm; [apply Permutation_middle|]. rewrite <- ET. exact RI.
    + eapply pinv_ext; [exact S2|exact S3|]. rewrite blocks_cons_other by reflexivity. exact (i_pool _ _ _ _ I a Ha).
    + intros t Ht. apply cons_other. cbn [type_of]. congruence.
    + intros h [<-|Hh]; [right; cbn; congruence|left; exact Hh].
    + intros h [<-|Hh]; [exact Logic.I|apply (i_header _ _ _ _ I h Hh)].
  - eapply sinv_update with (L := L); [exact I|exact R|exact S| | |exact K|auto|auto|apply (i_header _ _ _ _ I)].
    + unfold runs. rewrite (proj1 S), S3. exact RI.
    + eapply pinv_ext; [exact S2|exact S3|]. exact (i_pool _ _ _ _ I a Ha).
  - contradiction.
Qed.

Lemma step_reserve : forall dbg bits s L ty pages out s',
  sinv dbg bits s L -> sys_step dbg s (SReserve ty pages) = (out, s') -> out <> Crashed ->
  polite s L (SReserve ty pages) out s' -> sinv dbg bits s' (record s (SReserve ty pages) out L).
Proof.
  intros dbg bits [g m l] L ty pages out s' I E NC (W1 & PF). cbn [sys_step s_g s_m s_als] in *.
  destruct (with_alloc l ty _) as [[[r g'] l']|] eqn:EW; [|inversion E; subst; exact I].
  destruct (with_alloc_spec _ _ _ _ _ _ EW) as (pre & a & post & a' & -> & ET & EF & ->). cbv beta in EF.
  destruct (reserve_pages dbg g a pages) as [[r0 g0] a0] eqn:EA. inversion EF; subst r0 g0 a0. inversion E; subst out s'. cbn [s_g] in PF.
  assert (Ha : In a (pre ++ a :: post)) by (apply in_mid; auto).
  destruct (i_handle _ _ _ _ I a Ha) as (H0 & HW).
  destruct (reserve_pages_ok dbg bits g a pages r g' a' (runs a L)
             (i_reach _ _ _ _ I) (i_runs _ _ _ _ I a Ha) H0 HW W1 EA) as (S & S2 & S3 & R & RI & TK).
  { intros ->. apply NC. reflexivity. }
  { intros e ->. apply (PF e). reflexivity. }
  assert (K : forall a2, In a2 (pre ++ post) -> keeps g g' (al_handle a2)).
  { destruct TK as [->|(g1 & v & len & k & T & Hk & G)]; [intros; apply keeps_refl|]. intros a2 Ha2.
    assert (K1 : keeps g g1 (al_handle a2)) by (eapply took_keeps_all; eauto; eapply zero_or_own; eauto).
    assert (K2 : keeps g1 g' (al_handle a2)).
    { eapply gave_keeps; [exact G| |].
      - apply (i_handle _ _ _ _ I a2). cbn [s_als]. apply in_mid. auto.
      - pose proof (NoDup_mid _ al_handle _ _ _ _ (i_handles _ _ _ _ I) Ha2). congruence. }
    intros x f. rewrite (K1 x f). apply K2. }
  assert (RE : record (Sys g m (pre ++ a :: post)) (SReserve ty pages) (done r) L = L) by reflexivity. rewrite RE.
  eapply sinv_update with (L := L); [exact I|exact R|exact S| | |exact K|auto|auto|apply (i_header _ _ _ _ I)].
  - unfold runs. rewrite (proj1 S), S3. exact RI.
  - eapply pinv_ext; [exact S2|exact S3|]. exact (i_pool _ _ _ _ I a Ha).
Qed.

Lemma step_create : forall dbg bits s L ty handle gran out s',
  sinv dbg bits s L -> sys_step dbg s (SCreate ty handle gran) = (out, s') ->
  polite s L (SCreate ty handle gran) out s' -> sinv dbg bits s' (record s (SCreate ty handle gran) out L).
Proof.
  intros dbg bits [g m l] L ty handle gran out s' I E (W1 & W2 & W3 & W4 & (k & ->) & W6 & W7). cbn [sys_step s_g s_m s_als] in *.
  destruct (existsb (fun a => al_type a =? ty) l) eqn:EX; inversion E; subst; [exact I|]. cbn [record].
  assert (NT : ~ In ty (map al_type l)).
  { intros H. apply in_map_iff in H. destruct H as (a & E1 & H). assert (X : existsb (fun a => al_type a =? ty) l = true).
    { apply existsb_exists. exists a. split; [exact H|]. now apply N.eqb_eq. } congruence. }
  assert (NH : held ty L = [] /\ blocks_of ty L = []).
  { assert (F : forall h, In h L -> ty <> type_of h).
    { intros h Hh EH. destruct (i_type _ _ _ _ I h Hh) as (a & Ha & Ea). apply NT. rewrite EH, <- Ea. now apply in_map. }
    clear - F. induction L as [|h L IH]; [auto|]. destruct IH as (H1 & H2); [intros; apply F; right; assumption|].
    destruct (of_other_type h ty) as (O1 & O2); [apply F; left; reflexivity|]. unfold held, blocks_of in *. cbn [flat_map]. now rewrite O1, O2, H1, H2. }
  destruct NH as (NH1 & NH2). destruct I. cbn [s_g s_m s_als] in *. constructor; cbn [s_g s_m s_als]; auto.
  - rewrite map_app. cbn [map]. apply NoDup_app_comm_cons; auto.
  - rewrite map_app. cbn [map]. apply NoDup_app_comm_cons; auto. intros H. apply in_map_iff in H. destruct H as (a & E1 & H).
    apply W3. exists a. auto.
  - intros a Ha. apply in_app_or in Ha. destruct Ha as [Ha|[<-|[]]]; auto.
  - intros a Ha. apply in_app_or in Ha. destruct Ha as [Ha|[<-|[]]]; [auto|]. unfold runs. cbn [new_alloc al_heaps al_type map app]. rewrite NH1.
    split; [|reflexivity]. constructor; cbn [new_alloc al_gran al_handle al_range al_rsize al_rused al_claimed in_reserved]; try constructor; try (intros; contradiction).
    + destruct i_reach0 as ((n & p & ops & H & _) & _). exact H.
    + exists k. split; [reflexivity|]. change 4096 with (2 ^ 12) in W6. apply N.pow_le_mono_r_iff in W6; [|lia].
      unfold word in W7. change two64 with (2 ^ 64) in W7. apply N.pow_lt_mono_r_iff in W7; [|lia]. auto.
    + intros x Hx. discriminate.
    + intros x Hx. exfalso. apply (W4 x). unfold tag in Hx. destruct (state_at (g_blocks g) x) as [st|] eqn:ES; [|discriminate].
      exists st. cbn [option_map] in Hx. inversion Hx. auto.
  - intros a Ha. apply in_app_or in Ha. destruct Ha as [Ha|[<-|[]]]; [auto|]. cbn [new_alloc al_type]. rewrite NH2. apply pinv_new.
  - intros h Hh. destruct (i_type0 h Hh) as (a & Ha & Ea). exists a. split; [apply in_or_app; auto|exact Ea].
Qed.
