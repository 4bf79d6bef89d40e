(** The pool of one allocator: the heaps' blocks are exactly the free-listed and the live ones. *)
From Coq Require Import Permutation.
From Verif Require Import Base.Prelude Align.Model Align.Proofs Gcd.Blocks Gcd.Model Gcd.Spec Alloc.Model Alloc.Spec.
Local Open Scope N_scope.

Definition FOP {A} := @ForallOrdPairs A.

Lemma FOP_perm : forall A (R : A -> A -> Prop) l l', (forall x y, R x y -> R y x) -> Permutation l l' ->
  FOP R l -> FOP R l'.
Proof.
  intros A R l l' Sy P. induction P as [|x l l' P IHP|x y l|l l' l'' P1 IHP1 P2 IHP2]; intros H.
  - constructor.
  - inversion H as [|? ? H1 H2]; subst. constructor; [|apply IHP; exact H2]. apply Forall_forall. intros y Hy.
    rewrite Forall_forall in H1. apply H1. eapply Permutation_in; [apply Permutation_sym; exact P|exact Hy].
  - inversion H as [|? ? Hy H2]; subst. inversion H2 as [|? ? Hx H3]; subst. inversion Hy as [|? ? Hyx Hyl]; subst.
    constructor; [constructor; [auto|assumption]|constructor; assumption].
  - apply IHP2, IHP1, H.
Qed.

Lemma FOP_cons : forall A (R : A -> A -> Prop) x l, FOP R (x :: l) <-> Forall (R x) l /\ FOP R l.
Proof. intros. split; [intros H; inversion H; auto|intros (H1 & H2); constructor; auto]. Qed.

Lemma FOP_app : forall A (R : A -> A -> Prop) l1 l2,
  FOP R (l1 ++ l2) <-> FOP R l1 /\ FOP R l2 /\ (forall x y, In x l1 -> In y l2 -> R x y).
Proof.
  induction l1 as [|a l1 IH]; intros l2; cbn [app].
  - split; [intros H; repeat split; [constructor|exact H|contradiction]|tauto].
  - rewrite !FOP_cons, IH, Forall_app, !Forall_forall. split.
    + intros ((H1 & H2) & H3 & H4 & H5). repeat split; auto. intros x y [->|Hx] Hy; auto.
    + intros ((H1 & H2) & H3 & H4). repeat split; auto; intros; apply H4; cbn; auto.
Qed.

Lemma FOP_in : forall A (R : A -> A -> Prop) l x y, FOP R l -> In x l -> In y l -> x = y \/ R x y \/ R y x.
Proof. intros. eapply ForallOrdPairs_In; eauto. Qed.

Definition apart (u v : N * N) : Prop := fst u + snd u <= fst v \/ fst v + snd v <= fst u.
Lemma apart_sym : forall u v, apart u v -> apart v u.
Proof. unfold apart. tauto. Qed.

Definition chunk_of (b : N * N * N) : N * N :=
  let '(p, size, align) := b in
  match list_index size align with Some i => (p, hsize (nth i BLOCK_SIZES 0)) | None => (p, hsize size) end.
Definition fits (b : N * N * N) : Prop :=
  let '(p, size, align) := b in
  power_of_two align /\ size <= ISIZE_MAX /\ match list_index size align with Some i => p mod nth i BLOCK_SIZES 0 = 0 | None => p mod align = 0 end.
Fixpoint free_chunks (bs : list N) (ls : list (list N)) : list (N * N) :=
  match bs, ls with b :: bs', l :: ls' => map (fun p => (p, hsize b)) l ++ free_chunks bs' ls' | _, _ => [] end.

Definition heap_ok (h : heap) : Prop :=
  FOP apart (hp_used h) /\ Forall (fun u => bottom h <= fst u /\ fst u + snd u <= top h /\ 16 <= snd u) (hp_used h).
Definition region (h : heap) : N * N := (hp_base h, hp_len h).

Record pinv (a : alloc) (blocks : list (N * N * N)) : Prop := {
  p_len : length (al_lists a) = 10%nat;
  p_heaps : Forall heap_ok (al_heaps a);
  p_perm : Permutation (flat_map hp_used (al_heaps a)) (free_chunks BLOCK_SIZES (al_lists a) ++ map chunk_of blocks);
  p_free : forall i p, In p (nth i (al_lists a) []) -> p mod nth i BLOCK_SIZES 0 = 0;
  p_fits : Forall fits blocks }.

Lemma pinv_perm : forall a b b', Permutation b b' -> pinv a b -> pinv a b'.
Proof.
  intros a b b' P [A B C D E]. constructor; auto.
  - rewrite C. apply Permutation_app_head. now apply Permutation_map.
  - eapply Permutation_Forall; eauto.
Qed.

(** What the pool says of its heaps only matters up to these fields. *)
Lemma pinv_ext : forall a a' b, al_lists a' = al_lists a -> al_heaps a' = al_heaps a -> pinv a b -> pinv a' b.
Proof. intros a a' b H1 H2 [A B C D E]. constructor; rewrite ?H1, ?H2; auto. Qed.

Lemma pad_ge : forall n m, 0 < m -> n <= pad n m.
Proof.
  intros n m Hm. unfold pad. pose proof (N.div_mod' (n + m - 1) m). pose proof (N.mod_lt (n + m - 1) m ltac:(lia)). nia.
Qed.
Lemma pad_lt : forall n m, 0 < m -> pad n m < n + m.
Proof. intros n m Hm. unfold pad. pose proof (N.mul_div_le (n + m - 1) m ltac:(lia)). lia. Qed.
Lemma pad_mod : forall n m, 0 < m -> pad n m mod m = 0.
Proof. intros n m Hm. unfold pad. apply N.mod_mul. lia. Qed.
Lemma hsize_ge : forall n, n <= hsize n /\ 16 <= hsize n.
Proof. intros n. unfold hsize. pose proof (pad_ge (N.max n 16) 8 ltac:(lia)). lia. Qed.

Lemma position_lt : forall l n i k, position l n i = Some k -> (i <= k < i + length l)%nat /\ n <= nth (k - i) l 0.
Proof.
  induction l as [|s l IH]; intros n i k H; cbn [position] in H; [discriminate|].
  destruct (N.leb_spec n s).
  - inversion H; subst. cbn [length]. split; [lia|]. replace (k - k)%nat with 0%nat by lia. exact H0.
  - apply IH in H. destruct H as (H1 & H2). cbn [length]. split; [lia|].
    replace (k - i)%nat with (S (k - S i)) by lia. exact H2.
Qed.
Lemma list_index_lt : forall size align i, list_index size align = Some i ->
  (i < 10)%nat /\ size <= nth i BLOCK_SIZES 0 /\ align <= nth i BLOCK_SIZES 0.
Proof.
  intros size align i H. apply position_lt in H. cbn [length BLOCK_SIZES] in H. rewrite Nat.sub_0_r in H.
  destruct H as (H1 & H2). split; [lia|]. lia.
Qed.
Lemma position_none : forall l n i, position l n i = None -> Forall (fun s => s < n) l.
Proof.
  induction l as [|s l IH]; intros n i H; cbn [position] in H; [constructor|].
  destruct (N.leb_spec n s); [discriminate|]. constructor; eauto.
Qed.

(** Block sizes are powers of two. *)
Lemma block_pow2 : forall i, (i < 10)%nat -> nth i BLOCK_SIZES 0 = 2 ^ (3 + N.of_nat i).
Proof.
  intros i H. do 10 (destruct i as [|i]; [reflexivity|]). lia.
Qed.

Lemma pow2_divides : forall a b x, power_of_two a -> (exists k, b = 2 ^ k) -> a <= b -> x mod b = 0 -> x mod a = 0.
Proof.
  intros a b x (i & ->) (k & ->) L H. assert (i <= k).
  { destruct (N.le_gt_cases i k); [assumption|]. assert (2 ^ k < 2 ^ i) by (apply N.pow_lt_mono_r; lia). lia. }
  apply N.mod_divide in H; [|apply N.pow_nonzero; lia]. apply N.mod_divide; [apply N.pow_nonzero; lia|].
  destruct H as (q & ->). exists (q * 2 ^ (k - i)). rewrite <- N.mul_assoc, <- N.pow_add_r. do 2 f_equal. lia.
Qed.

(** A live block lies in its chunk and is aligned. *)
Lemma fits_chunk : forall p size align, fits (p, size, align) ->
  fst (chunk_of (p, size, align)) = p /\ size <= snd (chunk_of (p, size, align)) /\ p mod align = 0.
Proof.
  intros p size align (H1 & _ & H2). cbn [chunk_of]. destruct (list_index size align) as [i|] eqn:E; cbn [fst snd].
  - destruct (list_index_lt _ _ _ E) as (L & S1 & S2). split; [reflexivity|].
    split; [pose proof (hsize_ge (nth i BLOCK_SIZES 0)); lia|].
    apply (pow2_divides align (nth i BLOCK_SIZES 0) p H1); [exists (3 + N.of_nat i); now apply block_pow2|exact S2|exact H2].
  - split; [reflexivity|]. split; [apply hsize_ge|exact H2].
Qed.

(** ** The free lists *)
Lemma set_nth_length : forall A (l : list A) i x, length (set_nth l i x) = length l.
Proof. induction l; intros [|i] x; cbn; auto. Qed.
Lemma set_nth_same : forall A (l : list A) i x d, (i < length l)%nat -> nth i (set_nth l i x) d = x.
Proof.
  induction l as [|y l IH]; intros [|i] x d H; cbn [length set_nth nth] in *; try lia; try reflexivity. apply IH. lia.
Qed.
Lemma set_nth_other : forall A (l : list A) i j x d, i <> j -> nth j (set_nth l i x) d = nth j l d.
Proof.
  induction l as [|y l IH]; intros [|i] [|j] x d H; cbn [set_nth nth]; try reflexivity; try congruence. apply IH. congruence.
Qed.

Lemma chunks_set : forall bs ls i l, (i < length bs)%nat -> (i < length ls)%nat ->
  Permutation (free_chunks bs (set_nth ls i l) ++ map (fun p => (p, hsize (nth i bs 0))) (nth i ls []))
              (map (fun p => (p, hsize (nth i bs 0))) l ++ free_chunks bs ls).
Proof.
  induction bs as [|b bs IH]; intros ls i l Hb Hl; cbn [length] in *; [lia|].
  destruct ls as [|l0 ls]; cbn [length] in *; [lia|]. destruct i as [|i]; cbn [set_nth free_chunks nth].
  - rewrite <- app_assoc. apply Permutation_app_head. rewrite Permutation_app_comm. reflexivity.
  - rewrite <- app_assoc. rewrite (IH ls i l) by lia.
    rewrite !app_assoc. apply Permutation_app_tail. apply Permutation_app_comm.
Qed.

(** ** Heaps *)
Lemma first_heap_ok : forall ch hs j size align p hs', first_heap ch j hs size align = Some (p, hs') ->
  Forall heap_ok hs ->
  Forall heap_ok hs' /\ p mod align = 0 /\ Permutation (flat_map hp_used hs') ((p, hsize size) :: flat_map hp_used hs) /\
  map region hs' = map region hs.
Proof.
  intros ch hs. induction hs as [|h t IH]; intros j size align p hs' H HF; cbn [first_heap] in H; [discriminate|].
  inversion HF as [|? ? H1 H2]; subst.
  assert (NX : forall r, (match first_heap ch (S j) t size align with Some (q, t') => Some (q, h :: t') | None => None end) = Some r ->
    r = (p, hs') -> Forall heap_ok hs' /\ p mod align = 0 /\
    Permutation (flat_map hp_used hs') ((p, hsize size) :: hp_used h ++ flat_map hp_used t) /\ map region hs' = region h :: map region t).
  { intros r Hr ->. destruct (first_heap ch (S j) t size align) as [[q t']|] eqn:E; [|discriminate].
    inversion Hr; subst. destruct (IH _ _ _ _ _ E H2) as (A & B & C & D). cbn [flat_map map]. rewrite D, C.
    split; [constructor; assumption|]. split; [exact B|]. split; [|reflexivity]. symmetry. apply Permutation_middle. }
  cbn [flat_map map]. destruct (ch j) as [q|].
  2: { eapply NX; [exact H|reflexivity]. }
  destruct (place_ok h q (hsize size) align) eqn:EP.
  2: { eapply NX; [exact H|reflexivity]. }
  inversion H; subst. unfold place_ok in EP. rewrite !andb_true_iff, !N.leb_le, N.eqb_eq in EP.
  destruct EP as (((P1 & P2) & P3) & P4). destruct H1 as (F1 & F2).
  split; [constructor; [|exact H2]|].
  - split; cbn [hp_used].
    + apply FOP_cons. split; [|exact F1]. rewrite forallb_forall in P4. apply Forall_forall. intros u Hu.
      specialize (P4 u Hu). unfold apart_from in P4. rewrite orb_true_iff, !N.leb_le in P4. exact P4.
    + constructor; [cbn [fst snd]; pose proof (hsize_ge size); unfold bottom, top in *; cbn [hp_base hp_len]; lia|exact F2].
  - split; [exact P3|]. split; [cbn [flat_map hp_used app]; reflexivity|reflexivity].
Qed.

Lemma fsb_alloc_ok : forall ch a size align p a' blocks, fsb_alloc ch a size align = Got p a' ->
  power_of_two align -> size <= ISIZE_MAX -> pinv a blocks ->
  pinv a' ((p, size, align) :: blocks) /\ map region (al_heaps a') = map region (al_heaps a) /\
  a' = with_lists (with_heaps a (al_heaps a')) (al_lists a').
Proof.
  intros ch a size align p a' blocks H Pa Ps [A B C D E]. unfold fsb_alloc in H.
  assert (FB : forall sz al, fallback_alloc ch a sz al = Got p a' ->
    Forall heap_ok (al_heaps a') /\ p mod al = 0 /\
    Permutation (flat_map hp_used (al_heaps a')) ((p, hsize sz) :: flat_map hp_used (al_heaps a)) /\
    map region (al_heaps a') = map region (al_heaps a) /\ al_lists a' = al_lists a /\
    a' = with_lists (with_heaps a (al_heaps a')) (al_lists a')).
  { intros sz al Hf. unfold fallback_alloc in Hf.
    destruct (first_heap ch 0 (al_heaps a) sz al) as [[q hs]|] eqn:EF; [|discriminate]. inversion Hf; subst.
    destruct (first_heap_ok _ _ _ _ _ _ _ EF B) as (X1 & X2 & X3 & X4). cbn [with_heaps al_heaps al_lists with_lists].
    auto 10. }
  destruct (list_index size align) as [i|] eqn:EI.
  - destruct (list_index_lt _ _ _ EI) as (L & L1 & L2).
    destruct (nth i (al_lists a) []) as [|q t] eqn:EN.
    + cbv zeta in H. destruct (FB _ _ H) as (X1 & X2 & X3 & X4 & X5 & X6). split; [|split; [exact X4|exact X6]].
      constructor; rewrite ?X5; auto.
      * rewrite X3, C. cbn [map chunk_of]. rewrite EI. apply Permutation_middle.
      * constructor; [|exact E]. cbn [fits]. rewrite EI. auto.
    + inversion H; subst. split; [|split; reflexivity]. constructor; cbn [with_lists al_lists al_heaps].
      * rewrite set_nth_length. exact A.
      * exact B.
      * rewrite C. cbn [map chunk_of]. rewrite EI.
        pose proof (chunks_set BLOCK_SIZES (al_lists a) i t ltac:(cbn; lia) ltac:(lia)) as P. rewrite EN in P. cbn [map] in P.
        apply Permutation_app_inv_l with (l := map (fun p0 => (p0, hsize (nth i BLOCK_SIZES 0))) t).
        rewrite !app_assoc. rewrite <- P. rewrite <- !app_assoc. cbn [app].
        rewrite (Permutation_app_comm (map _ t) (free_chunks BLOCK_SIZES (set_nth (al_lists a) i t) ++ _)).
        rewrite <- app_assoc. apply Permutation_app_head. cbn [app]. apply perm_skip. apply Permutation_app_comm.
      * intros j q Hq. destruct (Nat.eq_dec i j) as [->|Hn].
        -- rewrite set_nth_same in Hq by lia. apply D. rewrite EN. right. exact Hq.
        -- rewrite set_nth_other in Hq by exact Hn. apply D. exact Hq.
      * constructor; [|exact E]. cbn [fits]. rewrite EI. repeat split; auto. apply D. rewrite EN. left. reflexivity.
  - destruct (FB _ _ H) as (X1 & X2 & X3 & X4 & X5 & X6). split; [|split; [exact X4|exact X6]].
    constructor; rewrite ?X5; auto.
    + rewrite X3, C. cbn [map chunk_of]. rewrite EI. apply Permutation_middle.
    + constructor; [|exact E]. cbn [fits]. rewrite EI. auto.
Qed.

(** Giving back. *)
Lemma remove_block_perm : forall l p size l', remove_block l p size = Some l' -> Permutation l ((p, size) :: l').
Proof.
  induction l as [|u l IH]; intros p size l' H; cbn [remove_block] in H; [discriminate|].
  destruct ((fst u =? p) && (snd u =? size)) eqn:E.
  - inversion H; subst. rewrite andb_true_iff, !N.eqb_eq in E. destruct u as [u1 u2]. cbn [fst snd] in E. destruct E; subst. reflexivity.
  - destruct (remove_block l p size) as [t|] eqn:ER; [|discriminate]. inversion H; subst.
    rewrite (IH _ _ _ ER). apply perm_swap.
Qed.
Lemma remove_block_some : forall l p size, In (p, size) l -> remove_block l p size <> None.
Proof.
  induction l as [|u l IH]; intros p size H; [destruct H|]. cbn [remove_block].
  destruct ((fst u =? p) && (snd u =? size)) eqn:E; [discriminate|]. destruct H as [->|H].
  - cbn [fst snd] in E. rewrite !N.eqb_refl in E. discriminate.
  - specialize (IH p size H). destruct (remove_block l p size); [discriminate|contradiction].
Qed.

Definition in_heap (p : N) (h : heap) : bool := (bottom h <=? p) && (p <? top h).
Definition regions_apart (hs : list heap) : Prop := FOP (fun h1 h2 => apart (region h1) (region h2)) hs.

Lemma fallback_dealloc_none_in : forall hs p size, Forall (fun h => in_heap p h = false) hs -> fallback_dealloc hs p size = Some hs.
Proof.
  induction hs as [|h t IH]; intros p size H; [reflexivity|]. inversion H; subst. cbn [fallback_dealloc].
  rewrite IH by assumption. unfold in_heap in *. rewrite H2. reflexivity.
Qed.

Lemma fallback_dealloc_ok : forall hs p size, regions_apart hs -> Forall heap_ok hs ->
  In (p, hsize size) (flat_map hp_used hs) ->
  exists hs', fallback_dealloc hs p size = Some hs' /\ Forall heap_ok hs' /\ map region hs' = map region hs /\
    Permutation (flat_map hp_used hs) ((p, hsize size) :: flat_map hp_used hs').
Proof.
  induction hs as [|h t IH]; intros p size RA HF HI; [destruct HI|].
  apply FOP_cons in RA. destruct RA as (R1 & R2). inversion HF as [|? ? H1 H2]; subst.
  cbn [flat_map] in HI. apply in_app_or in HI. destruct HI as [HI|HI].
  - destruct H1 as (F1 & F2). rewrite Forall_forall in F2. pose proof (F2 _ HI) as (B1 & B2 & B3). cbn [fst snd] in *.
    cbn [fallback_dealloc]. rewrite fallback_dealloc_none_in.
    2: { rewrite Forall_forall in R1 |- *. intros h' Hh'. specialize (R1 h' Hh'). unfold apart, region in R1. cbn [fst snd] in R1.
         unfold in_heap, bottom, top, NODE in *. lia. }
    assert (E : (bottom h <=? p) && (p <? top h) = true) by lia. rewrite E.
    destruct (remove_block (hp_used h) p (hsize size)) as [u|] eqn:ER.
    2: { exfalso. eapply remove_block_some; eauto. }
    pose proof (remove_block_perm _ _ _ _ ER) as PR. eexists. split; [reflexivity|]. split; [|split; [reflexivity|]].
    + constructor; [|exact H2]. pose proof (FOP_perm _ _ _ _ apart_sym PR F1) as G1. apply FOP_cons in G1.
      split; cbn [hp_used]; [tauto|]. apply Forall_forall. intros v Hv. unfold bottom, top in *. cbn [hp_base hp_len].
      apply F2. eapply Permutation_in; [apply Permutation_sym; exact PR|right; exact Hv].
    + cbn [flat_map hp_used]. rewrite PR. reflexivity.
  - destruct (IH p size R2 H2 HI) as (t' & T1 & T2 & T3 & T4). cbn [fallback_dealloc]. rewrite T1.
    assert (E : (bottom h <=? p) && (p <? top h) = false).
    { apply in_flat_map in HI. destruct HI as (h' & Hh' & Hp). rewrite Forall_forall in R1, H2.
      specialize (R1 h' Hh'). destruct (H2 h' Hh') as (_ & F). rewrite Forall_forall in F. specialize (F _ Hp).
      cbn [fst snd] in F. unfold apart, region, bottom, top, NODE in *. cbn [fst snd] in R1. lia. }
    rewrite E. eexists. split; [reflexivity|]. split; [constructor; assumption|]. split; [cbn [map]; now rewrite T3|].
    cbn [flat_map]. rewrite T4. symmetry. apply Permutation_middle.
Qed.

Lemma dealloc_ok : forall a p size align blocks, pinv a ((p, size, align) :: blocks) -> regions_apart (al_heaps a) ->
  exists a', dealloc a p size align = Some a' /\ pinv a' blocks /\ map region (al_heaps a') = map region (al_heaps a) /\
    a' = with_lists (with_heaps a (al_heaps a')) (al_lists a').
Proof.
  intros a p size align blocks [A B C D E] RA. unfold dealloc. inversion E as [|? ? E1 E2]; subst. cbn [fits] in E1.
  destruct E1 as (G1 & G2 & G3). cbn [map chunk_of] in C.
  destruct (list_index size align) as [i|] eqn:EI.
  - destruct (list_index_lt _ _ _ EI) as (L & L1 & L2). eexists. split; [reflexivity|]. split; [|split; reflexivity].
    constructor; cbn [with_lists al_lists al_heaps]; auto.
    + rewrite set_nth_length. exact A.
    + rewrite C.
      pose proof (chunks_set BLOCK_SIZES (al_lists a) i (p :: nth i (al_lists a) []) ltac:(cbn; lia) ltac:(lia)) as P.
      cbn [map] in P.
      apply Permutation_app_inv_l with (l := map (fun p0 => (p0, hsize (nth i BLOCK_SIZES 0))) (nth i (al_lists a) [])).
      rewrite (app_assoc _ (free_chunks BLOCK_SIZES (set_nth _ _ _))).
      rewrite (Permutation_app_comm (map _ (nth i (al_lists a) [])) (free_chunks BLOCK_SIZES (set_nth _ _ _))).
      rewrite P. rewrite <- Permutation_middle. cbn [app]. rewrite <- Permutation_middle. apply perm_skip.
      rewrite app_assoc. reflexivity.
    + intros j q Hq. destruct (Nat.eq_dec i j) as [->|Hn].
      * rewrite set_nth_same in Hq by lia. destruct Hq as [<-|Hq]; [exact G3|apply D; exact Hq].
      * rewrite set_nth_other in Hq by exact Hn. apply D. exact Hq.
  - destruct (fallback_dealloc_ok (al_heaps a) p size RA B) as (hs & H1 & H2 & H3 & H4).
    { eapply Permutation_in; [apply Permutation_sym; exact C|]. apply in_or_app. right. left. reflexivity. }
    rewrite H1. eexists. split; [reflexivity|]. split; [|split; [exact H3|reflexivity]].
    constructor; cbn [with_heaps al_lists al_heaps]; auto.
    rewrite C in H4. apply Permutation_sym in H4. rewrite <- Permutation_middle in H4.
    apply Permutation_cons_inv in H4. exact H4.
Qed.

(** ** What the invariant says of live blocks *)
Definition inside (u r : N * N) : Prop := fst r <= fst u /\ fst u + snd u <= fst r + snd r.

Lemma flat_FOP : forall hs, regions_apart hs -> Forall heap_ok hs -> FOP apart (flat_map hp_used hs).
Proof.
  induction hs as [|h t IH]; intros RA HF; [constructor|]. apply FOP_cons in RA. destruct RA as (R1 & R2).
  inversion HF as [|? ? (F1 & F2) H2]; subst. cbn [flat_map]. apply FOP_app. split; [exact F1|]. split; [auto|].
  intros x y Hx Hy. apply in_flat_map in Hy. destruct Hy as (h' & Hh' & Hy). rewrite Forall_forall in *.
  specialize (R1 h' Hh'). specialize (F2 x Hx). destruct (H2 h' Hh') as (_ & F). rewrite Forall_forall in F. specialize (F y Hy).
  unfold apart, region, bottom, top, NODE in *. cbn [fst snd] in *. lia.
Qed.

Lemma pinv_chunks : forall a blocks, pinv a blocks -> regions_apart (al_heaps a) -> FOP apart (map chunk_of blocks).
Proof.
  intros a blocks [A B C D E] RA. pose proof (FOP_perm _ _ _ _ apart_sym C (flat_FOP _ RA B)) as H.
  apply FOP_app in H. tauto.
Qed.

Lemma pinv_in : forall a blocks b, pinv a blocks -> In b blocks ->
  exists h, In h (al_heaps a) /\ inside (chunk_of b) (region h) /\ hp_base h + NODE <= fst (chunk_of b) /\ 16 <= snd (chunk_of b).
Proof.
  intros a blocks b [A B C D E] Hb.
  assert (I : In (chunk_of b) (flat_map hp_used (al_heaps a))).
  { eapply Permutation_in; [apply Permutation_sym; exact C|]. apply in_or_app. right. now apply in_map. }
  apply in_flat_map in I. destruct I as (h & Hh & Hu). exists h. split; [exact Hh|]. rewrite Forall_forall in B.
  destruct (B h Hh) as (_ & F). rewrite Forall_forall in F. specialize (F _ Hu). unfold inside, region, bottom, top, NODE in *.
  cbn [fst snd]. lia.
Qed.

Lemma pinv_expand : forall a base len blocks a', pinv a blocks ->
  al_lists a' = al_lists a -> al_heaps a' = Heap base len [] :: al_heaps a -> pinv a' blocks.
Proof.
  intros a base len blocks a' [A B C D E] H1 H2. constructor; rewrite ?H1, ?H2; auto.
  constructor; [|exact B]. split; constructor.
Qed.

Lemma pinv_new : forall ty h gr, pinv (new_alloc ty h gr) [].
Proof.
  intros. constructor; cbn; auto. intros i p H. do 10 (destruct i; [destruct H|]). destruct i; destruct H.
Qed.
