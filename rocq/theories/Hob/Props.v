(** * C41: the HOB list *)

From Coq Require Import ZifyBool ZifyNat ZifyN.
From Verif Require Import Base.Prelude Base.Bytes Hob.Spec Hob.Model Hob.Proofs.
Open Scope N_scope.

(** Which variant a block of type [t] and length [n] must be shown as. *)
Definition kind_is (k : kind) (t n : N) : Prop :=
  match k with
  | KHandoff => t = 1
  | KMemAlloc => t = 2 /\ n = 48
  | KMemAllocModule => t = 2 /\ n = 72
  | KResDesc => t = 3
  | KFv => t = 5
  | KCpu => t = 6
  | KFv2 => t = 9
  | KCapsule => t = 11
  | KFv3 => t = 12
  | KResDescV2 => t = 13
  end.

(** [v] is the right view of block [b] lying at address [a]: it refers to
    the block itself, is of the right variant, and a GUID block's data slice
    is exactly the bytes after its GUID. *)
Definition view_of (m : region) (a : N) (b : block) (v : hob) : Prop :=
  holds m a (block_bytes b) /\
  match v with
  | HRef k p => p = a /\ kind_is k (b_type b) (b_length b) /\ size_of k = b_length b
  | HGuid p d n =>
      p = a /\ b_type b = 4 /\ holds m d (skipn 16 (b_body b)) /\
      n = N.of_nat (length (skipn 16 (b_body b)))
  | HMisc t => t = b_type b /\ ~ In t [1; 2; 3; 4; 5; 6; 9; 11; 12; 13]
  end.

(** The views [vs] are the blocks [bs], laid end to end from [a] on, each
    once and in order. *)
Inductive views (m : region) : N -> list block -> list hob -> Prop :=
| V_nil a : views m a [] []
| V_cons a b bs v vs :
    view_of m a b v -> views m (a + b_length b) bs vs -> views m a (b :: bs) (v :: vs).

(** A well-formed list: legal blocks, at a usable address. *)
Definition hob_list_at (m : region) (a : N) (bs : list block) (r : N) : Prop :=
  a <> 0 /\ a + N.of_nat (length (list_bytes bs r)) <= 2 ^ 64 /\
  Forall block_ok bs /\ r < 2 ^ 32 /\ holds m a (list_bytes bs r).

Lemma as_ref_ok m a b k : holds m a (block_bytes b) -> a <> 0 -> size_of k = b_length b ->
  as_ref m k a = HRet (HRef k a).
Proof.
  intros H Ha E. unfold as_ref. replace (a =? 0) with false by lia.
  rewrite (holds_rd_n m a _ (size_of k) H); [reflexivity|]. rewrite block_bytes_length. exact E.
Qed.

Lemma sized_ref_ok m a b k h : holds m a (block_bytes b) -> a <> 0 -> size_of k = b_length b ->
  hh_length h = b_length b -> sized_ref m k h a = HRet (HRef k a).
Proof.
  intros H Ha E El. unfold sized_ref. rewrite El, <- E, N.eqb_refl. now apply (as_ref_ok m a b).
Qed.

Lemma guid_ref_ok dbg m a b h : holds m a (block_bytes b) -> a <> 0 -> 24 <= b_length b ->
  hh_length h = b_length b ->
  guid_ref dbg m h a = HRet (HGuid a (a + 24) (N.of_nat (length (skipn 16 (b_body b))))) /\
  holds m (a + 24) (skipn 16 (b_body b)).
Proof.
  intros H Ha L El.
  assert (Lb : (16 <= length (b_body b))%nat) by (unfold b_length in L; lia).
  assert (B : block_bytes b = (le_bytes 2 (b_type b) ++ le_bytes 2 (b_length b) ++
              le_bytes 4 (b_reserved b) ++ firstn 16 (b_body b)) ++ skipn 16 (b_body b)).
  { unfold block_bytes. rewrite <- !app_assoc. now rewrite firstn_skipn. }
  rewrite B in H. apply holds_app in H. destruct H as [H1 H2].
  assert (L1 : N.of_nat (length (le_bytes 2 (b_type b) ++ le_bytes 2 (b_length b) ++
              le_bytes 4 (b_reserved b) ++ firstn 16 (b_body b))) = 24).
  { rewrite !app_length, !le_bytes_length, firstn_length. lia. }
  rewrite L1 in H2. split; [|exact H2].
  unfold guid_ref. replace (a =? 0) with false by lia.
  rewrite (holds_rd_n m a _ SIZE_GUID_HOB H1) by now rewrite L1.
  rewrite El. unfold usub, SIZE_GUID_HOB. replace (24 <=? b_length b) with true by lia.
  assert (E : b_length b - 24 = N.of_nat (length (skipn 16 (b_body b)))).
  { rewrite skipn_length. unfold b_length in *. lia. }
  rewrite E. now rewrite (holds_rd m (a + 24) _ H2).
Qed.

Ltac on_type H :=
  cbv beta delta [HANDOFF MEMORY_ALLOCATION RESOURCE_DESCRIPTOR GUID_EXTENSION FV CPU FV2
    UEFI_CAPSULE FV3 RESOURCE_DESCRIPTOR2 END_OF_HOB_LIST] in *.

Lemma in_known t : In t [1; 2; 3; 4; 5; 6; 9; 11; 12; 13] <->
  t = 1 \/ t = 2 \/ t = 3 \/ t = 4 \/ t = 5 \/ t = 6 \/ t = 9 \/ t = 11 \/ t = 12 \/ t = 13.
Proof. cbn [In]. intuition lia. Qed.

(** What the two decoders make of a legal block. *)
Lemma discover_one_ok dbg m a b : block_ok b -> a <> 0 -> holds m a (block_bytes b) ->
  exists v, discover_one dbg m (Header (b_type b) (b_length b) (b_reserved b)) a = Some (HRet v) /\
            view_of m a b v.
Proof.
  intros (Ht & Hl & Hr & Hb & Hp) Ha H.
  unfold discover_one. cbn [hh_type hh_length]. on_type tt.
  pose proof (fun k => sized_ref_ok m a b k (Header (b_type b) (b_length b) (b_reserved b)) H Ha) as S.
  pose proof (fun k => as_ref_ok m a b k H Ha) as A.
  unfold view_of.
  destruct (N.eqb_spec (b_type b) 1) as [E|E1].
  { rewrite E in Hp. cbn [pi_length] in Hp. rewrite S by auto. eexists; split; [reflexivity|]. cbn [kind_is size_of]; auto. }
  destruct (N.eqb_spec (b_type b) 2) as [E|E2].
  { rewrite E in Hp. cbn [pi_length] in Hp. cbn [size_of] in *.
    destruct (N.eqb_spec (b_length b) 72) as [E'|E'].
    - rewrite A by auto. eexists; split; [reflexivity|]. cbn [kind_is size_of]; auto.
    - rewrite S by (cbn [size_of hh_length]; lia). eexists; split; [reflexivity|]. cbn [kind_is size_of]. intuition lia. }
  destruct (N.eqb_spec (b_type b) 3) as [E|E3].
  { rewrite E in Hp. cbn [pi_length] in Hp. rewrite S by auto. eexists; split; [reflexivity|]. cbn [kind_is size_of]; auto. }
  destruct (N.eqb_spec (b_type b) 4) as [E|E4].
  { rewrite E in Hp. cbn [pi_length] in Hp.
    destruct (guid_ref_ok dbg m a b (Header (b_type b) (b_length b) (b_reserved b)) H Ha Hp eq_refl) as [G1 G2].
    rewrite G1. eexists; split; [reflexivity|]. cbv beta iota. auto. }
  destruct (N.eqb_spec (b_type b) 5) as [E|E5].
  { rewrite E in Hp. cbn [pi_length] in Hp. rewrite S by auto. eexists; split; [reflexivity|]. cbn [kind_is size_of]; auto. }
  destruct (N.eqb_spec (b_type b) 9) as [E|E9].
  { rewrite E in Hp. cbn [pi_length] in Hp. rewrite S by auto. eexists; split; [reflexivity|]. cbn [kind_is size_of]; auto. }
  destruct (N.eqb_spec (b_type b) 12) as [E|E12].
  { rewrite E in Hp. cbn [pi_length] in Hp. rewrite S by auto. eexists; split; [reflexivity|]. cbn [kind_is size_of]; auto. }
  destruct (N.eqb_spec (b_type b) 6) as [E|E6].
  { rewrite E in Hp. cbn [pi_length] in Hp. rewrite S by auto. eexists; split; [reflexivity|]. cbn [kind_is size_of]; auto. }
  destruct (N.eqb_spec (b_type b) 11) as [E|E11].
  { rewrite E in Hp. cbn [pi_length] in Hp. rewrite S by auto. eexists; split; [reflexivity|]. cbn [kind_is size_of]; auto. }
  destruct (N.eqb_spec (b_type b) 13) as [E|E13].
  { rewrite E in Hp. cbn [pi_length] in Hp. rewrite S by auto. eexists; split; [reflexivity|]. cbn [kind_is size_of]; auto. }
  destruct (N.eqb_spec (b_type b) 65535) as [E|E]; [lia|].
  eexists; split; [reflexivity|]. cbv beta iota. rewrite in_known. intuition lia.
Qed.

Lemma iter_one_ok dbg m a b : block_ok b -> a <> 0 -> holds m a (block_bytes b) ->
  b_type b <> 13 ->
  exists v, iter_one dbg m (Header (b_type b) (b_length b) (b_reserved b)) a = Some (HRet v) /\
            view_of m a b v.
Proof.
  intros (Ht & Hl & Hr & Hb & Hp) Ha H N13.
  unfold iter_one. cbn [hh_type hh_length]. on_type tt.
  pose proof (fun k => as_ref_ok m a b k H Ha) as A.
  unfold view_of.
  destruct (N.eqb_spec (b_type b) 1) as [E|E1].
  { rewrite E in Hp. cbn [pi_length] in Hp. rewrite A by auto. eexists; split; [reflexivity|]. cbn [kind_is size_of]; auto. }
  destruct (N.eqb_spec (b_type b) 2) as [E|E2].
  { rewrite E in Hp. cbn [pi_length] in Hp. cbn [size_of] in *.
    destruct (N.eqb_spec (b_length b) 72) as [E'|E'].
    - rewrite A by auto. eexists; split; [reflexivity|]. cbn [kind_is size_of]; auto.
    - rewrite A by (cbn [size_of hh_length]; lia). eexists; split; [reflexivity|]. cbn [kind_is size_of]. intuition lia. }
  destruct (N.eqb_spec (b_type b) 3) as [E|E3].
  { rewrite E in Hp. cbn [pi_length] in Hp. rewrite A by auto. eexists; split; [reflexivity|]. cbn [kind_is size_of]; auto. }
  destruct (N.eqb_spec (b_type b) 4) as [E|E4].
  { rewrite E in Hp. cbn [pi_length] in Hp.
    destruct (guid_ref_ok dbg m a b (Header (b_type b) (b_length b) (b_reserved b)) H Ha Hp eq_refl) as [G1 G2].
    rewrite G1. eexists; split; [reflexivity|]. cbv beta iota. auto. }
  destruct (N.eqb_spec (b_type b) 5) as [E|E5].
  { rewrite E in Hp. cbn [pi_length] in Hp. rewrite A by auto. eexists; split; [reflexivity|]. cbn [kind_is size_of]; auto. }
  destruct (N.eqb_spec (b_type b) 9) as [E|E9].
  { rewrite E in Hp. cbn [pi_length] in Hp. rewrite A by auto. eexists; split; [reflexivity|]. cbn [kind_is size_of]; auto. }
  destruct (N.eqb_spec (b_type b) 12) as [E|E12].
  { rewrite E in Hp. cbn [pi_length] in Hp. rewrite A by auto. eexists; split; [reflexivity|]. cbn [kind_is size_of]; auto. }
  destruct (N.eqb_spec (b_type b) 6) as [E|E6].
  { rewrite E in Hp. cbn [pi_length] in Hp. rewrite A by auto. eexists; split; [reflexivity|]. cbn [kind_is size_of]; auto. }
  destruct (N.eqb_spec (b_type b) 11) as [E|E11].
  { rewrite E in Hp. cbn [pi_length] in Hp. rewrite A by auto. eexists; split; [reflexivity|]. cbn [kind_is size_of]; auto. }
  destruct (N.eqb_spec (b_type b) 13) as [E|E13]; [lia|].
  destruct (N.eqb_spec (b_type b) 65535) as [E|E]; [lia|].
  eexists; split; [reflexivity|]. cbv beta iota. rewrite in_known. intuition lia.
Qed.

Lemma hob_list_cons m a b bs r : hob_list_at m a (b :: bs) r ->
  block_ok b /\ holds m a (block_bytes b) /\ a + b_length b < two64 /\
  hob_list_at m (a + b_length b) bs r.
Proof.
  intros (Ha & Hw & Hok & Hr & H). inversion Hok as [|? ? Hb Hbs]; subst.
  rewrite list_bytes_cons in H, Hw. apply holds_app in H. destruct H as [H1 H2].
  rewrite block_bytes_length in H2. rewrite app_length, Nat2N.inj_add, block_bytes_length in Hw.
  pose proof (list_bytes_length bs r) as L. pose proof (b_length_ge b).
  change two64 with (2 ^ 64). split; [exact Hb|]. split; [exact H1|]. unfold hob_list_at.
  set (P := 2 ^ 64) in *. clearbody P.
  split; [lia|]. split; [lia|]. split; [lia|auto].
Qed.

Lemma hob_list_nil m a r : hob_list_at m a [] r -> a <> 0 /\ read_header m a = Some (Header 65535 8 r).
Proof.
  intros (Ha & _ & _ & Hr & H). split; [exact Ha|]. apply end_header; [exact Hr|].
  unfold list_bytes in H. exact H.
Qed.

Lemma discover_loop_ok dbg m bs : forall a r fuel acc, hob_list_at m a bs r ->
  (length bs < fuel)%nat ->
  exists vs, discover_loop dbg fuel m a acc = HRet (acc ++ vs) /\ views m a bs vs.
Proof.
  induction bs as [|b bs IH]; intros a r fuel acc H F.
  - destruct (hob_list_nil m a r H) as [Ha R]. destruct fuel as [|fuel]; [lia|].
    exists []. cbn [discover_loop]. replace (a =? 0) with false by lia. rewrite R.
    cbn. rewrite app_nil_r. split; [reflexivity|constructor].
  - destruct (hob_list_cons m a b bs r H) as (Hb & Hh & Hn & Hrest).
    destruct fuel as [|fuel]; [cbn in F; lia|].
    assert (Ha : a <> 0) by apply H.
    cbn [discover_loop]. replace (a =? 0) with false by lia.
    rewrite (block_header m a b Hb Hh).
    destruct (discover_one_ok dbg m a b Hb Ha Hh) as (v & E & V). rewrite E.
    cbn [hh_length]. rewrite next_ok by exact Hn.
    destruct (IH (a + b_length b) r fuel (acc ++ [v]) Hrest) as (vs & E2 & V2); [cbn in F; lia|].
    exists (v :: vs). rewrite E2, <- app_assoc. split; [reflexivity|]. now constructor.
Qed.

Lemma fuel_ok m a bs r : hob_list_at m a bs r -> (length bs < walk_fuel m)%nat.
Proof.
  intros (_ & _ & _ & _ & H). apply holds_size in H. pose proof (blocks_fit bs r). unfold walk_fuel. lia.
Qed.

(** C41.  Discovering a well-formed list, of any blocks of any lengths in
    any order, appends exactly one entry per block, in order, each referring
    to its block, and stops at the end marker. *)
Theorem c41_discover dbg m bs a r l : hob_list_at m a bs r ->
  exists vs, discover_hobs dbg m l a = HRet (l ++ vs) /\ views m a bs vs.
Proof. intros H. unfold discover_hobs. apply (discover_loop_ok dbg m bs a r); [exact H|]. now apply (fuel_ok m a bs r). Qed.

(** The size computed for a list as it lies in memory is the number of bytes
    it occupies, end marker included. *)
Theorem c41_c_list_size dbg m bs a r : hob_list_at m a bs r ->
  get_c_hob_list_size dbg m a = HRet (N.of_nat (length (list_bytes bs r))).
Proof.
  intros H. unfold get_c_hob_list_size.
  assert (G : forall bs a r fuel acc, hob_list_at m a bs r -> (length bs < fuel)%nat ->
            size_loop dbg fuel m a acc = HRet (acc + N.of_nat (length (list_bytes bs r)))).
  { clear. induction bs as [|b bs IH]; intros a r fuel acc H F.
    - destruct (hob_list_nil m a r H) as [Ha R]. destruct fuel as [|fuel]; [lia|].
      cbn [size_loop]. replace (a =? 0) with false by lia. rewrite R. cbn [hh_type hh_length].
      rewrite N.eqb_refl. rewrite list_bytes_length. cbn [fold_right]. f_equal.
    - destruct (hob_list_cons m a b bs r H) as (Hb & Hh & Hn & Hrest).
      destruct fuel as [|fuel]; [cbn in F; lia|].
      assert (Ha : a <> 0) by apply H.
      cbn [size_loop]. replace (a =? 0) with false by lia.
      rewrite (block_header m a b Hb Hh). cbn [hh_type hh_length].
      replace (b_type b =? END_OF_HOB_LIST) with false
        by (unfold END_OF_HOB_LIST; destruct Hb; lia).
      rewrite next_ok by exact Hn. rewrite (IH _ r); [|exact Hrest|cbn in F; lia].
      rewrite list_bytes_cons, app_length, Nat2N.inj_add, block_bytes_length. f_equal. lia. }
  rewrite (G bs a r (walk_fuel m) 0 H (fuel_ok m a bs r H)). reflexivity.
Qed.

(** Iterating from the first block yields the same views, as long as no
    resource descriptor of version 2 is in the list. *)
Theorem c41_iter_partial dbg m bs a r first : hob_list_at m a bs r ->
  hob_as_ptr first = a -> Forall (fun b => b_type b <> 13) bs ->
  exists vs, iterate dbg m first = HRet vs /\ views m a bs vs.
Proof.
  intros H E N13. unfold iterate. rewrite E. clear E first.
  pose proof (fuel_ok m a bs r H) as F. revert a r F H.
  generalize (walk_fuel m) as fuel.
  induction bs as [|b bs IH]; intros fuel a r F H.
  - destruct (hob_list_nil m a r H) as [Ha R]. destruct fuel as [|fuel]; [lia|].
    exists []. cbn [iter_loop]. unfold iter_next. replace (a =? 0) with false by lia. rewrite R.
    split; [reflexivity|constructor].
  - destruct (hob_list_cons m a b bs r H) as (Hb & Hh & Hn & Hrest).
    destruct fuel as [|fuel]; [cbn in F; lia|].
    assert (Ha : a <> 0) by apply H. inversion N13 as [|? ? N1 N2]; subst.
    cbn [iter_loop]. unfold iter_next. replace (a =? 0) with false by lia.
    rewrite (block_header m a b Hb Hh).
    destruct (iter_one_ok dbg m a b Hb Ha Hh N1) as (v & E & V). rewrite E.
    cbn [hh_length]. rewrite next_ok by exact Hn.
    destruct (IH N2 fuel (a + b_length b) r) as (vs & E2 & V2); [cbn in F; lia|exact Hrest|].
    exists (v :: vs). rewrite E2. split; [reflexivity|]. now constructor.
Qed.

(** ** Where the list interface departs from the property *)

(** A version 2 resource descriptor is never reached by the iterator: it
    takes the block's own header for the descriptor's address. *)
Theorem c41_iter_v2 dbg m a b v a' : block_ok b -> holds m a (block_bytes b) -> b_type b = 13 ->
  iter_next dbg m a = HRet (Some (v, a')) ->
  v = HRef KResDescV2 (13 + 56 * 2 ^ 16 + b_reserved b * 2 ^ 32).
Proof.
  intros Hb H T. pose proof Hb as (Ht & Hl & Hr & _ & Hp).
  rewrite T in Hp. cbn [pi_length] in Hp.
  assert (Ht' : b_type b < 65536) by lia.
  destruct (header_read m a (b_type b) (b_length b) (b_reserved b) (b_body b) Ht' Hl Hr H) as [R1 R2].
  unfold iter_next. destruct (a =? 0); [discriminate|]. rewrite R2.
  unfold iter_one. cbn [hh_type hh_length]. rewrite T. cbv beta iota delta [HANDOFF MEMORY_ALLOCATION RESOURCE_DESCRIPTOR
    GUID_EXTENSION FV CPU FV2 UEFI_CAPSULE FV3 RESOURCE_DESCRIPTOR2 N.eqb Pos.eqb].
  rewrite R1, T, Hp.
  assert (E : le_val (le_bytes 2 13 ++ le_bytes 2 56 ++ le_bytes 4 (b_reserved b)) =
              13 + 56 * 2 ^ 16 + b_reserved b * 2 ^ 32).
  { change (le_bytes 2 13 ++ le_bytes 2 56 ++ le_bytes 4 (b_reserved b))
      with (13 :: 0 :: 56 :: 0 :: le_bytes 4 (b_reserved b)).
    cbn [le_val]. rewrite le_val_bytes by exact Hr. change (2 ^ 16) with 65536.
    change (2 ^ 32) with 4294967296. lia. }
  rewrite E. clear E. set (X := 13 + 56 * 2 ^ 16 + b_reserved b * 2 ^ 32). clearbody X.
  destruct (rd m X (size_of KResDescV2)); [|discriminate].
  destruct (next_addr dbg a 56); try discriminate. intros [= <- _]. reflexivity.
Qed.

Definition sample_v2 : block := Block 13 0 (repeat 0 48).
Definition sample_end : region := Region 4096 (list_bytes [sample_v2] 0).

Theorem c41_iter_refuted : exists m bs a r first,
  hob_list_at m a bs r /\ hob_as_ptr first = a /\
  (forall dbg, exists vs, discover_hobs dbg m [] a = HRet vs /\ views m a bs vs) /\
  (forall dbg, iterate dbg m first = HFault).
Proof.
  exists sample_end, [sample_v2], 4096, 0, (HRef KHandoff 4096).
  assert (H : hob_list_at sample_end 4096 [sample_v2] 0).
  { split; [lia|]. split; [vm_compute; discriminate|]. split.
    - constructor; [|constructor]. repeat split; try (vm_compute; reflexivity).
      apply bytes_ok_repeat0.
    - split; [reflexivity|]. exists [], []. split; [|reflexivity].
      cbn [sample_end r_bytes]. now rewrite app_nil_r. }
  split; [exact H|]. split; [reflexivity|]. split.
  - intros dbg. exact (c41_discover dbg sample_end [sample_v2] 4096 0 [] H).
  - intros []; vm_compute; reflexivity.
Qed.

(** The size reported for the discovered list counts two bytes for every
    block of a type it does not know, and never the end marker. *)
Lemma views_size m a bs vs : views m a bs vs -> Forall block_ok bs ->
  hob_list_size m vs =
    Some (fold_right (fun b n => (if existsb (N.eqb (b_type b)) [1; 2; 3; 4; 5; 6; 9; 11; 12; 13]
                                  then b_length b else 2) + n) 0 bs).
Proof.
  induction 1 as [a|a b bs v vs [Hh V] W IH]; intros Hok; [reflexivity|].
  inversion Hok as [|? ? Hb Hbs]; subst.
  cbn [hob_list_size fold_right]. rewrite (IH Hbs).
  assert (E : hob_size m v = Some (if existsb (N.eqb (b_type b)) [1; 2; 3; 4; 5; 6; 9; 11; 12; 13]
                                   then b_length b else 2)).
  { destruct v as [k p|p d n|t].
    - destruct V as (_ & K & S). cbn [hob_size]. rewrite S.
      replace (existsb _ _) with true; [reflexivity|]. symmetry. apply existsb_exists.
      exists (b_type b). rewrite N.eqb_refl. split; [|reflexivity]. apply in_known.
      destruct k; cbn [kind_is] in K; lia.
    - destruct V as (-> & T & _ & _). cbn [hob_size]. rewrite (block_header m a b Hb Hh), T. reflexivity.
    - destruct V as (-> & T). cbn [hob_size]. replace (existsb _ _) with false; [reflexivity|].
      symmetry. apply not_true_iff_false. intros X. apply existsb_exists in X.
      destruct X as (x & X1 & X2). apply N.eqb_eq in X2. subst. contradiction. }
  rewrite E. reflexivity.
Qed.

Theorem c41_list_size_partial dbg m bs a r : hob_list_at m a bs r ->
  Forall (fun b => In (b_type b) [1; 2; 3; 4; 5; 6; 9; 11; 12; 13]) bs ->
  exists vs n, discover_hobs dbg m [] a = HRet vs /\ hob_list_size m vs = Some n /\
               n + 8 = N.of_nat (length (list_bytes bs r)).
Proof.
  intros H K. destruct (c41_discover dbg m bs a r [] H) as (vs & E & V).
  assert (Hok : Forall block_ok bs) by apply H.
  eexists vs, _. split; [exact E|]. split; [exact (views_size m a bs vs V Hok)|].
  rewrite list_bytes_length. f_equal. clear - K.
  induction K as [|b bs Hb K IH]; [reflexivity|]. cbn [fold_right]. rewrite IH. f_equal.
  replace (existsb _ _) with true; [reflexivity|]. symmetry. apply existsb_exists.
  exists (b_type b). now rewrite N.eqb_refl.
Qed.

(** … and is wrong for every list with a block of another type, because such
    a block is at least eight bytes long. *)
Theorem c41_list_size_refuted dbg m bs a r b : hob_list_at m a bs r -> In b bs ->
  ~ In (b_type b) [1; 2; 3; 4; 5; 6; 9; 11; 12; 13] ->
  exists vs n, discover_hobs dbg m [] a = HRet vs /\ hob_list_size m vs = Some n /\
               n + 14 <= N.of_nat (length (list_bytes bs r)).
Proof.
  intros H I K. destruct (c41_discover dbg m bs a r [] H) as (vs & E & V).
  assert (Hok : Forall block_ok bs) by apply H.
  eexists vs, _. split; [exact E|]. split; [exact (views_size m a bs vs V Hok)|].
  rewrite list_bytes_length. clear - I K Hok.
  set (f := fun b n => (if existsb (N.eqb (b_type b)) [1; 2; 3; 4; 5; 6; 9; 11; 12; 13]
                        then b_length b else 2) + n).
  assert (G : fold_right f 0 bs <= fold_right (fun b n => b_length b + n) 0 bs).
  { clear I. induction bs as [|c bs IH]; [cbn; lia|]. inversion Hok; subst.
    specialize (IH H2). cbn [fold_right]. unfold f at 1. pose proof (b_length_ge c).
    destruct (existsb _ _); lia. }
  enough (fold_right f 0 bs + 6 <= fold_right (fun b n => b_length b + n) 0 bs) by lia.
  clear G. induction bs as [|c bs IH]; [contradiction|]. inversion Hok as [|? ? Hc Hbs]; subst.
  cbn [fold_right]. unfold f at 1. pose proof (b_length_ge c).
  assert (G : fold_right f 0 bs <= fold_right (fun b n => b_length b + n) 0 bs).
  { clear. induction bs as [|c bs IH]; [cbn; lia|].
    cbn [fold_right]. unfold f at 1. pose proof (b_length_ge c). destruct (existsb _ _); lia. }
  destruct I as [<-|I].
  - replace (existsb _ _) with false; [lia|]. symmetry. apply not_true_iff_false. intros X.
    apply existsb_exists in X. destruct X as (x & X1 & X2). apply N.eqb_eq in X2. subst. contradiction.
  - specialize (IH I Hbs). destruct (existsb _ _); lia.
Qed.

(** Looking up the header of a block of unknown type forgets its length. *)
Theorem c41_misc_header_refuted dbg m bs a r : hob_list_at m a bs r ->
  forall b vs, nth_error bs 0 = Some b -> ~ In (b_type b) [1; 2; 3; 4; 5; 6; 9; 11; 12; 13] ->
  b_length b <> 8 -> discover_hobs dbg m [] a = HRet vs ->
  exists v, nth_error vs 0 = Some v /\ hob_header m v = Some (Header (b_type b) 8 0) /\
            read_header m a = Some (Header (b_type b) (b_length b) (b_reserved b)).
Proof.
  intros H b vs E K L D. destruct (c41_discover dbg m bs a r [] H) as (vs' & E' & V).
  rewrite E' in D. injection D as <-. cbn [app] in *.
  destruct V as [|a b' bs v vs [Hh V] W]; [discriminate|]. injection E as ->.
  exists v. split; [reflexivity|].
  assert (Hb : block_ok b) by (destruct H as (_ & _ & Ho & _); now inversion Ho).
  split; [|now apply block_header].
  destruct v as [k p|p d n|t].
  - exfalso. apply K, in_known. destruct V as (_ & V & _). destruct k; cbn [kind_is] in V; lia.
  - exfalso. apply K, in_known. destruct V as (_ & V & _). lia.
  - destruct V as [-> _]. reflexivity.
Qed.

(** Iterating from a block of unknown type dereferences its type number. *)
Theorem c41_misc_iter_refuted dbg m t : t < r_base m -> iterate dbg m (HMisc t) = HFault.
Proof.
  intros H. unfold iterate, walk_fuel. cbn [hob_as_ptr iter_loop]. unfold iter_next.
  destruct (t =? 0); [reflexivity|]. unfold read_header, rd.
  now replace (r_base m <=? t) with false by lia.
Qed.

(** ** Ill-formed memory *)

(** A block whose length contradicts its type stops discovery with a panic
    instead of being misread; for a GUID block, shorter than its header, it
    is a panic only in a debug build. *)
Theorem c41_wrong_length dbg m a h l k : a <> 0 -> read_header m a = Some h ->
  In (hh_type h, k) [(1, KHandoff); (3, KResDesc); (5, KFv); (6, KCpu); (9, KFv2);
                     (11, KCapsule); (12, KFv3); (13, KResDescV2)] ->
  hh_length h <> size_of k -> discover_hobs dbg m l a = HPanic.
Proof.
  intros Ha R I L. unfold discover_hobs, walk_fuel. cbn [discover_loop].
  replace (a =? 0) with false by lia. rewrite R.
  assert (S : forall k', k' = k -> sized_ref m k' h a = HPanic).
  { intros ? ->. unfold sized_ref. now replace (hh_length h =? size_of k) with false by lia. }
  unfold discover_one. on_type tt. cbn [In] in I.
  repeat (destruct I as [I|I]; [injection I as I1 I2; rewrite <- I1;
    cbv beta iota zeta delta [N.eqb Pos.eqb]; rewrite S by auto; reflexivity|]).
  contradiction.
Qed.

Theorem c41_wrong_length_alloc dbg m a h l : a <> 0 -> read_header m a = Some h ->
  hh_type h = 2 -> hh_length h <> 48 -> hh_length h <> 72 -> discover_hobs dbg m l a = HPanic.
Proof.
  intros Ha R T L1 L2. unfold discover_hobs, walk_fuel. cbn [discover_loop].
  replace (a =? 0) with false by lia. rewrite R. unfold discover_one. rewrite T.
  change (2 =? HANDOFF) with false. change (2 =? MEMORY_ALLOCATION) with true. cbv beta iota zeta.
  unfold sized_ref. cbn [size_of].
  replace (hh_length h =? 72) with false by lia. now replace (hh_length h =? 48) with false by lia.
Qed.

Theorem c41_short_guid_refuted m a h l : a <> 0 -> read_header m a = Some h ->
  hh_type h = 4 -> hh_length h < 24 -> rd m a 24 <> None -> N.of_nat (length (r_bytes m)) < 2 ^ 63 ->
  discover_hobs true m l a = HPanic /\ discover_hobs false m l a = HFault.
Proof.
  intros Ha R T L G Big. unfold discover_hobs, walk_fuel. cbn [discover_loop].
  replace (a =? 0) with false by lia. rewrite R. unfold discover_one. rewrite T.
  change (4 =? HANDOFF) with false. change (4 =? MEMORY_ALLOCATION) with false.
  change (4 =? RESOURCE_DESCRIPTOR) with false. change (4 =? GUID_EXTENSION) with true. cbv beta iota zeta.
  unfold guid_ref. replace (a =? 0) with false by lia. unfold SIZE_GUID_HOB.
  destruct (rd m a 24) eqn:G'; [|contradiction]. unfold usub.
  replace (24 <=? hh_length h) with false by lia. split; [reflexivity|].
  set (n := (hh_length h + two64 - 24) mod two64).
  assert (Hn : 2 ^ 63 <= n).
  { unfold n. rewrite N.mod_small; change two64 with (2 * 2 ^ 63); change (2 ^ 63) with 9223372036854775808; lia. }
  destruct (rd m (a + 24) n) eqn:X; [|reflexivity].
  unfold rd in X, G'. set (Q := 2 ^ 63) in *. clearbody Q n.
  destruct ((r_base m <=? a + 24) && (a + 24 + n <=? r_base m + N.of_nat (length (r_bytes m)))) eqn:C;
    [|discriminate].
  destruct ((r_base m <=? a) && (a + 24 <=? r_base m + N.of_nat (length (r_bytes m)))) eqn:C'; [|discriminate].
  exfalso. lia.
Qed.

(** A block of unknown type and length zero keeps discovery, sizing and
    iteration going for ever. *)
Theorem c41_zero_length_refuted dbg m a h : 0 < a < two64 -> read_header m a = Some h ->
  hh_length h = 0 -> ~ In (hh_type h) [1; 2; 3; 4; 5; 6; 9; 11; 12; 13; 65535] ->
  forall fuel, (forall l, discover_loop dbg fuel m a l = HHang) /\
    (forall n, size_loop dbg fuel m a n = HHang) /\ iter_loop dbg fuel m a = HHang.
Proof.
  intros Ha R L K.
  assert (T : hh_type h <> 1 /\ hh_type h <> 2 /\ hh_type h <> 3 /\ hh_type h <> 4 /\ hh_type h <> 5 /\
              hh_type h <> 6 /\ hh_type h <> 9 /\ hh_type h <> 11 /\ hh_type h <> 12 /\ hh_type h <> 13 /\
              hh_type h <> 65535) by (cbn [In] in K; intuition).
  clear K.
  assert (Nx : next_addr dbg a (hh_length h) = HRet a).
  { rewrite L, next_ok; [f_equal; lia|]. lia. }
  assert (D : discover_one dbg m h a = Some (HRet (HMisc (hh_type h)))).
  { unfold discover_one. on_type tt.
    repeat match goal with |- context [hh_type h =? ?x] => replace (hh_type h =? x) with false by lia end.
    reflexivity. }
  assert (I : iter_one dbg m h a = Some (HRet (HMisc (hh_type h)))).
  { unfold iter_one. on_type tt.
    repeat match goal with |- context [hh_type h =? ?x] => replace (hh_type h =? x) with false by lia end.
    reflexivity. }
  induction fuel as [|fuel (IH1 & IH2 & IH3)]; [auto|].
  assert (E0 : (a =? 0) = false) by lia.
  split; [|split].
  - intros l. cbn [discover_loop]. now rewrite E0, R, D, Nx.
  - intros n. cbn [size_loop]. rewrite E0, R.
    replace (hh_type h =? END_OF_HOB_LIST) with false by (unfold END_OF_HOB_LIST; lia). now rewrite Nx.
  - cbn [iter_loop]. unfold iter_next. now rewrite E0, R, I, Nx, IH3.
Qed.

Lemma rd_in m a n bs : rd m a n = Some bs ->
  r_base m <= a /\ a + n <= r_base m + N.of_nat (length (r_bytes m)).
Proof. unfold rd. destruct (_ && _) eqn:C; [|discriminate]. intros _. lia. Qed.

Lemma bytes_ok_cut n k l : bytes_ok l -> bytes_ok (firstn n (skipn k l)).
Proof.
  intros H. unfold bytes_ok in *. rewrite <- (firstn_skipn k l) in H. apply Forall_app in H.
  destruct H as [_ H]. rewrite <- (firstn_skipn n (skipn k l)) in H. now apply Forall_app in H.
Qed.

Lemma rd_bytes_ok m a n bs : bytes_ok (r_bytes m) -> rd m a n = Some bs -> bytes_ok bs.
Proof.
  intros B E. unfold rd in E. destruct (_ && _) in E; [|discriminate]. injection E as <-.
  now apply bytes_ok_cut.
Qed.

Lemma hh_length_small m a h : bytes_ok (r_bytes m) -> read_header m a = Some h -> hh_length h < 65536.
Proof.
  intros B R. unfold read_header in R. destruct (rd m a 8) as [bs|] eqn:E; [|discriminate].
  injection R as <-. cbn [hh_length header_of]. unfold le_at.
  assert (Bb : bytes_ok bs).
  { now apply (rd_bytes_ok m a 8). }
  pose proof (le_val_bound _ (bytes_ok_cut 2 2 bs Bb)) as V.
  eapply N.lt_le_trans; [exact V|].
  change 65536 with (256 ^ 2). apply N.pow_le_mono_r; [lia|].
  pose proof (firstn_le_length 2 (skipn 2 bs)). lia.
Qed.

(** A zero-length block is the only reason for discovery not to end, in any
    memory whatever. *)
Theorem c41_hang_zero_length dbg m a l : bytes_ok (r_bytes m) ->
  r_base m + N.of_nat (length (r_bytes m)) + 65536 <= 2 ^ 64 ->
  discover_hobs dbg m l a = HHang ->
  exists a' h, a <= a' /\ read_header m a' = Some h /\ hh_length h = 0.
Proof.
  intros B W. unfold discover_hobs.
  assert (G : forall fuel a l, discover_loop dbg fuel m a l = HHang ->
    r_base m + N.of_nat (length (r_bytes m)) < a + N.of_nat fuel -> (0 < fuel)%nat ->
    exists a' h, a <= a' /\ read_header m a' = Some h /\ hh_length h = 0).
  { induction fuel as [|fuel IH]; intros a0 l0 H F Pos; [lia|].
    cbn [discover_loop] in H. destruct (N.eqb_spec a0 0) as [->|Ha]; [discriminate|].
    destruct (read_header m a0) as [h|] eqn:R; [|discriminate].
    assert (In8 : a0 + 8 <= r_base m + N.of_nat (length (r_bytes m))).
    { unfold read_header in R. destruct (rd m a0 8) eqn:X; [|discriminate].
      apply rd_in in X. lia. }
    pose proof (hh_length_small m a0 h B R) as Sm.
    destruct (N.eq_dec (hh_length h) 0) as [Z|Z]; [exists a0, h; split; [lia|auto]|].
    destruct (discover_one dbg m h a0) as [[v| | |]|] eqn:D; try discriminate.
    - rewrite next_ok in H by (change two64 with (2 ^ 64); set (P := 2 ^ 64) in *; clearbody P; lia).
      destruct (IH _ _ H) as (a' & h' & Q1 & Q2 & Q3); [lia|lia|].
      exists a', h'. split; [lia|auto].
    - exfalso. clear - D. unfold discover_one, sized_ref, guid_ref, as_ref in D.
      repeat match type of D with
      | context [if ?c then _ else _] => destruct c; try discriminate
      | context [match ?c with _ => _ end] => destruct c; try discriminate
      end. }
  destruct (N.le_gt_cases (r_base m) a) as [Ge|Lt].
  - intros H. apply (G (walk_fuel m) a l H); unfold walk_fuel; lia.
  - unfold walk_fuel. cbn [discover_loop]. destruct (a =? 0); [discriminate|].
    unfold read_header, rd. replace (r_base m <=? a) with false by lia. discriminate.
Qed.

(** ** Resource attributes and conversion *)

Lemma has_bit attr k : negb (N.land attr (2 ^ k) =? 0) = N.testbit attr k.
Proof.
  destruct (N.testbit attr k) eqn:T.
  - apply negb_true_iff, N.eqb_neq. intros E.
    assert (X : N.testbit (N.land attr (2 ^ k)) k = true)
      by (now rewrite N.land_spec, T, N.pow2_bits_true).
    rewrite E, N.bits_0 in X. discriminate.
  - apply negb_false_iff, N.eqb_eq. apply N.bits_inj_0. intros n.
    rewrite N.land_spec. destruct (N.eq_dec n k) as [->|Ne]; [now rewrite T|].
    rewrite N.pow2_bits_false by auto. apply andb_false_r.
Qed.

(** The check enforces four of the five rules exactly, and in the fifth ties
    READ_PROTECTED to READ_ONLY_PROTECTABLE. *)
Theorem c41_attributes_valid_partial attr :
  attributes_valid attr = true <->
  Forall (obeys attr) (Rule 7 19 :: tl attr_rules).
Proof.
  unfold attributes_valid.
  change 128 with (2 ^ 7). change 256 with (2 ^ 8). change 512 with (2 ^ 9).
  change 262144 with (2 ^ 18). change 524288 with (2 ^ 19). change 2097152 with (2 ^ 21).
  change 4194304 with (2 ^ 22). change 8388608 with (2 ^ 23). change 16777216 with (2 ^ 24).
  rewrite !has_bit. rewrite !andb_true_iff, !orb_true_iff, !negb_true_iff.
  unfold attr_rules. cbn [tl]. rewrite !Forall_cons_iff. unfold obeys. cbn [r_is r_can].
  split.
  - intros ((((A & B) & C) & D) & E). repeat split; try constructor; intros X;
      match goal with H : _ \/ ?g |- ?g => destruct H; [congruence|assumption] end.
  - intros (A & B & C & D & E & _).
    repeat split;
    match goal with |- ?x = false \/ _ => destruct x; [right; auto|left; reflexivity] end.
Qed.

Theorem c41_attributes_valid_refuted :
  (exists attr, Forall (obeys attr) attr_rules /\ attributes_valid attr = false) /\
  (exists attr, ~ Forall (obeys attr) attr_rules /\ attributes_valid attr = true).
Proof.
  split.
  - exists (2 ^ 7 + 2 ^ 20). split; [|reflexivity].
    repeat constructor; unfold obeys; cbn; congruence.
  - exists (2 ^ 7 + 2 ^ 19). split; [|reflexivity].
    intros F. inversion F as [|? ? H _]. specialize (H eq_refl). discriminate.
Qed.

(** Converting a legal version 1 descriptor gives a version 2 descriptor with
    the same range, type and attributes, but with version 1's length in its
    header. *)
Theorem c41_v2_from_v1_refuted v : hh_type (rs_header v) = 3 -> pi_length 3 (hh_length (rs_header v)) ->
  let w := resdesc2_from v in
  rs_start (r2_v1 w) = rs_start v /\ rs_len (r2_v1 w) = rs_len v /\ rs_type (r2_v1 w) = rs_type v /\
  rs_attr (r2_v1 w) = rs_attr v /\ rs_owner (r2_v1 w) = rs_owner v /\ r2_attributes w = 0 /\
  hh_type (rs_header (r2_v1 w)) = 13 /\
  ~ pi_length (hh_type (rs_header (r2_v1 w))) (hh_length (rs_header (r2_v1 w))).
Proof.
  intros T L. cbn [pi_length] in L. cbn. rewrite L. repeat split; discriminate.
Qed.

(** A resource descriptor's fields are read from their places in the block:
    owner, resource type, attributes, start, length (PI specification volume
    3, 5.6), whatever follows it in memory. *)
Theorem c41_resource_fields res owner ty attr start len rest :
  res < 2 ^ 32 -> length owner = 16%nat -> ty < 2 ^ 32 -> attr < 2 ^ 32 ->
  start < 2 ^ 64 -> len < 2 ^ 64 ->
  let b := Block 3 res (owner ++ le_bytes 4 ty ++ le_bytes 4 attr ++ le_bytes 8 start ++ le_bytes 8 len) in
  resdesc_of (block_bytes b ++ rest) = ResDesc (Header 3 48 res) owner ty attr start len.
Proof.
  intros HR HO HT HA HS HL b.
  assert (BL : b_length b = 48).
  { unfold b_length, b. cbn [b_body]. rewrite !app_length, !le_bytes_length, HO. reflexivity. }
  unfold resdesc_of, header_of, block_bytes. rewrite BL. cbn [b b_type b_reserved b_body].
  f_equal; [f_equal| | | | |].
  - rewrite <- !app_assoc. rewrite (app_assoc (le_bytes 2 3)).
    apply (le_at_app' (le_bytes 2 3 ++ le_bytes 2 48) res 4); [reflexivity|exact HR].
  - rewrite <- !app_assoc.
    replace (skipn 8 _) with (owner ++ le_bytes 4 ty ++ le_bytes 4 attr ++ le_bytes 8 start ++ le_bytes 8 len ++ rest).
    + rewrite <- HO. apply firstn_app_exact.
    + rewrite !(app_assoc _ _ (owner ++ _)).
      symmetry. apply (skipn_app_exact (((le_bytes 2 3) ++ le_bytes 2 48) ++ le_bytes 4 res)).
  - rewrite <- !app_assoc, !(app_assoc _ _ (le_bytes 4 ty ++ _)).
    apply le_at_app'; [rewrite !app_length, !le_bytes_length, HO; reflexivity|exact HT].
  - rewrite <- !app_assoc, !(app_assoc _ _ (le_bytes 4 attr ++ _)).
    apply le_at_app'; [rewrite !app_length, !le_bytes_length, HO; reflexivity|exact HA].
  - rewrite <- !app_assoc, !(app_assoc _ _ (le_bytes 8 start ++ _)).
    apply le_at_app'; [rewrite !app_length, !le_bytes_length, HO; reflexivity|exact HS].
  - rewrite <- !app_assoc, !(app_assoc _ _ (le_bytes 8 len ++ _)).
    apply le_at_app'; [rewrite !app_length, !le_bytes_length, HO; reflexivity|exact HL].
Qed.

(** ** Examples *)

(** A list with a PHIT, an unknown block, a GUID block and a CPU block. *)
Definition sample_blocks : list block :=
  [ Block 1 0 (repeat 7 48); Block 7 0 (repeat 1 12); Block 4 5 (repeat 9 19); Block 6 0 (repeat 2 8) ].
Definition sample_mem : region := Region 8192 (repeat 3 5 ++ list_bytes sample_blocks 0 ++ repeat 4 9).

Lemma bytes_ok_repeat x n : x < 256 -> bytes_ok (repeat x n).
Proof. intros H. induction n; constructor; auto. Qed.

Example sample_list_ok : hob_list_at sample_mem 8197 sample_blocks 0.
Proof.
  split; [lia|]. split; [vm_compute; discriminate|]. split.
  - repeat constructor; try (vm_compute; (reflexivity || discriminate)); apply bytes_ok_repeat; lia.
  - split; [reflexivity|]. exists (repeat 3 5), (repeat 4 9). split; reflexivity.
Qed.

Example sample_discovered : discover_hobs true sample_mem [] 8197 =
  HRet [HRef KHandoff 8197; HMisc 7; HGuid 8273 8297 3; HRef KCpu 8300].
Proof. reflexivity. Qed.

Example sample_iterated : iterate false sample_mem (HRef KHandoff 8197) =
  HRet [HRef KHandoff 8197; HMisc 7; HGuid 8273 8297 3; HRef KCpu 8300].
Proof. reflexivity. Qed.

Example sample_size : get_c_hob_list_size false sample_mem 8197 = HRet 127 /\
  hob_list_size sample_mem [HRef KHandoff 8197; HMisc 7; HGuid 8273 8297 3; HRef KCpu 8300] = Some 101.
Proof. split; reflexivity. Qed.

Example sample_zero_length : read_header (Region 16 [7; 0; 0; 0; 0; 0; 0; 0]) 16 = Some (Header 7 0 0).
Proof. reflexivity. Qed.

Example sample_short_guid :
  let m := Region 16 ([4; 0; 10; 0] ++ repeat 0 40) in
  read_header m 16 = Some (Header 4 10 0) /\ rd m 16 24 <> None /\
  discover_hobs false m [] 16 = HFault.
Proof. vm_compute. repeat split; discriminate. Qed.

(** The iterator checks no lengths: an 8-byte PHIT is handed out as the full
    56-byte structure, reading on into whatever follows. *)
Example iter_unchecked :
  iterate true (Region 64 ([1; 0; 8; 0; 0; 0; 0; 0] ++ end_bytes 0 ++ repeat 255 40)) (HRef KHandoff 64)
  = HRet [HRef KHandoff 64].
Proof. reflexivity. Qed.

Example sample_resource :
  resdesc_of (block_bytes (Block 3 0 (repeat 6 16 ++ le_bytes 4 0 ++ le_bytes 4 15367 ++ le_bytes 8 4096 ++ le_bytes 8 8192)))
  = ResDesc (Header 3 48 0) (repeat 6 16) 0 15367 4096 8192.
Proof. reflexivity. Qed.

Print Assumptions c41_resource_fields.
Print Assumptions c41_discover.
Print Assumptions c41_c_list_size.
Print Assumptions c41_iter_partial.
Print Assumptions c41_iter_v2.
Print Assumptions c41_iter_refuted.
Print Assumptions c41_list_size_partial.
Print Assumptions c41_list_size_refuted.
Print Assumptions c41_misc_header_refuted.
Print Assumptions c41_misc_iter_refuted.
Print Assumptions c41_wrong_length.
Print Assumptions c41_wrong_length_alloc.
Print Assumptions c41_short_guid_refuted.
Print Assumptions c41_zero_length_refuted.
Print Assumptions c41_hang_zero_length.
Print Assumptions c41_attributes_valid_partial.
Print Assumptions c41_attributes_valid_refuted.
Print Assumptions c41_v2_from_v1_refuted.
