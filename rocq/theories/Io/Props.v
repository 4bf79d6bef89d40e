(** I/O-space services: the property theorems (C07). *)
From Verif Require Import Base.Prelude Align.Proofs Gcd.Blocks Gcd.Model Gcd.Spec Gcd.BlockProofs Gcd.Proofs Gcd.AllocProofs
  Io.Model Io.Spec Io.Proofs Io.Main.
Local Open Scope N_scope.

(** The map always tiles the whole I/O space, maximally merged, and is what the descriptor query returns. *)
Theorem io_map_tiles : forall dbg bits ops g bufcap,
  io_reachable dbg bits ops g -> N.of_nat (length (i_blocks g)) <= bufcap ->
  fst (get_io_descriptors g 0 bufcap) = Ok (io_view g) /\ tiles 0 (2 ^ bits) (io_view g) /\ merged (io_view g).
Proof.
  intros dbg bits ops g c HR Hc. destruct (io_reach_inv _ _ _ _ HR) as (HI & Em & _).
  destruct (io_view_tiles g HI) as (T & M & _). rewrite Em in T. split; [|auto].
  unfold get_io_descriptors. pose proof (inv_max g HI).
  destruct (N.eqb_spec (i_max g) 0); [lia|]. destruct (N.ltb_spec c (N.of_nat (length (i_blocks g)))); [lia|].
  cbn. f_equal. apply ensure_ok. exact HI.
Qed.
Print Assumptions io_map_tiles.

(** A successful call changes exactly its range, in exactly the documented way. *)
Theorem io_call_exact_effect : forall dbg bits ops g o v g',
  io_reachable dbg bits ops g -> io_op_wf o -> io_step g o = (Ok v, g') ->
  match o with
  | IoDescriptors _ _ => io_view g' = io_view g
  | _ => exists base len s s', io_range o v = (base, len) /\ 0 < len /\ base + len <= 2 ^ bits /\
           io_effect o s s' /\ range_changed (io_view g) (io_view g') base len s s'
  end.
Proof.
  intros dbg bits ops g o v g' HR HW HS. destruct (io_reach_inv _ _ _ _ HR) as (HI & Em & _).
  pose proof (io_step_post _ _ _ _ HI HW HS) as P. cbn [io_post] in P. rewrite Em in P. tauto.
Qed.
Print Assumptions io_call_exact_effect.

(** A failed call changes nothing a caller can see. *)
Theorem io_call_failure_atomic : forall dbg bits ops g o e g',
  io_reachable dbg bits ops g -> io_op_wf o -> io_step g o = (Err e, g') -> io_view g' = io_view g.
Proof.
  intros dbg bits ops g o e g' HR HW HS. destruct (io_reach_inv _ _ _ _ HR) as (HI & Em & _).
  pose proof (io_step_post _ _ _ _ HI HW HS) as P. cbn [io_post] in P. tauto.
Qed.
Print Assumptions io_call_failure_atomic.

(** No sequence of calls panics in a release build. *)
Theorem io_release_never_panics : forall bits ops, bits < 64 -> Forall io_op_wf ops ->
  exists g, io_run (io_new false bits) ops = Some g.
Proof.
  intros bits ops Hb. pose proof (new_io_inv false bits Hb) as HI.
  assert (HD : i_dbg (io_new false bits) = false) by reflexivity. revert HI HD.
  generalize (io_new false bits). induction ops as [|o ops IH]; intros g HI HD HW; [cbn; eauto|].
  inversion HW; subst. cbn [io_run]. destruct (io_step g o) as [r g1] eqn:ES.
  pose proof (io_step_post g o r g1 HI ltac:(assumption) ES) as P.
  destruct r; cbn [io_post] in P; [| |congruence]; destruct P as ((I1 & _ & D1) & _); apply IH; auto; congruence.
Qed.
Print Assumptions io_release_never_panics.

(** An allocation is aligned, within the requested bound, and takes only unallocated I/O space of the
    requested type. *)
Theorem io_allocation_is_safe : forall dbg bits ops g at_ ty shift len image device v g',
  io_reachable dbg bits ops g -> io_op_wf (IoAllocate at_ ty shift len image device) ->
  io_step g (IoAllocate at_ ty shift len image device) = (Ok v, g') ->
  0 < len /\ v + len <= 2 ^ bits /\ aligned shift v /\ within_bound at_ v len /\ image <> 0 /\ ty <> IoNonExistent /\
  exists s, is_alloc s = false /\ is_type s = ty /\ io_uniform g v len s /\
    io_uniform g' v len (mkIs true ty image match device with Some d => d | None => is_device s end) /\
    (forall a, ~ in_range v len a -> state_at (io_view g') a = state_at (io_view g) a).
Proof.
  intros dbg bits ops g at_ ty shift len image device v g' HR HW HS.
  destruct (io_reach_inv _ _ _ _ HR) as (HI & Em & _). cbn [io_step] in HS.
  destruct (io_step_alloc _ _ _ _ _ _ _ _ _ HI HW HS) as (P & A1 & A2 & A3). cbn [io_post io_range io_effect] in P.
  destruct P as (_ & base & l & s & s' & R & P1 & P2 & (E1 & E2 & E3 & ->) & (R1 & R2)). inversion R; subst.
  rewrite Em in P2. repeat (split; [auto; fail|]). exists s. split; [exact E1|]. split; [reflexivity|].
  split; [intros a Ha; now apply R1|]. split; [intros a Ha; now apply R1|exact R2].
Qed.
Print Assumptions io_allocation_is_safe.

(** Two allocations never overlap while the first has not been freed. *)
Theorem io_live_allocations_disjoint : forall dbg bits ops g at1 ty1 sh1 len1 im1 dv1 v1 g1 mid g2 at2 ty2 sh2 len2 im2 dv2 v2 g3,
  io_reachable dbg bits ops g ->
  io_op_wf (IoAllocate at1 ty1 sh1 len1 im1 dv1) -> io_op_wf (IoAllocate at2 ty2 sh2 len2 im2 dv2) -> Forall io_op_wf mid ->
  io_step g (IoAllocate at1 ty1 sh1 len1 im1 dv1) = (Ok v1, g1) -> io_run g1 mid = Some g2 ->
  (forall b l a, In (IoFree b l) mid -> in_range b l a -> ~ in_range v1 len1 a) ->
  io_step g2 (IoAllocate at2 ty2 sh2 len2 im2 dv2) = (Ok v2, g3) ->
  forall a, in_range v1 len1 a -> ~ in_range v2 len2 a.
Proof.
  intros dbg bits ops g at1 ty1 sh1 len1 im1 dv1 v1 g1 mid g2 at2 ty2 sh2 len2 im2 dv2 v2 g3 HR W1 W2 Wm S1 SR Hf S2 a Ha1 Ha2.
  destruct (io_reach_inv _ _ _ _ HR) as (HI & _).
  pose proof (io_step_post _ _ _ _ HI W1 S1) as P1. cbn [io_post io_range io_effect] in P1.
  destruct P1 as ((I1 & _) & base & l & s & s' & R & _ & _ & (_ & _ & _ & ->) & (R1 & _)). inversion R; subst.
  assert (A1 : io_allocated g1 a) by (eexists; split; [apply R1; exact Ha1|reflexivity]).
  assert (A2 : io_allocated g2 a).
  { eapply (io_run_keeps mid g1); eauto. intros b l' Hin Hr. exact (Hf _ _ _ Hin Hr Ha1). }
  destruct (io_run_frame _ _ _ I1 Wm SR) as (I2 & _).
  pose proof (io_step_post _ _ _ _ I2 W2 S2) as P2. cbn [io_post io_range io_effect] in P2.
  destruct P2 as (_ & base2 & l2 & s2 & s2' & R' & _ & _ & (F & _) & (R2 & _)). inversion R'; subst.
  destruct (R2 a Ha2) as (Q & _). destruct A2 as (s3 & Q1 & Q2). congruence.
Qed.
Print Assumptions io_live_allocations_disjoint.

(** Bottom-up returns the lowest feasible address, top-down the highest; a failure means that there is none
    (or that the request is malformed or the map has no spare entries). *)
Theorem io_bottom_up_lowest : forall dbg bits ops g max ty shift len image device r g',
  io_reachable dbg bits ops g -> io_op_wf (IoAllocate (BottomUp max) ty shift len image device) ->
  io_step g (IoAllocate (BottomUp max) ty shift len image device) = (r, g') ->
  let m := match max with Some a => a | None => u64_max end in
  match r with
  | Ok v => io_feasible_up g ty shift len m v /\ forall a, io_feasible_up g ty shift len m a -> v <= a
  | Err _ => len = 0 \/ image = 0 \/ ~ io_room g \/ forall a, ~ io_feasible_up g ty shift len m a
  | Panic => dbg = true
  end.
Proof.
  intros dbg bits ops g max ty shift len image device r g' HR HW HS m.
  destruct (io_reach_inv _ _ _ _ HR) as (HI & Em & Ed). pose proof (inv_max g HI) as Hm.
  cbn [io_step] in HS. pose proof (io_step_alloc _ _ _ _ _ _ _ _ _ HI HW HS) as PA.
  destruct HW as (W1 & W2 & W3 & W4). unfold allocate_io_space in HS.
  destruct (N.eqb_spec (i_max g) 0); [lia|].
  destruct (N.eqb_spec len 0); cbn [orb] in HS; [inversion HS; subst; auto|].
  destruct (N.eqb_spec image 0); [inversion HS; subst; auto|].
  assert (Wm : word m) by (subst m; destruct max; [exact W4|reflexivity]).
  apply io_up_call in HS; [|assumption|lia|assumption|assumption].
  destruct r as [v|e|]; [|destruct HS as (_ & HS)|congruence].
  - destruct HS as (_ & H1 & H2 & H3). split; [|exact H3].
    destruct PA as ((_ & base & l & s & s' & R & _ & _ & EF & (R1 & _)) & _). cbn in R, EF. inversion R; subst.
    destruct EF as (E1 & E2 & E3 & _). split; [|split; [exact H1|exact H2]].
    split; [exact E3|]. exists s. repeat (split; [assumption|]). intros x Hx. now apply R1.
  - destruct (N.le_gt_cases (N.of_nat (length (io_view g)) + 2) IO_BLOCK_SLICE_LEN) as [L|L].
    + right; right; right. now apply HS.
    + right; right; left. unfold io_room. lia.
Qed.
Print Assumptions io_bottom_up_lowest.

Theorem io_top_down_highest : forall dbg bits ops g max ty shift len image device r g',
  io_reachable dbg bits ops g -> io_op_wf (IoAllocate (TopDown max) ty shift len image device) ->
  io_step g (IoAllocate (TopDown max) ty shift len image device) = (r, g') ->
  let m := match max with Some a => a | None => u64_max end in
  match r with
  | Ok v => io_feasible_down g ty shift len m v /\ forall a, io_feasible_down g ty shift len m a -> a <= v
  | Err _ => len = 0 \/ image = 0 \/ ~ io_room g \/ forall a, ~ io_feasible_down g ty shift len m a
  | Panic => dbg = true
  end.
Proof.
  intros dbg bits ops g max ty shift len image device r g' HR HW HS m.
  destruct (io_reach_inv _ _ _ _ HR) as (HI & Em & Ed). pose proof (inv_max g HI) as Hm.
  cbn [io_step] in HS. pose proof (io_step_alloc _ _ _ _ _ _ _ _ _ HI HW HS) as PA.
  destruct HW as (W1 & W2 & W3 & W4). unfold allocate_io_space in HS.
  destruct (N.eqb_spec (i_max g) 0); [lia|].
  destruct (N.eqb_spec len 0); cbn [orb] in HS; [inversion HS; subst; auto|].
  destruct (N.eqb_spec image 0); [inversion HS; subst; auto|].
  assert (Wm : word m) by (subst m; destruct max; [exact W4|reflexivity]).
  apply io_down_call in HS; [|assumption|lia|assumption|assumption].
  destruct r as [v|e|]; [|destruct HS as (_ & HS)|congruence].
  - destruct HS as (_ & H1 & H2 & H3). split; [|exact H3].
    destruct PA as ((_ & base & l & s & s' & R & _ & _ & EF & (R1 & _)) & _). cbn in R, EF. inversion R; subst.
    destruct EF as (E1 & E2 & E3 & _). split; [|split; [exact H1|exact H2]].
    split; [exact E3|]. exists s. repeat (split; [assumption|]). intros x Hx. now apply R1.
  - destruct (N.le_gt_cases (N.of_nat (length (io_view g)) + 2) IO_BLOCK_SLICE_LEN) as [L|L].
    + right; right; right. now apply HS.
    + right; right; left. unfold io_room. lia.
Qed.
Print Assumptions io_top_down_highest.

(** With spare map entries, add/remove/free succeed exactly when the range is in bounds, uniform and in the right state. *)
Theorem io_range_call_iff : forall dbg bits ops g o base len,
  io_reachable dbg bits ops g -> io_room g -> io_op_wf o ->
  match o with IoAdd _ _ _ | IoRemove _ _ | IoFree _ _ => True | _ => False end ->
  io_range o 0 = (base, len) ->
  ((exists v, fst (io_step g o) = Ok v) <->
   0 < len /\ base + len <= 2 ^ bits /\ exists s s', io_uniform g base len s /\ io_effect o s s').
Proof.
  intros dbg bits ops g o base len HR Hroom HW Ho HRg.
  destruct (io_reach_inv _ _ _ _ HR) as (HI & Em & Ed). pose proof (inv_max g HI) as Hm.
  split.
  - intros (v & Hv). destruct (io_step g o) as [r g'] eqn:ES. cbn in Hv. subst r.
    pose proof (io_step_post _ _ _ _ HI HW ES) as P. cbn [io_post] in P. rewrite Em in P. destruct P as (_ & P).
    assert (Hr : io_range o v = io_range o 0) by (destruct o; tauto || reflexivity).
    assert (P' : exists base len s s', io_range o v = (base, len) /\ 0 < len /\ base + len <= 2 ^ bits /\
               io_effect o s s' /\ range_changed (io_view g) (io_view g') base len s s') by (destruct o; tauto).
    destruct P' as (b0 & l0 & s & s' & R & P1 & P2 & P3 & (P4 & _)). rewrite Hr, HRg in R. inversion R; subst.
    split; [exact P1|]. split; [exact P2|]. exists s, s'. split; [|exact P3]. intros a Ha. now apply P4.
  - intros (H0 & Hle & s & s' & HU & HE). rewrite <- Em in Hle.
    destruct (ensure_ok g HI) as (E1 & E2 & E3 & E4 & E5).
    assert (HU' : io_uniform (ensure_init g) base len s) by (unfold io_uniform; rewrite E5; exact HU).
    assert (UF : forall t, exists pre b post, i_blocks (ensure_init g) = pre ++ b :: post /\
       closest (i_blocks (ensure_init g)) base = Some (b_base b) /\
       lookup (i_blocks (ensure_init g)) (b_base b) = Some b /\ b_st b = s /\
       (io_state_transition t s = Some s' -> exists k g', io_sst (ensure_init g) (b_base b) base len t = (Ok k, g'))).
    { intros t. destruct (at_base g base len t HI) as (pre & b & post & E & C & L & B1 & B2 & P);
        [unfold word; lia|unfold word; lia|]. exists pre, b, post.
      assert (X : fits b base len /\ s = b_st b).
      { unfold io_uniform in HU'. rewrite (io_ok_view _ E1) in HU'. pose proof E1 as (_ & HT & HG & _).
        rewrite E in HT, HG, HU'. eapply uniform_fits; eauto. split; [assumption|]. apply B2. lia. }
      destruct X as (X1 & X2). repeat (split; [auto; fail|]). intros T. rewrite X2 in T.
      pose proof (io_sst_spec _ _ _ _ base len t E1 E ltac:(unfold word; lia) ltac:(unfold word; lia)) as PP.
      destruct (io_sst (ensure_init g) (b_base b) base len t) as [[k|e|] g'].
      - eauto.
      - destruct e; [destruct P as (_ & _ & P); congruence|destruct P as (_ & P); contradiction|destruct P as (_ & P); contradiction|contradiction].
      - destruct PP. lia. }
    pose proof (io_check_fits g base len Hm H0 Hle) as CK.
    destruct o; try contradiction; cbn in HRg; inversion HRg; subst; clear HRg; cbn [io_step].
    + destruct (UF (ITAdd ty)) as (pre & b & post & E & C & L & Es & F).
      destruct F as (k & g' & F); [apply it_add; exact HE|].
      unfold add_io_space. rewrite CK, C, L, F. destruct HE as (_ & HE & _).
      rewrite Es, HE. cbn. eauto.
    + destruct (UF ITRemove) as (pre & b & post & E & C & L & Es & F).
      destruct F as (k & g' & F); [apply it_remove; exact HE|].
      unfold remove_io_space. rewrite CK, C, L, F. cbn. eauto.
    + destruct (UF ITFree) as (pre & b & post & E & C & L & Es & F).
      destruct F as (k & g' & F); [apply it_free; exact HE|].
      unfold free_io_space. rewrite CK, C, F. cbn. eauto.
Qed.
Print Assumptions io_range_call_iff.

(** Witness: a reachable state with three kinds of blocks, and requests that succeed in it. *)
Definition io_demo : list io_op :=
  [IoAdd IoIo 0x100 0x1000; IoAllocate (BottomUp None) IoIo 4 0x20 7 None; IoAdd IoReserved 0x4000 0x100;
   IoAllocate (TopDown (Some 0x10FF)) IoIo 8 0x80 9 (Some 3); IoFree 0x100 0x10].
Example io_demo_reachable : exists g, io_reachable true 16 io_demo g /\ io_room g /\ length (io_view g) = 9%nat /\
  fst (io_step g (IoAllocate (BottomUp None) IoIo 4 0x10 7 None)) = Ok 0x100 /\
  fst (io_step g (IoAllocate (TopDown None) IoIo 4 0x10 7 None)) = Ok 0x10F0 /\
  io_uniform g 0x110 0x10 (mkIs true IoIo 7 0).
Proof.
  eexists. split; [split; [reflexivity|]; split; [repeat constructor|vm_compute; reflexivity]|].
  split; [vm_compute; discriminate|]. split; [reflexivity|]. split; [vm_compute; reflexivity|].
  split; [vm_compute; reflexivity|]. intros a (H1 & H2). cbn [io_view i_blocks state_at b_base b_len b_st]. unfold b_end. cbn [b_base b_len].
  repeat match goal with |- context [if ?c then _ else _] => let Q := fresh in destruct c eqn:Q; try lia end. reflexivity.
Qed.
