From Verif Require Import Base.Prelude Align.Proofs Gcd.Blocks Gcd.Model Gcd.Spec Gcd.BlockProofs Gcd.Proofs Gcd.AllocProofs
  Io.Model Io.Spec Io.Proofs.
Local Open Scope N_scope.

Definition frame (g g' : iogcd) : Prop := io_inv g' /\ i_max g' = i_max g /\ i_dbg g' = i_dbg g.

Definition io_post (g : iogcd) (o : io_op) (r : res efi_error N) (g' : iogcd) : Prop :=
  match r with
  | Ok v => frame g g' /\
      match o with
      | IoDescriptors _ _ => io_view g' = io_view g
      | _ => exists base len s s', io_range o v = (base, len) /\ 0 < len /\ base + len <= i_max g /\
               io_effect o s s' /\ range_changed (io_view g) (io_view g') base len s s'
      end
  | Err _ => frame g g' /\ io_view g' = io_view g
  | Panic => i_dbg g = true
  end.

Lemma frame_ensure : forall g, io_inv g -> frame g (ensure_init g) /\ io_view (ensure_init g) = io_view g.
Proof.
  intros g HI. destruct (ensure_ok g HI) as (A & _ & B & C & D). split; [|exact D]. split; [left; exact A|auto].
Qed.
Lemma frame_refl : forall g, io_inv g -> frame g g.
Proof. intros. split; auto. Qed.

Lemma changed_frame : forall g g' base len s s', io_inv g -> changed (ensure_init g) g' base len s s' ->
  frame g g' /\ 0 < len /\ base + len <= i_max g /\ range_changed (io_view g) (io_view g') base len s s'.
Proof.
  intros g g' base len s s' HI (A1 & A2 & A3 & A4 & A5 & A6).
  destruct (ensure_ok g HI) as (E1 & E2 & E3 & E4 & E5).
  split; [split; [left; exact A1|split; congruence]|]. split; [exact A4|]. rewrite E3 in A5. split; [exact A5|].
  rewrite (io_ok_view _ A1), <- E2. exact A6.
Qed.

(** Shared shape of add, remove, free and allocate-at-address. *)
Lemma at_base : forall g base len t, io_inv g -> word base -> word len ->
  exists pre b post, i_blocks (ensure_init g) = pre ++ b :: post /\
    closest (i_blocks (ensure_init g)) base = Some (b_base b) /\
    lookup (i_blocks (ensure_init g)) (b_base b) = Some b /\
    b_base b <= base /\ (base < i_max g -> base < b_end b) /\
    let (r, g') := io_sst (ensure_init g) (b_base b) base len t in
    match r with
    | Ok _ => fits b base len /\
        exists s', io_state_transition t (b_st b) = Some s' /\
          frame g g' /\ 0 < len /\ base + len <= i_max g /\ range_changed (io_view g) (io_view g') base len (b_st b) s'
    | Err InvalidStateTransition => g' = ensure_init g /\ fits b base len /\ io_state_transition t (b_st b) = None
    | Err BlockOutsideRange => g' = ensure_init g /\ ~ fits b base len
    | Err OutOfSpace => g' = ensure_init g /\ ~ io_room g
    | Err AlreadyExists => False
    | Panic => i_dbg g = true
    end.
Proof.
  intros g base len t HI Hb Hl. destruct (ensure_ok g HI) as (E1 & E2 & E3 & E4 & E5).
  destruct (io_find (ensure_init g) base E1) as (pre & b & post & E & C & L & B1 & B2).
  exists pre, b, post. repeat (split; [assumption|]). split; [rewrite <- E3; exact B2|].
  pose proof (io_sst_spec _ _ _ _ base len t E1 E Hb Hl) as P.
  destruct (io_sst (ensure_init g) (b_base b) base len t) as [[k|e|] g'].
  - destruct P as (F & s' & T & Ch). split; [exact F|]. exists s'. split; [exact T|]. now apply changed_frame.
  - destruct e; try tauto. destruct P as (P1 & _ & _ & P2). split; [exact P1|].
    unfold io_room in *. rewrite E5 in P2. exact P2.
  - rewrite <- E4. tauto.
Qed.

Lemma io_step_add : forall g ty b l r g', io_inv g -> word b -> word l ->
  add_io_space g ty b l = (r, g') -> io_post g (IoAdd ty b l) r g'.
Proof.
  intros g ty b l r g' HI Hb Hl H. unfold add_io_space in H.
  destruct (frame_ensure g HI) as (FE & VE). pose proof (frame_refl g HI) as FR.
  destruct (io_check_range g b l) as [u|e|] eqn:EC; [|inversion H; subst; cbn; auto|].
  2: { inversion H; subst. cbn. pose proof (io_check_ok g' b l Hb Hl) as P. rewrite EC in P. apply P;
       destruct HI as [((? & ?) & _)|((? & ?) & _)]; assumption. }
  destruct (at_base g b l (ITAdd ty) HI Hb Hl) as (pre & blk & post & E & C & L & B1 & B2 & P).
  rewrite C, L in H. destruct (it_eqb (is_type (b_st blk)) IoNonExistent) eqn:ET; cbn [negb] in H;
    [|inversion H; subst; cbn; auto].
  destruct (io_sst (ensure_init g) (b_base blk) b l (ITAdd ty)) as [[k|e|] g1].
  - inversion H; subst. destruct P as (F & s' & T & FF & P1 & P2 & P3). apply it_add in T. cbn.
    split; [exact FF|]. exists b, l, (b_st blk), s'. auto.
  - destruct e; try (destruct P as (-> & _); inversion H; subst; cbn; auto; fail). contradiction.
  - inversion H; subst. exact P.
Qed.

Lemma io_step_remove : forall g b l r g', io_inv g -> word b -> word l ->
  io_lift (remove_io_space g b l) = (r, g') -> io_post g (IoRemove b l) r g'.
Proof.
  intros g b l r g' HI Hb Hl H. unfold remove_io_space in H.
  destruct (frame_ensure g HI) as (FE & VE). pose proof (frame_refl g HI) as FR.
  destruct (io_check_range g b l) as [u|e|] eqn:EC; [|cbn in H; inversion H; subst; cbn; auto|].
  2: { cbn in H. inversion H; subst. cbn. pose proof (io_check_ok g' b l Hb Hl) as P. rewrite EC in P. apply P;
       destruct HI as [((? & ?) & _)|((? & ?) & _)]; assumption. }
  destruct (at_base g b l ITRemove HI Hb Hl) as (pre & blk & post & E & C & L & B1 & B2 & P).
  rewrite C, L in H.
  destruct (io_sst (ensure_init g) (b_base blk) b l ITRemove) as [[k|e|] g1]; cbn [io_lift] in H.
  - inversion H; subst. destruct P as (F & s' & T & FF & P1 & P2 & P3). apply it_remove in T. cbn.
    split; [exact FF|]. exists b, l, (b_st blk), s'. auto.
  - destruct e; try (destruct P as (-> & _); cbn in H; inversion H; subst; cbn; auto; fail). contradiction.
  - inversion H; subst. exact P.
Qed.

Lemma io_step_free : forall g b l r g', io_inv g -> word b -> word l ->
  io_lift (free_io_space g b l) = (r, g') -> io_post g (IoFree b l) r g'.
Proof.
  intros g b l r g' HI Hb Hl H. unfold free_io_space in H.
  destruct (frame_ensure g HI) as (FE & VE). pose proof (frame_refl g HI) as FR.
  destruct (io_check_range g b l) as [u|e|] eqn:EC; [|cbn in H; inversion H; subst; cbn; auto|].
  2: { cbn in H. inversion H; subst. cbn. pose proof (io_check_ok g' b l Hb Hl) as P. rewrite EC in P. apply P;
       destruct HI as [((? & ?) & _)|((? & ?) & _)]; assumption. }
  destruct (at_base g b l ITFree HI Hb Hl) as (pre & blk & post & E & C & L & B1 & B2 & P).
  rewrite C in H.
  destruct (io_sst (ensure_init g) (b_base blk) b l ITFree) as [[k|e|] g1]; cbn [io_lift] in H.
  - inversion H; subst. destruct P as (F & s' & T & FF & P1 & P2 & P3). apply it_free in T. cbn.
    split; [exact FF|]. exists b, l, (b_st blk), s'. auto.
  - destruct e; try (destruct P as (-> & _); cbn in H; inversion H; subst; cbn; auto; fail). contradiction.
  - inversion H; subst. exact P.
Qed.

(** ** Allocation *)
Lemma io_up_call : forall g ty s len image device max r g', io_inv g -> 0 < len -> word len -> word max ->
  io_bottom_up g ty s len image device max = (r, g') ->
  match r with
  | Ok v => io_alloc_done (ensure_init g) g' ty v len image device /\ aligned s v /\ v + len <= max /\
            (forall a, io_feasible_up g ty s len max a -> v <= a)
  | Err e => g' = ensure_init g /\ (io_room g -> forall a, ~ io_feasible_up g ty s len max a)
  | Panic => i_dbg g = true
  end.
Proof.
  intros g ty s len image device max r g' HI H0 Hl Hm H. unfold io_bottom_up in H.
  destruct (ensure_ok g HI) as (E1 & E2 & E3 & E4 & E5).
  apply (io_up_spec _ [] _ _ _ _ _ _ _ _ _ E1 H0 Hl Hm eq_refl) in H.
  - unfold io_feasible_up, io_free_run, io_room in *. rewrite E4 in H. destruct r; rewrite ?E5 in H; exact H.
  - intros a (FR & _). destruct (io_free_run_block _ _ _ _ E1 H0 FR) as (_ & b & B1 & (B2 & _) & _). eauto.
Qed.

Lemma filter_split : forall (l : list ioblock) lo hi max, tiles lo hi l ->
  exists l2, l = filter (fun b => b_base b <=? max) l ++ l2 /\ Forall (fun b => max < b_base b) l2.
Proof.
  induction l as [|x r IH]; intros lo hi max HT; cbn [filter tiles] in *.
  - exists []. auto.
  - destruct HT as (H1 & H2 & H3). destruct (IH _ _ max H3) as (l2 & A & B).
    destruct (N.leb_spec (b_base x) max).
    + exists l2. split; [cbn; f_equal; exact A|exact B].
    + exists (x :: r). assert (AA : above (b_base x) r) by (eapply tiles_above; [exact H3|unfold b_end; lia]).
      assert (F : filter (fun b => b_base b <=? max) r = []).
      { clear - AA H. induction r as [|y q IH]; [reflexivity|]. cbn. inversion AA; subst.
        destruct (N.leb_spec (b_base y) max); [lia|]. apply IH. assumption. }
      rewrite F. split; [reflexivity|]. constructor; [exact H|]. eapply Forall_impl; [|exact AA]. cbn. lia.
Qed.

Lemma map_filter_base : forall (l : list ioblock) max,
  filter (fun k => k <=? max) (map b_base l) = map b_base (filter (fun b => b_base b <=? max) l).
Proof. induction l as [|x r IH]; intros; cbn; [reflexivity|]. destruct (b_base x <=? max); cbn; now rewrite IH. Qed.

Lemma io_down_call : forall g ty s len image device max r g', io_inv g -> 0 < len -> word len -> word max ->
  io_top_down g ty s len image device max = (r, g') ->
  match r with
  | Ok v => io_alloc_done (ensure_init g) g' ty v len image device /\ aligned s v /\ v + len <= max + 1 /\
            (forall a, io_feasible_down g ty s len max a -> a <= v)
  | Err e => g' = ensure_init g /\ (io_room g -> forall a, ~ io_feasible_down g ty s len max a)
  | Panic => i_dbg g = true
  end.
Proof.
  intros g ty s len image device max r g' HI H0 Hl Hm H. unfold io_top_down in H.
  destruct (ensure_ok g HI) as (E1 & E2 & E3 & E4 & E5).
  rewrite map_filter_base, <- map_rev in H.
  destruct (filter_split (i_blocks (ensure_init g)) 0 _ max (proj1 (proj2 E1))) as (l2 & A & B).
  set (fl := filter (fun b => b_base b <=? max) (i_blocks (ensure_init g))) in *.
  apply (io_down_spec (rev fl) l2 _ _ _ _ _ _ _ _ _ E1 H0 Hl Hm) in H.
  - unfold io_feasible_down, io_free_run, io_room in *. rewrite E4 in H. destruct r; rewrite ?E5 in H; exact H.
  - rewrite rev_involutive. exact A.
  - apply Forall_forall. intros x Hx. apply in_rev in Hx. apply filter_In in Hx. destruct Hx as (_ & Hx). lia.
  - intros a (FR & _ & FM). destruct (io_free_run_block _ _ _ _ E1 H0 FR) as (_ & b & B1 & (B2 & B3 & B4) & _).
    exists b. split; [|exact B4]. apply in_rev. rewrite rev_involutive. rewrite A in B1. apply in_app_or in B1.
    destruct B1 as [B1|B1]; [exact B1|]. rewrite Forall_forall in B. specialize (B _ B1). cbn in B. lia.
Qed.

Lemma io_at_call : forall g ty s len image device addr r g', io_inv g -> word len -> word addr ->
  io_allocate_address g ty s len image device addr = (r, g') ->
  match r with
  | Ok v => v = addr /\ aligned s v /\ exists st st', io_state_transition (ITAllocate image device) st = Some st' /\ is_type st = ty /\
       frame g g' /\ 0 < len /\ addr + len <= i_max g /\ range_changed (io_view g) (io_view g') addr len st st'
  | Err e => g' = ensure_init g /\ (io_room g -> s < 64 -> ~ (aligned s addr /\ 0 < len /\ io_free_run g ty addr len))
  | Panic => i_dbg g = true
  end.
Proof.
  intros g ty s len image device addr r g' HI Hl Ha H. unfold io_allocate_address in H.
  destruct (ensure_ok g HI) as (E1 & E2 & E3 & E4 & E5).
  destruct (at_base g addr len (ITAllocate image device) HI Ha Hl) as (pre & b & post & E & C & L & B1 & B2 & P).
  rewrite C, L in H.
  assert (UF : forall a st, 0 < len -> a = addr -> io_uniform (ensure_init g) a len st -> fits b addr len /\ st = b_st b).
  { intros a st H0 -> HU. pose proof (io_uniform_block _ _ _ _ E1 H0 HU) as X. rewrite E3 in X.
    unfold io_uniform in HU. rewrite (io_ok_view _ E1) in HU. pose proof E1 as (_ & HT & HG & _).
    rewrite E in HT, HG, HU. eapply uniform_fits; eauto. }
  assert (FRT : forall P : Prop, (0 < len -> fits b addr len -> is_alloc (b_st b) = false -> is_type (b_st b) = ty ->
             ty <> IoNonExistent -> P) -> 0 < len -> io_free_run g ty addr len -> P).
  { intros Q HQ H0 (N1 & st & S1 & S2 & S3).
    destruct (UF addr st H0 eq_refl) as (X & ->); [unfold io_uniform; rewrite E5; exact S3|]. auto. }
  destruct (it_eqb (is_type (b_st b)) ty) eqn:ET.
  2: { cbn [andb negb] in H. inversion H; subst. split; [reflexivity|]. intros _ _ (_ & H0 & FR).
       apply it_neq in ET. revert H0 FR. apply FRT. intros. contradiction. }
  apply it_eqb_spec in ET. rewrite E4 in H.
  destruct (ushift_amount (i_dbg g) s) as [sh|e|] eqn:ES.
  2: { now apply shift_err in ES. }
  2: { inversion H; subst. now apply shift_panic in ES. }
  apply shift_of in ES. destruct ES as (Esh & Hsh). cbn [andb] in H.
  pose proof (mask_down_spec addr sh Ha Hsh) as (M1 & M2 & M3 & M4 & M5).
  assert (AL : aligned s addr <-> addr = mask_down addr sh).
  { unfold aligned, alignment_of. rewrite <- Esh. split; [intros X|intros X; rewrite X; exact M2].
    specialize (M4 addr X ltac:(lia)). lia. }
  destruct (N.eqb_spec addr (mask_down addr sh)) as [EM|EM]; cbn [negb] in H.
  2: { inversion H; subst. split; [reflexivity|]. intros _ _ (X & _). tauto. }
  destruct (io_sst (ensure_init g) (b_base b) addr len (ITAllocate image device)) as [[k|e|] g1].
  - inversion H; subst. destruct P as (F & s' & T & PP). split; [reflexivity|]. split; [tauto|].
    exists (b_st b), s'. auto.
  - destruct e.
    + destruct P as (-> & P1 & P2). inversion H; subst. split; [reflexivity|]. intros _ _ (_ & H0 & FR).
      apply io_alloc_none in P2. revert H0 FR. apply FRT. intros. destruct P2; congruence.
    + destruct P as (-> & P1). inversion H; subst. split; [reflexivity|]. intros _ _ (_ & H0 & FR).
      revert H0 FR. apply FRT. intros. contradiction.
    + destruct P as (-> & P1). inversion H; subst. split; [reflexivity|]. intros; contradiction.
    + contradiction.
  - inversion H; subst. exact P.
Qed.

Lemma alloc_effect : forall st st' at_ ty s len image device, io_state_transition (ITAllocate image device) st = Some st' -> is_type st = ty ->
  io_effect (IoAllocate at_ ty s len image device) st st'.
Proof. intros. apply it_alloc in H. cbn. destruct H as (A & B & ->). subst. auto. Qed.

Lemma inv_max : forall g, io_inv g -> 0 < i_max g < two64.
Proof. intros g [(H & _)|(H & _)]; exact H. Qed.

Lemma io_step_alloc : forall g at_ ty s len image device r g', io_inv g -> io_op_wf (IoAllocate at_ ty s len image device) ->
  allocate_io_space g at_ ty s len image device = (r, g') ->
  io_post g (IoAllocate at_ ty s len image device) r g' /\
  match r with Ok v => aligned s v /\ within_bound at_ v len /\ image <> 0 | _ => True end.
Proof.
  intros g at_ ty s len image device r g' HI (W1 & W2 & W3 & W4) H. unfold allocate_io_space in H.
  pose proof (inv_max g HI) as Hm. destruct (frame_ensure g HI) as (FE & VE). pose proof (frame_refl g HI) as FR.
  destruct (N.eqb_spec (i_max g) 0); [lia|].
  destruct (N.eqb_spec len 0); cbn [orb] in H; [inversion H; subst; cbn; auto|].
  destruct (N.eqb_spec image 0); [inversion H; subst; cbn; auto|].
  assert (U : word u64_max) by reflexivity.
  destruct at_ as [m|m|a].
  - assert (Wm : word (match m with Some a => a | None => u64_max end)) by (destruct m; auto).
    apply io_up_call in H; [|assumption|lia|assumption|assumption].
    destruct r as [v|e|].
    + destruct H as ((st & st' & T & Ety & Ch) & Hal & Hb & _).
      destruct (changed_frame _ _ _ _ _ _ HI Ch) as (F & C1 & C2 & C3). split.
      * split; [exact F|]. exists v, len, st, st'. repeat (split; [auto; fail|]). split; [|exact C3]. now apply alloc_effect.
      * split; [exact Hal|]. split; [|assumption]. cbn. destruct m; [exact Hb|exact I].
    + destruct H as (-> & _). cbn. auto.
    + cbn. auto.
  - assert (Wm : word (match m with Some a => a | None => u64_max end)) by (destruct m; auto).
    apply io_down_call in H; [|assumption|lia|assumption|assumption].
    destruct r as [v|e|].
    + destruct H as ((st & st' & T & Ety & Ch) & Hal & Hb & _).
      destruct (changed_frame _ _ _ _ _ _ HI Ch) as (F & C1 & C2 & C3). split.
      * split; [exact F|]. exists v, len, st, st'. repeat (split; [auto; fail|]). split; [|exact C3]. now apply alloc_effect.
      * split; [exact Hal|]. split; [|assumption]. cbn. destruct m; [exact Hb|exact I].
    + destruct H as (-> & _). cbn. auto.
    + cbn. auto.
  - destruct (uadd (i_dbg g) a len) as [e|e|] eqn:EU.
    + destruct (i_max g <? e); [inversion H; subst; cbn; auto|].
      apply io_at_call in H; [|assumption|assumption|assumption]. destruct r as [v|e'|].
      * destruct H as (-> & Hal & st & st' & T & Ety & F & C1 & C2 & C3). split.
        -- split; [exact F|]. exists a, len, st, st'. repeat (split; [auto; fail|]). split; [|exact C3]. now apply alloc_effect.
        -- cbn. auto.
      * destruct H as (-> & _). cbn. auto.
      * cbn. auto.
    + now apply uadd_err in EU.
    + inversion H; subst. apply uadd_panic in EU. cbn. auto.
Qed.

Lemma io_step_post : forall g o r g', io_inv g -> io_op_wf o -> io_step g o = (r, g') -> io_post g o r g'.
Proof.
  intros g o r g' HI HW H. destruct o; cbn [io_step io_op_wf] in *.
  - apply io_step_add; tauto.
  - apply io_step_remove; tauto.
  - apply (io_step_alloc _ _ _ _ _ _ _ _ _ HI HW) in H. tauto.
  - apply io_step_free; tauto.
  - unfold get_io_descriptors in H. destruct (frame_ensure g HI) as (FE & VE). pose proof (frame_refl g HI) as FR.
    destruct (i_max g =? 0); cbn in H; [inversion H; subst; cbn; auto|].
    destruct (bufcap <? _); cbn in H; [inversion H; subst; cbn; auto|].
    destruct (buflen =? 0); cbn in H; inversion H; subst; cbn; auto.
Qed.

Lemma io_run_frame : forall ops g g', io_inv g -> Forall io_op_wf ops -> io_run g ops = Some g' -> frame g g'.
Proof.
  induction ops as [|o ops IH]; intros g g' HI HW H; cbn [io_run] in H.
  - inversion H; subst. now apply frame_refl.
  - inversion HW; subst. destruct (io_step g o) as [r g1] eqn:ES.
    pose proof (io_step_post g o r g1 HI ltac:(assumption) ES) as P.
    assert (F : r <> Panic -> frame g g1) by (destruct r; cbn in P; tauto).
    destruct r; [| |discriminate]; (assert (F1 : frame g g1) by (apply F; discriminate);
      destruct F1 as (I1 & M1 & D1); apply IH in H; auto; destruct H as (I2 & M2 & D2); split; [exact I2|]; split; congruence).
Qed.

Lemma io_reach_inv : forall dbg bits ops g, io_reachable dbg bits ops g ->
  io_inv g /\ i_max g = 2 ^ bits /\ i_dbg g = dbg.
Proof.
  intros dbg bits ops g (Hb & HW & HR). apply (io_run_frame _ _ _ (new_io_inv dbg bits Hb) HW) in HR. exact HR.
Qed.

Lemma io_view_tiles : forall g, io_inv g -> tiles 0 (i_max g) (io_view g) /\ merged (io_view g) /\ clen (io_view g) <= IO_BLOCK_SLICE_LEN.
Proof.
  intros g HI. destruct (ensure_ok g HI) as ((_ & A & B & C & _) & E2 & E3 & _). rewrite E2 in *. rewrite E3 in A. auto.
Qed.

(** Allocated addresses stay allocated until a free covers them. *)
Definition io_allocated (g : iogcd) (a : N) : Prop := exists s, state_at (io_view g) a = Some s /\ is_alloc s = true.

Lemma io_step_keeps : forall g o r g' a, io_inv g -> io_op_wf o -> io_step g o = (r, g') -> r <> Panic ->
  (forall b l, o = IoFree b l -> ~ in_range b l a) -> io_allocated g a -> io_allocated g' a.
Proof.
  intros g o r g' a HI HW HS Hp Hf (s & S1 & S2). pose proof (io_step_post _ _ _ _ HI HW HS) as P.
  destruct r as [v|e|]; cbn [io_post] in P; [|destruct P as (_ & P); unfold io_allocated; rewrite P; eauto|contradiction].
  destruct P as (_ & P).
  assert (X : (exists base len s0 s', io_range o v = (base, len) /\ 0 < len /\ base + len <= i_max g /\
               io_effect o s0 s' /\ range_changed (io_view g) (io_view g') base len s0 s') \/ io_view g' = io_view g)
    by (destruct o; auto).
  destruct X as [(base & len & s0 & s' & R & _ & _ & EF & (R1 & R2))|X]; [|unfold io_allocated; rewrite X; eauto].
  destruct (N.le_gt_cases base a) as [L1|L1]; [destruct (N.lt_ge_cases a (base + len)) as [L2|L2]|].
  - destruct (R1 a) as (Q1 & Q2); [unfold in_range; lia|]. assert (s0 = s) by congruence. subst s0.
    destruct o; cbn in EF, R; try (destruct EF as (EF & _); congruence).
    + inversion R; subst. exfalso. apply (Hf base len eq_refl). unfold in_range; lia.
    + contradiction.
  - exists s. rewrite R2; [auto|unfold in_range; lia].
  - exists s. rewrite R2; [auto|unfold in_range; lia].
Qed.

Lemma io_run_keeps : forall ops g g' a, io_inv g -> Forall io_op_wf ops -> io_run g ops = Some g' ->
  (forall b l, In (IoFree b l) ops -> ~ in_range b l a) -> io_allocated g a -> io_allocated g' a.
Proof.
  induction ops as [|o ops IH]; intros g g' a HI HW H Hf HA; cbn [io_run] in H.
  - inversion H; subst. exact HA.
  - inversion HW; subst. destruct (io_step g o) as [r g1] eqn:ES.
    assert (X : r <> Panic -> io_inv g1 /\ io_allocated g1 a).
    { intros Hp. split.
      - pose proof (io_step_post g o r g1 HI ltac:(assumption) ES) as P. destruct r; cbn in P; try apply P. contradiction.
      - eapply io_step_keeps; eauto. intros b l ->. apply Hf. left; reflexivity. }
    assert (Hf' : forall b l, In (IoFree b l) ops -> ~ in_range b l a) by (intros; apply Hf; right; assumption).
    destruct r; [| |discriminate]; (destruct X as (I1 & A1); [discriminate|]; eapply IH; eauto).
Qed.
