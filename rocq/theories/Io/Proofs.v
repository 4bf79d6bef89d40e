From Verif Require Import Base.Prelude Align.Proofs Gcd.Blocks Gcd.Model Gcd.Spec Gcd.BlockProofs Gcd.Proofs Gcd.AllocProofs
  Io.Model Io.Spec.
Local Open Scope N_scope.

Lemma it_eqb_spec : forall a b, it_eqb a b = true <-> a = b.
Proof. destruct a, b; cbn; split; intros; congruence. Qed.
Lemma it_neq : forall a b, it_eqb a b = false -> a <> b.
Proof. intros a b H E. apply it_eqb_spec in E. congruence. Qed.
Lemma io_same_spec : forall a b, io_same a b = true <-> a = b.
Proof.
  intros [a1 a2 a3 a4] [b1 b2 b3 b4]. unfold io_same. cbn.
  rewrite !andb_true_iff, !N.eqb_eq, it_eqb_spec, Bool.eqb_true_iff.
  split; [intros; f_equal; tauto|intros H; inversion H; tauto].
Qed.

(** ** Invariant *)
Definition io_ok (g : iogcd) : Prop :=
  0 < i_max g < two64 /\ tiles 0 (i_max g) (i_blocks g) /\ merged (i_blocks g) /\
  clen (i_blocks g) <= IO_BLOCK_SLICE_LEN /\ i_cap g = IO_BLOCK_SLICE_LEN.
Definition io_inv (g : iogcd) : Prop :=
  io_ok g \/ (0 < i_max g < two64 /\ i_blocks g = [] /\ i_cap g = 0).

Lemma io_ok_view : forall g, io_ok g -> io_view g = i_blocks g.
Proof.
  intros g (Hm & HT & _). unfold io_view. destruct (i_blocks g); [cbn in HT; lia|reflexivity].
Qed.

Lemma ensure_ok : forall g, io_inv g ->
  io_ok (ensure_init g) /\ i_blocks (ensure_init g) = io_view g /\
  i_max (ensure_init g) = i_max g /\ i_dbg (ensure_init g) = i_dbg g /\ io_view (ensure_init g) = io_view g.
Proof.
  intros g [HO|(Hm & HB & HC)].
  - pose proof HO as (_ & _ & _ & _ & HC). unfold ensure_init. rewrite HC. cbn [N.eqb IO_BLOCK_SLICE_LEN].
    split; [exact HO|]. rewrite (io_ok_view _ HO). auto.
  - unfold ensure_init, init_io_blocks. rewrite HC. cbn [N.eqb].
    split; [|unfold io_view; rewrite HB; cbn; auto].
    unfold io_ok. cbn [i_max i_blocks i_cap tiles merged]. unfold b_end, clen; cbn. repeat split; try lia. unfold IO_BLOCK_SLICE_LEN; lia.
Qed.

Lemma new_io_inv : forall dbg bits, bits < 64 -> io_inv (io_new dbg bits).
Proof.
  intros dbg bits Hb. right. cbn. split; [|auto]. split.
  - apply N.neq_0_lt_0, N.pow_nonzero. lia.
  - apply N.pow_lt_mono_r; lia.
Qed.

(** ** One transition *)
Definition changed (g g' : iogcd) (base len : N) (s s' : iostate) : Prop :=
  io_ok g' /\ i_max g' = i_max g /\ i_dbg g' = i_dbg g /\ 0 < len /\ base + len <= i_max g /\
  range_changed (i_blocks g) (i_blocks g') base len s s'.

Lemma io_sst_spec : forall g pre b post base len t, io_ok g -> i_blocks g = pre ++ b :: post ->
  word base -> word len ->
  let (r, g') := io_sst g (b_base b) base len t in
  match r with
  | Ok _ => fits b base len /\ exists s', io_state_transition t (b_st b) = Some s' /\ changed g g' base len (b_st b) s'
  | Err InvalidStateTransition => g' = g /\ fits b base len /\ io_state_transition t (b_st b) = None
  | Err BlockOutsideRange => g' = g /\ ~ fits b base len
  | Err OutOfSpace => g' = g /\ fits b base len /\ io_state_transition t (b_st b) <> None /\ ~ io_room g
  | Err AlreadyExists => False
  | Panic => i_dbg g = true /\ two64 <= base + len
  end.
Proof.
  intros g pre b post base len t (Hm & HT & HM & HC & HC2) E Hb Hl. unfold io_sst.
  pose proof (io_ok_view g (conj Hm (conj HT (conj HM (conj HC HC2))))) as HV.
  rewrite E in HT, HM.
  pose proof (sst_at_spec io_same io_same_spec (i_dbg g) (i_cap g) 0 (i_max g) pre b post base len
                (io_state_transition t) HT HM Hb Hl ltac:(lia)) as H.
  rewrite E. destruct (sst_at _ _ _ _ _ _ _ _) as [[k|e|] l'].
  - cbn [sst_post] in H. destruct H as (F & T & M & _ & C & s' & Htr & HR & _).
    split; [exact F|]. exists s'. split; [exact Htr|]. unfold changed, io_ok. cbn [i_max i_blocks i_cap i_dbg].
    rewrite E in *. rewrite HC2 in *. destruct F as (F1 & F2 & F3). apply tiles_mid in HT. destruct HT as (_ & _ & T3).
    apply tiles_le in T3. split; [auto 10|]. do 4 (split; [first [reflexivity|lia]|]). exact HR.
  - assert (G : l' = pre ++ b :: post -> mkIo (i_dbg g) (i_max g) (i_cap g) l' = g).
    { intros ->. rewrite <- E. destruct g; reflexivity. }
    cbn [sst_post] in H. destruct e.
    + destruct H as (H & H1). rewrite (G H). auto.
    + destruct H as (H & H1). rewrite (G H). auto.
    + destruct H as (H & H1 & H2 & H3). rewrite (G H). split; [reflexivity|]. split; [exact H1|]. split; [exact H2|].
      unfold io_room. rewrite HV, E. unfold clen in H3. rewrite HC2 in H3.
      apply N.lt_nge. exact H3.
    + exact H.
  - exact H.
Qed.

Lemma io_find : forall g base, io_ok g ->
  exists pre b post, i_blocks g = pre ++ b :: post /\
    closest (i_blocks g) base = Some (b_base b) /\ lookup (i_blocks g) (b_base b) = Some b /\
    b_base b <= base /\ (base < i_max g -> base < b_end b).
Proof.
  intros g base (Hm & HT & HM & _).
  destruct (N.lt_ge_cases base (i_max g)) as [Hlt|Hge].
  - destruct (closest_in _ _ _ base HT) as (pre & b & post & E & C & R); [lia|].
    exists pre, b, post. rewrite E in *. split; [reflexivity|]. split; [exact C|]. split.
    + apply lookup_mid. apply tiles_mid in HT. destruct HT as (T1 & _). eapply tiles_below; eauto.
    + split; [lia|]. intros _. lia.
  - pose proof (closest_spec _ _ _ base HT) as C. destruct (closest (i_blocks g) base) as [k|] eqn:EC.
    + destruct C as (pre & b & post & E & <- & K & A). exists pre, b, post. rewrite E in *.
      split; [reflexivity|]. split; [reflexivity|]. split; [|split; [exact K|lia]].
      apply lookup_mid. apply tiles_mid in HT. destruct HT as (T1 & _). eapply tiles_below; eauto.
    + destruct C as [C|C]; [lia|]. rewrite C in HT. cbn in HT. lia.
Qed.

(** The block an address with a uniform run starts in contains the run. *)
Lemma io_uniform_block : forall g base len s, io_ok g -> 0 < len -> io_uniform g base len s ->
  base < i_max g.
Proof.
  intros g base len s HO Hl HU. pose proof (HU base ltac:(unfold in_range; lia)) as H.
  rewrite (io_ok_view _ HO) in H. destruct HO as (Hm & HT & _).
  destruct (N.lt_ge_cases base (i_max g)); [assumption|]. rewrite (state_at_out _ _ _ _ HT) in H by lia. discriminate.
Qed.

(** ** Effects of the transitions *)
Lemma it_add : forall ty s s', io_state_transition (ITAdd ty) s = Some s' <->
  is_alloc s = false /\ is_type s = IoNonExistent /\ ty <> IoNonExistent /\ s' = mkIs false ty (is_image s) (is_device s).
Proof.
  intros ty [a t i d] s'. cbn. destruct a, t, ty; cbn; split; intros H; try discriminate; try tauto;
  try (inversion H; subst; repeat split; congruence); try (destruct H as (H1 & H2 & H3 & H4); congruence).
Qed.
Lemma it_remove : forall s s', io_state_transition ITRemove s = Some s' <->
  is_alloc s = false /\ is_type s <> IoNonExistent /\ s' = mkIs false IoNonExistent (is_image s) (is_device s).
Proof.
  intros [a t i d] s'. cbn. destruct a, t; cbn; split; intros H; try discriminate; try tauto;
  try (inversion H; subst; repeat split; congruence); try (destruct H as (H1 & H2 & H3); congruence).
Qed.
Lemma it_alloc : forall im dv s s', io_state_transition (ITAllocate im dv) s = Some s' <->
  is_alloc s = false /\ is_type s <> IoNonExistent /\
  s' = mkIs true (is_type s) im match dv with Some d => d | None => is_device s end.
Proof.
  intros im dv [a t i d] s'. cbn. destruct a, t; cbn; split; intros H; try discriminate; try tauto;
  try (inversion H; subst; repeat split; congruence); try (destruct H as (H1 & H2 & H3); congruence).
Qed.
Lemma it_free : forall s s', io_state_transition ITFree s = Some s' <->
  is_alloc s = true /\ is_type s <> IoNonExistent /\ s' = mkIs false (is_type s) 0 0.
Proof.
  intros [a t i d] s'. cbn. destruct a, t; cbn; split; intros H; try discriminate; try tauto;
  try (inversion H; subst; repeat split; congruence); try (destruct H as (H1 & H2 & H3); congruence).
Qed.

Lemma io_alloc_none : forall im dv s, io_state_transition (ITAllocate im dv) s = None ->
  is_alloc s = true \/ is_type s = IoNonExistent.
Proof. intros im dv [a t i d]. cbn. destruct a, t; cbn; intros; auto; discriminate. Qed.

(** ** Range checks *)
Lemma io_check_ok : forall g b l, word b -> word l -> i_max g < two64 -> 0 < i_max g -> 
  match io_check_range g b l with
  | Ok _ => 0 < l
  | Err e => l = 0 \/ i_max g < b + l
  | Panic => i_dbg g = true
  end.
Proof.
  intros g b l Hb Hl Hm Hm0. unfold io_check_range. destruct (N.eqb_spec (i_max g) 0); [lia|].
  destruct (N.eqb_spec l 0); [auto|].
  destruct (uadd (i_dbg g) b l) as [e|e|] eqn:EU; cbn [bind].
  - destruct (uadd_ok _ _ _ _ _ EU Hb Hl) as [->|(W & -> & _)];
    match goal with |- context [if ?c then _ else _] => destruct c eqn:? end; lia.
  - now apply uadd_err in EU.
  - now apply uadd_panic in EU.
Qed.

Lemma io_check_fits : forall g b l, 0 < i_max g < two64 -> 0 < l -> b + l <= i_max g -> io_check_range g b l = Ok tt.
Proof.
  intros g b l Hm Hl H. unfold io_check_range. destruct (N.eqb_spec (i_max g) 0); [lia|].
  destruct (N.eqb_spec l 0); [lia|]. rewrite uadd_small by lia. cbn [bind].
  destruct (N.ltb_spec (i_max g) (b + l)); [lia|reflexivity].
Qed.


Definition io_cand_up (b : ioblock) (sh len max a : N) : Prop :=
  fits b a len /\ a mod 2 ^ sh = 0 /\ a + len <= max.

Lemma io_up_block : forall dbg (b : ioblock) ty s len max, 0 < len -> len < two64 -> b_end b < two64 -> max < two64 ->
  match io_up_candidate dbg b ty s len max with
  | Skip => is_type (b_st b) <> ty \/ forall a, ~ io_cand_up b (s mod 64) len max a
  | Stop e => e = NotFound /\ forall a, a mod alignment_of s = 0 -> b_base b <= a -> max < a + len
  | Try a0 => is_type (b_st b) = ty /\ a0 < two64 /\ a0 mod alignment_of s = 0 /\
              (a0 + len < two64 -> a0 + len <= max) /\
              forall a, io_cand_up b (s mod 64) len max a -> a0 <= a /\ fits b a0 len
  | CPanic => dbg = true
  end.
Proof.
  intros dbg b ty s len max Hl0 Hl He Hmax. unfold io_up_candidate, alignment_of.
  destruct (N.ltb_spec (b_len b) len).
  { right. intros a ((F1 & F2 & F3) & _). unfold b_end in F3. lia. }
  destruct (ushift_amount dbg s) as [sh|e|] eqn:ES.
  2: { now apply shift_err in ES. }
  2: { now apply shift_panic in ES. }
  apply shift_of in ES. destruct ES as (<- & Hsh).
  assert (Hb : b_base b < two64) by (unfold b_end in He; lia).
  pose proof (mask_down_spec (b_base b) sh Hb Hsh) as (M1 & M2 & M3 & M4 & M5).
  set (addr0 := mask_down (b_base b) sh) in *.
  pose proof (pow2_pos sh) as P.
  assert (PL : 2 ^ sh < two64) by (unfold two64; apply N.pow_lt_mono_r; lia).
  assert (A : match (if addr0 <? b_base b then uadd (E := efi_error) dbg addr0 (2 ^ sh) else Ok addr0) with
              | Ok addr => addr < two64 /\ addr mod 2 ^ sh = 0 /\
                  ((b_base b <= addr /\ forall m, m mod 2 ^ sh = 0 -> b_base b <= m -> addr <= m) \/
                   (addr = 0 /\ 0 < b_base b /\ forall m, m mod 2 ^ sh = 0 -> b_base b <= m -> two64 <= m))
              | Err _ => False
              | Panic => dbg = true
              end).
  { destruct (N.ltb_spec addr0 (b_base b)) as [L|L].
    - destruct (uadd dbg addr0 (2 ^ sh)) as [addr|e|] eqn:EU.
      + unfold uadd in EU. destruct (N.ltb_spec (addr0 + 2 ^ sh) two64) as [W|W].
        * inversion EU; subst. split; [lia|]. split.
          { rewrite <- (N.mod_add addr0 1 (2 ^ sh)) in M2 by lia. rewrite N.mul_1_l in M2. exact M2. }
          left. split; [lia|]. intros m Hm Hle. apply M5; lia.
        * destruct dbg; [discriminate|]. inversion EU; subst.
          assert (X : addr0 + 2 ^ sh = two64).
          { assert (Q : addr0 + 2 ^ sh <= two64).
            { apply M5; [|lia]. unfold two64. replace 64 with ((64 - sh) + sh) by lia. rewrite N.pow_add_r.
              apply N.mod_mul. lia. }
            lia. }
          rewrite X, N.mod_same by (unfold two64; lia). split; [lia|]. split; [apply N.mod_0_l; lia|].
          right. split; [reflexivity|]. split; [lia|]. intros m Hm Hle. rewrite <- X. apply M5; lia.
      + now apply uadd_err in EU.
      + now apply uadd_panic in EU.
    - split; [lia|]. split; [exact M2|]. left. split; [lia|]. intros; lia. }
  destruct (if addr0 <? b_base b then uadd dbg addr0 (2 ^ sh) else Ok addr0) as [addr|e|]; [|contradiction|exact A].
  destruct A as (A1 & A2 & A3).
  destruct (uadd dbg addr len) as [e|e|] eqn:EU.
  2: { now apply uadd_err in EU. }
  2: { now apply uadd_panic in EU. }
  destruct (uadd_ok _ _ _ _ _ EU A1 Hl) as [-> | (W1 & W2 & W3 & W4)].
  - destruct (N.ltb_spec max (addr + len)) as [Hs|Hs].
    { split; [reflexivity|]. intros a Ha Hba. destruct A3 as [(A3 & A4)|(A3 & A4 & A5)].
      - specialize (A4 a Ha Hba). lia.
      - specialize (A5 a Ha Hba). lia. }
    destruct (it_eqb (is_type (b_st b)) ty) eqn:Ety; cbn [negb].
    2: { left. now apply it_neq. }
    apply it_eqb_spec in Ety.
    split; [exact Ety|]. split; [lia|]. split; [exact A2|]. split; [auto|].
    intros a ((F1 & F2 & F3) & C2 & C4). destruct A3 as [(A3 & A4)|(A3 & A4 & A5)].
    + specialize (A4 a C2 F1). split; [exact A4|]. unfold fits. lia.
    + specialize (A5 a C2 F1). lia.
  - assert (NoC : forall a, ~ io_cand_up b sh len max a).
    { intros a ((F1 & F2 & F3) & C2 & C4). destruct A3 as [(A3 & A4)|(A3 & A4 & A5)]; [|lia].
      specialize (A4 a C2 F1). lia. }
    destruct (N.ltb_spec max e) as [Hs|Hs].
    { split; [reflexivity|]. intros a Ha Hba. destruct A3 as [(A3 & A4)|(A3 & A4 & A5)]; [|lia].
      specialize (A4 a Ha Hba). lia. }
    destruct (it_eqb (is_type (b_st b)) ty) eqn:Ety; cbn [negb].
    2: { left. now apply it_neq. }
    apply it_eqb_spec in Ety.
    split; [exact Ety|]. split; [lia|]. split; [exact A2|]. split; [lia|].
    intros a Ca. exfalso. exact (NoC a Ca).
Qed.

Definition io_cand_down (b : ioblock) (sh len max a : N) : Prop :=
  fits b a len /\ a mod 2 ^ sh = 0 /\ a + len <= max + 1.

Lemma io_down_block : forall dbg (b : ioblock) ty s len max, 0 < len -> len < two64 -> b_end b < two64 ->
  max < two64 -> b_base b <= max -> 0 < b_len b ->
  match io_down_candidate dbg b ty s len max with
  | Skip => is_type (b_st b) <> ty \/ forall a, ~ io_cand_down b (s mod 64) len max a
  | Stop e => False
  | Try a0 => is_type (b_st b) = ty /\ a0 < two64 /\ a0 mod alignment_of s = 0 /\
              a0 + len <= max + 1 /\ fits b a0 len /\
              forall a, io_cand_down b (s mod 64) len max a -> a <= a0
  | CPanic => dbg = true
  end.
Proof.
  intros dbg b ty s len max Hl0 Hl He Hmax Hbm Hbl. unfold io_down_candidate, alignment_of.
  assert (U : exists u, (if max <? b_end b - 1
         then let* d := usub (E := efi_error) dbg max (b_base b) in uadd dbg d 1
         else Ok (b_len b)) = Ok u /\ u <= b_len b /\ b_base b + u <= max + 1 /\
         (u = b_len b \/ b_base b + u = max + 1)).
  { destruct (N.ltb_spec max (b_end b - 1)) as [L|L].
    - exists (max - b_base b + 1). unfold usub. destruct (N.leb_spec (b_base b) max); [|lia]. cbn [bind].
      rewrite uadd_small by (unfold b_end in *; lia). split; [reflexivity|]. unfold b_end in *. lia.
    - exists (b_len b). split; [reflexivity|]. unfold b_end in *. lia. }
  destruct U as (u & -> & U1 & U2 & U3).
  destruct (N.ltb_spec u len) as [L|L].
  { right. intros a ((F1 & F2 & F3) & C2 & C3). unfold b_end in *. lia. }
  destruct (ushift_amount dbg s) as [sh|e|] eqn:ES.
  2: { now apply shift_err in ES. }
  2: { now apply shift_panic in ES. }
  apply shift_of in ES. destruct ES as (<- & Hsh).
  pose proof (mask_down_spec (b_base b + u - len) sh ltac:(unfold b_end in *; lia) Hsh) as (M1 & M2 & M3 & M4 & M5).
  set (addr := mask_down (b_base b + u - len) sh) in *.
  destruct (N.ltb_spec addr (b_base b)) as [L2|L2].
  { right. intros a ((F1 & F2 & F3) & C2 & C3). unfold b_end in *.
    assert (a <= addr) by (apply M4; [exact C2|lia]). lia. }
  destruct (it_eqb (is_type (b_st b)) ty) eqn:Ety; cbn [negb].
  2: { left. now apply it_neq. }
  apply it_eqb_spec in Ety.
  split; [exact Ety|]. split; [unfold b_end in *; lia|]. split; [exact M2|]. split; [lia|].
  split; [unfold fits, b_end in *; lia|].
  intros a ((F1 & F2 & F3) & C2 & C3). apply M4; [exact C2|]. unfold b_end in *. lia.
Qed.

Lemma io_free_run_block : forall g ty a len, io_ok g -> 0 < len -> io_free_run g ty a len ->
  ty <> IoNonExistent /\
  exists b, In b (i_blocks g) /\ fits b a len /\ is_alloc (b_st b) = false /\ is_type (b_st b) = ty.
Proof.
  intros g ty a len HO Hl (N1 & s & S1 & S2 & S4). split; [exact N1|].
  pose proof (io_uniform_block _ _ _ _ HO Hl S4) as Ha.
  destruct (io_find g a HO) as (pre & b & post & E & C & L & B1 & B2).
  rewrite (io_ok_view _ HO) in S4. pose proof HO as (_ & HT & HG & _). rewrite E in HT, HG, S4.
  destruct (uniform_fits pre b post 0 (i_max g) a len s HT HG) as (HF & ->); auto.
  exists b. rewrite E. split; [apply in_or_app; right; left; reflexivity|]. auto.
Qed.

Lemma io_blocks_sorted : forall g done b rest, io_ok g -> i_blocks g = done ++ b :: rest ->
  lookup (i_blocks g) (b_base b) = Some b /\ b_end b <= i_max g /\ 0 < b_len b /\
  (forall x, In x done -> b_end x <= b_base b) /\ (forall x, In x rest -> b_end b <= b_base x).
Proof.
  intros g done b rest (_ & HT & _) E. rewrite E in *. apply tiles_mid in HT. destruct HT as (T1 & T2 & T3).
  split; [apply lookup_mid; eapply tiles_below; eauto|].
  pose proof (tiles_le _ _ _ T3). split; [assumption|]. split; [exact T2|]. split.
  - intros x Hx. apply in_split in Hx. destruct Hx as (p1 & p2 & ->). apply tiles_mid in T1.
    destruct T1 as (_ & _ & T1). now apply tiles_le in T1.
  - intros x Hx. apply in_split in Hx. destruct Hx as (p1 & p2 & ->). apply tiles_mid in T3.
    destruct T3 as (T3 & _). now apply tiles_le in T3.
Qed.

Definition io_alloc_done (g g' : iogcd) (ty : io_type) (v len image : N) (device : option N) : Prop :=
  exists s s', io_state_transition (ITAllocate image device) s = Some s' /\ is_type s = ty /\ changed g g' v len s s'.

Lemma io_up_spec : forall rest done g ty s len image device max r g',
  io_ok g -> 0 < len -> len < two64 -> max < two64 -> i_blocks g = done ++ rest ->
  (forall a, io_feasible_up g ty s len max a -> exists b, In b rest /\ b_base b <= a) ->
  io_search (fun b => io_up_candidate (i_dbg g) b ty s len max) g (map b_base rest) len image device = (r, g') ->
  match r with
  | Ok v => io_alloc_done g g' ty v len image device /\ aligned s v /\ v + len <= max /\
            (forall a, io_feasible_up g ty s len max a -> v <= a)
  | Err e => g' = g /\ (io_room g -> forall a, ~ io_feasible_up g ty s len max a)
  | Panic => i_dbg g = true
  end.
Proof.
  induction rest as [|b rest IH]; intros done g ty s len image device max r g' HO Hl0 Hl Hmx E Hf H;
    cbn [map io_search] in H.
  - inversion H; subst. split; [reflexivity|]. intros _ a Fa. destruct (Hf a Fa) as (b & [] & _).
  - destruct (io_blocks_sorted _ _ _ _ HO E) as (L & Hend & Hbl & Sd & Sr). rewrite L in H.
    assert (Hm : i_max g < two64) by apply HO.
    assert (Loc : forall a, io_feasible_up g ty s len max a ->
              (ty <> IoNonExistent /\ io_cand_up b (s mod 64) len max a /\ is_alloc (b_st b) = false /\ is_type (b_st b) = ty) \/
              (exists b', In b' rest /\ b_base b' <= a)).
    { intros a Fa. pose proof Fa as (FR & FA & FM).
      destruct (io_free_run_block _ _ _ _ HO Hl0 FR) as (N1 & x & X1 & X2 & X3).
      rewrite E in X1. apply in_app_or in X1. destruct X1 as [X1|[<-|X1]].
      - exfalso. destruct (Hf a Fa) as (b' & B1 & B2). destruct X2 as (F1 & F2 & F3).
        pose proof (Sd x X1). destruct B1 as [<-|B1]; [lia|]. pose proof (Sr b' B1). unfold b_end in *. lia.
      - left. unfold io_cand_up. auto.
      - right. exists x. split; [exact X1|]. destruct X2 as (F1 & _). exact F1. }
    assert (E' : i_blocks g = (done ++ [b]) ++ rest) by (rewrite <- app_assoc; exact E).
    pose proof (io_up_block (i_dbg g) b ty s len max Hl0 Hl ltac:(lia) Hmx) as P.
    destruct (io_up_candidate (i_dbg g) b ty s len max) as [|e|a0|].
    + apply (IH (done ++ [b])) in H; auto.
      intros a Fa. destruct (Loc a Fa) as [(N1 & C & _ & C3)|C]; [|exact C]. exfalso.
      destruct P as [P|P]; [contradiction|exact (P a C)].
    + inversion H; subst. destruct P as (-> & P). split; [reflexivity|].
      intros _ a Fa. destruct (Hf a Fa) as (b' & B1 & B2). destruct Fa as (_ & FA & FM).
      assert (b_base b <= a). { destruct B1 as [<-|B1]; [lia|]. pose proof (Sr b' B1). unfold b_end in *. lia. }
      specialize (P a FA). lia.
    + destruct P as (P1 & P2 & P3 & P4 & P5).
      pose proof (io_sst_spec g done b rest a0 len (ITAllocate image device) HO E P2 Hl) as Q.
      destruct (io_sst g (b_base b) a0 len (ITAllocate image device)) as [[k|e|] g1] eqn:ES.
      * inversion H; subst. destruct Q as (HF & s' & Htr & Ch).
        split; [exists (b_st b), s'; auto|]. split; [exact P3|].
        destruct Ch as (_ & _ & _ & _ & Le & _). split; [apply P4; lia|].
        intros a Fa. destruct (Loc a Fa) as [(_ & C & _)|(b' & B1 & B2)]; [now apply P5|].
        pose proof (Sr b' B1). destruct HF as (HF1 & HF2 & HF3). lia.
      * destruct e.
        -- destruct Q as (-> & Q1 & Q2). apply (IH (done ++ [b])) in H; auto. intros a Fa.
           destruct (Loc a Fa) as [(N1 & C & C2 & C3)|C]; [|exact C]. exfalso.
           apply io_alloc_none in Q2. destruct Q2; congruence.
        -- destruct Q as (-> & Q1). apply (IH (done ++ [b])) in H; auto. intros a Fa.
           destruct (Loc a Fa) as [(N1 & C & C2 & C3)|C]; [|exact C]. exfalso.
           apply Q1. now apply (P5 a).
        -- destruct Q as (-> & _ & _ & Q). inversion H; subst. split; [reflexivity|]. intros; contradiction.
        -- contradiction.
      * inversion H; subst. tauto.
    + inversion H; subst. exact P.
Qed.

Lemma io_down_spec : forall rest post g ty s len image device max r g',
  io_ok g -> 0 < len -> len < two64 -> max < two64 -> i_blocks g = rev rest ++ post ->
  Forall (fun b => b_base b <= max) rest ->
  (forall a, io_feasible_down g ty s len max a -> exists b, In b rest /\ a + len <= b_end b) ->
  io_search (fun b => io_down_candidate (i_dbg g) b ty s len max) g (map b_base rest) len image device = (r, g') ->
  match r with
  | Ok v => io_alloc_done g g' ty v len image device /\ aligned s v /\ v + len <= max + 1 /\
            (forall a, io_feasible_down g ty s len max a -> a <= v)
  | Err e => g' = g /\ (io_room g -> forall a, ~ io_feasible_down g ty s len max a)
  | Panic => i_dbg g = true
  end.
Proof.
  induction rest as [|b rest IH]; intros post g ty s len image device max r g' HO Hl0 Hl Hmx E Hle Hf H;
    cbn [map io_search] in H.
  - inversion H; subst. split; [reflexivity|]. intros _ a Fa. destruct (Hf a Fa) as (b & [] & _).
  - cbn [rev] in E. rewrite <- app_assoc in E. cbn [app] in E. inversion Hle as [|? ? Hbm Hle']; subst.
    destruct (io_blocks_sorted _ _ _ _ HO E) as (L & Hend & Hbl & Sd & Sr). rewrite L in H.
    assert (Hm : i_max g < two64) by apply HO.
    assert (Loc : forall a, io_feasible_down g ty s len max a ->
              (ty <> IoNonExistent /\ io_cand_down b (s mod 64) len max a /\ is_alloc (b_st b) = false /\ is_type (b_st b) = ty) \/
              (exists b', In b' rest /\ a + len <= b_end b')).
    { intros a Fa. pose proof Fa as (FR & FA & FM).
      destruct (io_free_run_block _ _ _ _ HO Hl0 FR) as (N1 & x & X1 & X2 & X3).
      rewrite E in X1. apply in_app_or in X1. destruct X1 as [X1|[<-|X1]].
      - right. exists x. split; [now apply in_rev|]. destruct X2 as (_ & _ & F3). exact F3.
      - left. unfold io_cand_down. auto.
      - exfalso. destruct (Hf a Fa) as (b' & B1 & B2). destruct X2 as (F1 & F2 & F3).
        pose proof (Sr x X1). destruct B1 as [<-|B1]; [lia|]. apply in_rev in B1. pose proof (Sd b' B1). unfold b_end in *. lia. }
    pose proof (io_down_block (i_dbg g) b ty s len max Hl0 Hl ltac:(lia) Hmx Hbm Hbl) as P.
    destruct (io_down_candidate (i_dbg g) b ty s len max) as [|e|a0|].
    + apply (IH (b :: post)) in H; auto.
      intros a Fa. destruct (Loc a Fa) as [(N1 & C & _ & C3)|C]; [|exact C]. exfalso.
      destruct P as [P|P]; [contradiction|exact (P a C)].
    + contradiction.
    + destruct P as (P1 & P2 & P3 & P4 & PF & P5).
      pose proof (io_sst_spec g (rev rest) b post a0 len (ITAllocate image device) HO E P2 Hl) as Q.
      destruct (io_sst g (b_base b) a0 len (ITAllocate image device)) as [[k|e|] g1] eqn:ES.
      * inversion H; subst. destruct Q as (HF & s' & Htr & Ch).
        split; [exists (b_st b), s'; auto|]. split; [exact P3|]. split; [exact P4|].
        intros a Fa. destruct (Loc a Fa) as [(_ & C & _)|(b' & B1 & B2)]; [now apply P5|].
        apply in_rev in B1. pose proof (Sd b' B1). destruct HF as (HF1 & HF2 & HF3). lia.
      * destruct e.
        -- destruct Q as (-> & Q1 & Q2). apply (IH (b :: post)) in H; auto. intros a Fa.
           destruct (Loc a Fa) as [(N1 & C & C2 & C3)|C]; [|exact C]. exfalso.
           apply io_alloc_none in Q2. destruct Q2; congruence.
        -- destruct Q as (-> & Q1). contradiction.
        -- destruct Q as (-> & _ & _ & Q). inversion H; subst. split; [reflexivity|]. intros; contradiction.
        -- contradiction.
      * inversion H; subst. tauto.
    + inversion H; subst. exact P.
Qed.
