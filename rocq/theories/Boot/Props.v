(** * C52: the resource descriptors reach the memory and I/O maps *)
From Verif Require Import Base.Prelude Align.Model Align.Proofs Gcd.Blocks Gcd.Model Gcd.Spec Gcd.BlockProofs Gcd.Proofs Gcd.Main Gcd.Spin
  Io.Model Io.Spec Io.Proofs Boot.Model Boot.Spec Boot.Proofs Boot.Complete.
Local Open Scope N_scope.

Lemma find_handoff_spec : forall l b t, find_handoff l = Some (b, t) ->
  exists mb mt, first_of is_handoff l (BHandoff mb mt b t).
Proof.
  induction l as [|h l IH]; intros b t H; [discriminate|].
  destruct h as [mb mt fb ft|m i|d|]; cbn [find_handoff] in H.
  - injection H as -> ->. exists mb, mt, [], l. cbn. auto.
  - destruct (IH b t H) as (mb & mt & l1 & l2 & -> & A & B). exists mb, mt, (BCpu m i :: l1), l2. split; [reflexivity|]. split; [exact I|].
    constructor; [cbn; auto|exact B].
  - destruct (IH b t H) as (mb & mt & l1 & l2 & -> & A & B). exists mb, mt, (BRes d :: l1), l2. split; [reflexivity|]. split; [exact I|].
    constructor; [cbn; auto|exact B].
  - destruct (IH b t H) as (mb & mt & l1 & l2 & -> & A & B). exists mb, mt, (BOther :: l1), l2. split; [reflexivity|]. split; [exact I|].
    constructor; [cbn; auto|exact B].
Qed.
Lemma find_handoff_is : forall l mb mt b t, first_of is_handoff l (BHandoff mb mt b t) -> find_handoff l = Some (b, t).
Proof.
  intros l mb mt b t (l1 & l2 & -> & _ & F). induction l1 as [|h l1 IH]; [reflexivity|].
  inversion F as [|? ? N F']; subst. destruct h; cbn in *; auto. exfalso. auto.
Qed.

Lemma page_up_eq : forall x, x < two64 -> align_up 64 x 0x1000 = if page_up x <? two64 then Ok (page_up x) else Err InvalidParameter.
Proof.
  intros x Hx. change 0x1000 with (2 ^ 12). rewrite align_up_eq. change (2 ^ 12) with 4096. unfold page_up.
  change (2 ^ 64) with two64. pose proof (N.div_mod x 4096 ltac:(lia)). pose proof (N.mod_lt x 4096 ltac:(lia)).
  destruct (N.eqb_spec (x mod 4096) 0) as [E|E].
  - replace ((x + 4095) / 4096) with (x / 4096).
    2: { apply (N.div_unique (x + 4095) 4096 (x / 4096) 4095); lia. }
    replace (x / 4096 * 4096) with x by lia. rewrite (proj2 (N.ltb_lt _ _)) by lia. reflexivity.
  - replace ((x + 4095) / 4096) with (x / 4096 + 1).
    2: { apply (N.div_unique (x + 4095) 4096 (x / 4096 + 1) (x mod 4096 - 1)); lia. }
    replace (x / 4096 * 4096 + 4096) with ((x / 4096 + 1) * 4096) by lia. reflexivity.
Qed.
Lemma page_floor_eq : forall x, x < two64 -> align_down 64 x 0x1000 = Ok (page_floor x).
Proof. intros x Hx. change 0x1000 with (2 ^ 12). rewrite align_down_eq; [reflexivity|exact Hx|lia]. Qed.
Lemma page_floor_le : forall x, page_floor x <= x.
Proof. intros x. unfold page_floor. rewrite N.mul_comm. apply N.mul_div_le. lia. Qed.

Lemma free_memory_spec : forall dbg b t s z, b < two64 -> t < two64 -> free_memory dbg b t = Ok (s, z) ->
  s = page_up b /\ s < two64 /\ z < two64 /\
  (page_up b <= page_floor t /\ z = page_floor t - page_up b \/ page_floor t < page_up b /\ dbg = false /\ z = page_floor t + two64 - page_up b).
Proof.
  intros dbg b t s z Hb Ht H. unfold free_memory in H. rewrite page_up_eq, page_floor_eq in H by assumption.
  pose proof (page_floor_le t).
  destruct (N.ltb_spec (page_up b) two64) as [L|L]; [|discriminate]. unfold usub in H.
  destruct (N.leb_spec (page_up b) (page_floor t)).
  - injection H as <- <-. split; [reflexivity|]. split; [exact L|]. split; [lia|]. left. auto.
  - destruct dbg; [discriminate|]. injection H as <- <-. split; [reflexivity|]. split; [exact L|].
    rewrite N.mod_small by lia. split; [lia|]. right. auto.
Qed.

Lemma hob_in : forall P l h, first_of P l h -> In h l.
Proof. intros P l h (l1 & l2 & -> & _). apply in_or_app. right. left. reflexivity. Qed.

(** When the pass over the list completes, the memory map and the I/O map are what the descriptors say.  An address is
    either claimed by exactly one memory descriptor, was nowhere before, and now has that descriptor's type, capabilities
    and attributes - or, in a release build that complained, read protection alone - or no descriptor claims it and it is
    as it was.  Likewise for I/O. *)
Theorem C52_maps_match_the_descriptors : forall w l w', world_ok w -> Forall hob_wf l ->
  add_hob_resource_descriptors w l = BOk w' ->
  exists mb mt b t, first_of is_handoff l (BHandoff mb mt b t) /\ world_ok w' /\
    (forall a,
      (exists d s s' ty got, only (claims_memory (page_up b) (page_floor t) a) (descriptors l) d /\
         mem_at w a = Some s /\ mem_at w' a = Some s' /\ entered d got s s' /\ asks_for d ty /\
         (got = chosen_attributes ty d \/ (sp_alarm (w_mem w') = true /\ got = MEMORY_RP))) \/
      (Forall (fun d => ~ claims_memory (page_up b) (page_floor t) a d) (descriptors l) /\ mem_at w' a = mem_at w a)) /\
    (forall a,
      (exists d s ty, only (claims_io a) (descriptors l) d /\ asks_for_io d ty /\
         io_at w a = Some s /\ is_alloc s = false /\ is_type s = IoNonExistent /\
         io_at w' a = Some (mkIs false ty (is_image s) (is_device s))) \/
      (Forall (fun d => ~ claims_io a d) (descriptors l) /\ io_at w' a = io_at w a)).
Proof.
  intros w l w' HO HF H. unfold add_hob_resource_descriptors in H.
  destruct (find_handoff l) as [[b t]|] eqn:FH; [|discriminate].
  destruct (find_handoff_spec l b t FH) as (mb & mt & F1). exists mb, mt, b, t. split; [exact F1|].
  assert (WF := proj1 (Forall_forall _ _) HF _ (hob_in _ _ _ F1)). cbn [hob_wf] in WF.
  destruct (free_memory (w_dbg w) b t) as [[s z]|e|] eqn:FM; try discriminate.
  destruct (free_memory_spec _ _ _ _ _ (proj1 (proj2 (proj2 WF))) (proj2 (proj2 (proj2 WF))) FM) as (-> & S1 & Z1 & C). pose proof (page_floor_le t) as PL.
  assert (U : uadd (E := efi_error) (w_dbg w) (page_up b) z = Ok (page_floor t) \/ uadd (E := efi_error) (w_dbg w) (page_up b) z = Panic).
  { unfold uadd. destruct C as [(C1 & ->)|(C1 & -> & ->)].
    - rewrite (proj2 (N.ltb_lt _ _)) by lia. left. f_equal. lia.
    - rewrite (proj2 (N.ltb_ge _ _)) by lia. left. f_equal. replace (page_up b + (page_floor t + two64 - page_up b)) with (page_floor t + 1 * two64) by lia.
      rewrite N.mod_add by discriminate. apply N.mod_small. lia. }
  destruct U as [U|U]; rewrite U in H; [|discriminate].
  destruct (add_descriptors_ok _ _ _ _ _ HO HF H) as (K & MS & IS). split; [apply K|]. split.
  - intros a. destruct (MS a) as [(d & x & y & A & B & C' & got & ty & D & G & E)|R]; [left|right; exact R].
    exists d, x, y, ty, got. auto 10.
  - intros a. destruct (IS a) as [(d & x & y & A & B & C' & D1 & D2 & ty & D3 & D4)|R]; [left|right; exact R].
    exists d, x, ty. subst y. auto 10.
Qed.

(** The pass completes, without complaint, on every list of memory descriptors that make sense and do not overlap,
    while the map has room. *)
Theorem C52_sensible_descriptors_accepted : forall w l mb mt b t, world_ok w -> Forall hob_wf l ->
  first_of is_handoff l (BHandoff mb mt b t) -> page_up b <= page_floor t ->
  Forall (sensible (g_max (sp_gcd (w_mem w)))) (descriptors l) ->
  no_conflict (page_up b) (page_floor t) (descriptors l) ->
  (forall a d, In d (descriptors l) -> claims_memory (page_up b) (page_floor t) a d -> nowhere w a) ->
  room (sp_gcd (w_mem w)) (8 * N.of_nat (length (descriptors l))) ->
  exists w', add_hob_resource_descriptors w l = BOk w' /\ sp_alarm (w_mem w') = sp_alarm (w_mem w).
Proof.
  intros w l mb mt b t HO HF HH Hlt HS HC HN HR. unfold add_hob_resource_descriptors. rewrite (find_handoff_is _ _ _ _ _ HH).
  assert (WF := proj1 (Forall_forall _ _) HF _ (hob_in _ _ _ HH)). cbn [hob_wf] in WF. pose proof (page_floor_le t) as PL.
  unfold free_memory. rewrite page_up_eq, page_floor_eq by tauto. rewrite (proj2 (N.ltb_lt (page_up b) two64)) by lia.
  unfold usub. rewrite (proj2 (N.leb_le _ _) Hlt). unfold uadd. rewrite (proj2 (N.ltb_lt _ _)) by lia.
  replace (page_up b + (page_floor t - page_up b)) with (page_floor t) by lia.
  apply descriptors_succeed; auto.
  - unfold page_aligned, page_up. change UEFI_PAGE_SIZE with 4096. apply N.mod_mul. lia.
  - unfold page_aligned, page_floor. change UEFI_PAGE_SIZE with 4096. apply N.mod_mul. lia.
Qed.

(** Each capability bit comes from its resource attribute bit. *)
Theorem C52_capabilities : forall ty attr, capabilities_of ty attr (get_capabilities ty attr).
Proof. exact get_capabilities_spec. Qed.

(** ** The first map *)
Definition limits (w : world) (m i : N) : Prop := g_max (sp_gcd (w_mem w)) = 2 ^ (m mod 64) /\ i_max (w_io w) = 2 ^ (i mod 64) /\
  (w_dbg w = true -> m < 64 /\ i < 64).
Definition same_but_limits (w w' : world) : Prop :=
  g_dbg (sp_gcd (w_mem w')) = g_dbg (sp_gcd (w_mem w)) /\ g_nodesz (sp_gcd (w_mem w')) = g_nodesz (sp_gcd (w_mem w)) /\ (blank w -> blank w').

Lemma shl1_spec : forall dbg b x, shl1 dbg b = Some x -> x = 2 ^ (b mod 64) /\ (dbg = true -> b < 64).
Proof.
  intros dbg b x H. unfold shl1 in H. destruct (N.ltb_spec b 64).
  - injection H as <-. rewrite N.mod_small by assumption. auto.
  - destruct dbg; [discriminate|]. injection H as <-. split; [reflexivity|discriminate].
Qed.

Lemma last_cons : forall P h l x, last_of P l x -> last_of P (h :: l) x.
Proof. intros P h l x (l1 & l2 & -> & A & B). exists (h :: l1), l2. auto. Qed.
Lemma last_here : forall (P : bhob -> Prop) h l, P h -> Forall (fun x => ~ P x) l -> last_of P (h :: l) h.
Proof. intros P h l A B. exists [], l. auto. Qed.

Lemma scan_spec : forall l w v w' v', scan_hobs w v l = BOk (w', v') ->
  same_but_limits w w' /\
  ((Forall (fun h => ~ is_handoff h) l /\ v' = v) \/
   exists mb mt fb ft s z, last_of is_handoff l (BHandoff mb mt fb ft) /\ free_memory (w_dbg w) fb ft = Ok (s, z) /\ v' = (s, z, mb, mt)) /\
  ((Forall (fun h => ~ is_cpu h) l /\ g_max (sp_gcd (w_mem w')) = g_max (sp_gcd (w_mem w)) /\ i_max (w_io w') = i_max (w_io w)) \/
   exists m i, last_of is_cpu l (BCpu m i) /\ limits w' m i).
Proof.
  induction l as [|h l IH]; intros w v w' v' H; cbn [scan_hobs] in H.
  - injection H as <- <-. split; [unfold same_but_limits; auto|]. split; left; auto.
  - destruct h as [mb mt fb ft|m i|d|].
    + destruct (free_memory (w_dbg w) fb ft) as [[s z]|e|] eqn:FM; try discriminate.
      destruct (IH _ _ _ _ H) as (S & A & B). split; [exact S|]. split.
      * right. destruct A as [(A1 & A2)|(mb' & mt' & fb' & ft' & s' & z' & A1 & A2 & A3)].
        -- exists mb, mt, fb, ft, s, z. split; [apply last_here; [exact I|exact A1]|auto].
        -- exists mb', mt', fb', ft', s', z'. split; [now apply last_cons|auto].
      * destruct B as [(B1 & B2)|(m & i & B1 & B2)]; [left|right].
        -- split; [constructor; [cbn; auto|exact B1]|exact B2].
        -- exists m, i. split; [now apply last_cons|exact B2].
    + destruct (gcd_init w m i) as [w1| |] eqn:GI; try discriminate. destruct (IH _ _ _ _ H) as (S & A & B).
      unfold gcd_init in GI. destruct (shl1 (w_dbg w) m) as [x|] eqn:X; [|discriminate]. destruct (shl1 (w_dbg w) i) as [y|] eqn:Y; [|discriminate].
      injection GI as <-. destruct (shl1_spec _ _ _ X) as (-> & X2), (shl1_spec _ _ _ Y) as (-> & Y2).
      destruct S as (S1 & S2 & S3). cbn in S1, S2. split.
      { split; [exact S1|]. split; [exact S2|]. intros BL. apply S3. exact BL. }
      split.
      * destruct A as [(A1 & A2)|(mb' & mt' & fb' & ft' & s' & z' & A1 & A2 & A3)]; [left|right].
        -- split; [constructor; [cbn; auto|exact A1]|exact A2].
        -- exists mb', mt', fb', ft', s', z'. split; [now apply last_cons|auto].
      * right. destruct B as [(B1 & B2 & B3)|(m' & i' & B1 & B2)].
        -- exists m, i. split; [apply last_here; [exact I|exact B1]|]. cbn in B2, B3. unfold limits. rewrite B2, B3.
           split; [reflexivity|]. split; [reflexivity|]. intros D. unfold w_dbg, s_dbg in *. rewrite S1 in D. auto.
        -- exists m', i'. split; [now apply last_cons|exact B2].
    + destruct (IH _ _ _ _ H) as (S & A & B). split; [exact S|]. split.
      * destruct A as [(A1 & A2)|(mb' & mt' & fb' & ft' & s' & z' & A1 & A2 & A3)]; [left|right].
        -- split; [constructor; [cbn; auto|exact A1]|exact A2].
        -- exists mb', mt', fb', ft', s', z'. split; [now apply last_cons|auto].
      * destruct B as [(B1 & B2)|(m & i & B1 & B2)]; [left|right].
        -- split; [constructor; [cbn; auto|exact B1]|exact B2].
        -- exists m, i. split; [now apply last_cons|exact B2].
    + destruct (IH _ _ _ _ H) as (S & A & B). split; [exact S|]. split.
      * destruct A as [(A1 & A2)|(mb' & mt' & fb' & ft' & s' & z' & A1 & A2 & A3)]; [left|right].
        -- split; [constructor; [cbn; auto|exact A1]|exact A2].
        -- exists mb', mt', fb', ft', s', z'. split; [now apply last_cons|auto].
      * destruct B as [(B1 & B2)|(m & i & B1 & B2)]; [left|right].
        -- split; [constructor; [cbn; auto|exact B1]|exact B2].
        -- exists m, i. split; [now apply last_cons|exact B2].
Qed.

(** The first pass, when it completes, leaves a world the second pass can start from: the free memory of the hand-off
    table is in the map, part of it allocated for the map itself, and everything else is nowhere. *)
Theorem C52_first_map : forall w l w', blank w -> g_max (sp_gcd (w_mem w)) = 0 -> Forall hob_wf l -> init_gcd w l = BOk w' ->
  exists mb mt b t m i, last_of is_handoff l (BHandoff mb mt b t) /\ last_of is_cpu l (BCpu m i) /\
    world_ok w' /\ limits w' m i /\ mb < mt /\ page_up b < page_floor t <= 2 ^ (m mod 64) /\
    let own := page_up b + 4096 * g_nodesz (sp_gcd (w_mem w)) in
    own <= page_floor t /\
    forall a, a < 2 ^ (m mod 64) -> mem_at w' a =
      Some (if (page_up b <=? a) && (a <? own) then mkMs true SystemMemory (added_caps SystemMemory 0x2700F) (N.lor MEMORY_WB MEMORY_XP) BS_DATA_HANDLE 0
            else if (page_up b <=? a) && (a <? page_floor t) then mkMs false SystemMemory (added_caps SystemMemory 0x2700F) (N.lor MEMORY_WB MEMORY_RP) 0 0
            else mkMs false NonExistent 0 0 0 0).
Proof.
  intros w l w' HB H0 HF H. unfold init_gcd in H.
  destruct (scan_hobs w (0, 0, 0, 0) l) as [[w1 [[[start size] mb] mt]]| |] eqn:SC; try discriminate.
  destruct ((0 <? size) && (mb <? mt)) eqn:CK; [|discriminate]. apply andb_true_iff in CK. destruct CK as (CK1 & CK2).
  apply N.ltb_lt in CK1, CK2.
  destruct (scan_spec _ _ _ _ _ SC) as ((S1 & S2 & S3) & A & B).
  destruct A as [(_ & A)|(mb' & mt' & b & t & s & z & A1 & A2 & A3)]; [injection A; lia|]. injection A3 as -> -> -> ->.
  unfold spin_add in H. destruct (add_memory_space (sp_gcd (w_mem w1)) SystemMemory s z INITIAL_CAPABILITIES) as [[v|e|] g'] eqn:AD; try discriminate.
  injection H as <-.
  destruct B as [(_ & B & _)|(m & i & B1 & B2)].
  { rewrite H0 in B. unfold add_memory_space, add_checks in AD. rewrite B in AD. discriminate. }
  assert (IN : In (BHandoff mb' mt' b t) l).
  { destruct A1 as (l1 & l2 & -> & _). apply in_or_app. right. left. reflexivity. }
  assert (WF := proj1 (Forall_forall _ _) HF _ IN). cbn [hob_wf] in WF.
  destruct (free_memory_spec _ _ _ _ _ (proj1 (proj2 (proj2 WF))) (proj2 (proj2 (proj2 WF))) A2) as (-> & W1 & W2 & C).
  specialize (S3 HB). destruct S3 as (BB1 & BB2 & BB3 & BB4 & BB5). pose proof B2 as (L1 & L2 & L3).
  assert (PM : forall n, 0 < 2 ^ (n mod 64) < two64).
  { intros n. split; [apply N.neq_0_lt_0, N.pow_nonzero; lia|]. change two64 with (2 ^ 64). apply N.pow_lt_mono_r; [lia|].
    apply N.mod_lt. lia. }
  pose proof (first_add_step (sp_gcd (w_mem w1)) SystemMemory (page_up b) z INITIAL_CAPABILITIES (Ok v) g' (conj BB1 BB2)) as P.
  rewrite L1 in P. specialize (P (PM m) W1 W2 AD). cbn [first_add_post] in P. rewrite L1 in P.
  destruct P as (_ & P1 & P2 & P3 & _ & (F1 & F2 & F3 & _) & MK & _ & PP).
  assert (PL := page_floor_le t). pose proof (PM m) as PMm.
  assert (CC : page_up b <= page_floor t /\ z = page_floor t - page_up b) by (destruct C as [C|(C1 & _ & ->)]; [exact C|exfalso; lia]).
  clear C. destruct CC as (C1 & ->).
  exists mb', mt', b, t, m, i. split; [exact A1|]. split; [exact B1|]. split; [|split; [|split; [exact CK2|split; [lia|]]]].
  - unfold world_ok. cbn [w_mem w_io notify with_gcd sp_gcd sp_pt]. split; [exact MK|]. rewrite F3, L1. split; [apply PM|]. split; [exact BB3|].
    apply io_map_inv. right. rewrite L2. split; [apply PM|auto].
  - unfold limits. cbn [w_mem w_io notify with_gcd sp_gcd]. rewrite F3. split; [exact L1|]. split; [exact L2|].
    unfold w_dbg, s_dbg in *. cbn [w_mem notify with_gcd sp_gcd]. rewrite F1. exact L3.
  - unfold slice_size in *. rewrite S2 in *. change MEMORY_BLOCK_SLICE_LEN with 4096 in *. cbn zeta. split; [lia|].
    intros a Ha. unfold mem_at. cbn [w_mem notify with_gcd sp_gcd]. rewrite (PP a Ha). unfold first_state, slice_size. rewrite S2.
    change MEMORY_BLOCK_SLICE_LEN with 4096. change INITIAL_CAPABILITIES with 0x2700F. replace (page_up b + (page_floor t - page_up b)) with (page_floor t) by lia.
    reflexivity.
Qed.

(** ** A boot *)
Definition blank_world (dbg : bool) : world :=
  World (Spin (mkGcd dbg 80 0 0 [] false false) None [] 0x4000 [] false) (mkIo dbg 0 0 []).

(** Cacheable tested memory below and above 16 MiB, where free memory is; device memory; a port range. *)
Definition ram (start len : N) : desc := Desc true 0 0x703C07 start len 8.
Definition mmio (start len : N) : desc := Desc true 1 0x403 start len 1.
Definition ports (start len : N) : desc := Desc false 2 0x403 start len 0.
Definition boot_hobs : list bhob :=
  [BHandoff 0x1000000 0x2000000 0x1000800 0x1FFF900; BCpu 36 16; BOther; BRes (ram 0x100000 0x3F00000);
   BRes (mmio 0xFEC00000 0x1000); BRes (ports 0x3F8 8)].

Definition step2 (r : bout world) (l : list bhob) : bout world :=
  match r with BOk w => add_hob_resource_descriptors w l | x => x end.
Definition ends_well (r : bout world) : bool := match r with BOk w => negb (sp_alarm (w_mem w)) | _ => false end.
Definition panics (r : bout world) : bool := match r with BPanic => true | _ => false end.
Lemma panics_is : forall r, panics r = true -> r = BPanic.
Proof. intros [| |] H; [discriminate H|reflexivity|discriminate H]. Qed.
Definition booted (dbg : bool) (l : list bhob) : world :=
  match step2 (init_gcd (blank_world dbg) boot_hobs) l with BOk w => w | _ => blank_world dbg end.

Example boot_works : forall dbg, ends_well (step2 (init_gcd (blank_world dbg) boot_hobs) boot_hobs) = true.
Proof. intros []; vm_compute; reflexivity. Qed.
Example boot_first_map : forall dbg, exists w, init_gcd (blank_world dbg) boot_hobs = BOk w /\ Forall hob_wf boot_hobs /\ blank (blank_world dbg).
Proof.
  intros dbg. destruct (init_gcd (blank_world dbg) boot_hobs) as [w| |] eqn:E.
  - exists w. split; [reflexivity|]. split; [|repeat split].
    repeat constructor; cbn; unfold desc_wf; cbn; repeat split; reflexivity.
  - exfalso. destruct dbg; vm_compute in E; discriminate.
  - exfalso. destruct dbg; vm_compute in E; discriminate.
Qed.
Definition type_at (w : world) (a : N) : option (mem_type * N) := option_map (fun s => (ms_type s, ms_attrs s)) (mem_at w a).
Example boot_map : forall dbg,
  map (type_at (booted dbg boot_hobs)) [0xFF000; 0x100000; 0x1001000; 0x1FFE000; 0x1FFF000; 0x3FFFFFF; 0x4000000; 0xFEC00FFF] =
  [Some (NonExistent, 0); Some (SystemMemory, 0x2008); Some (SystemMemory, 0x4008); Some (SystemMemory, 0x2008); Some (SystemMemory, 0x2008);
   Some (SystemMemory, 0x2008); Some (NonExistent, 0); Some (MemoryMappedIo, 1)] /\
  io_at (booted dbg boot_hobs) 0x3FF = Some (mkIs false IoIo 0 0) /\ io_at (booted dbg boot_hobs) 0x400 = Some (mkIs false IoNonExistent 0 0).
Proof. intros []; vm_compute; auto. Qed.

(** Non-vacuity of the acceptance theorem: the memory descriptors above, on the map of the first pass. *)
Definition first_world (dbg : bool) : world := match init_gcd (blank_world dbg) boot_hobs with BOk w => w | _ => blank_world dbg end.
Definition mem_hobs : list bhob :=
  [BHandoff 0x1000000 0x2000000 0x1000800 0x1FFF900; BRes (ram 0x100000 0x3F00000); BRes (mmio 0xFEC00000 0x1000)].
Lemma first_init : forall dbg, init_gcd (blank_world dbg) boot_hobs = BOk (first_world dbg).
Proof. intros dbg. destruct (boot_first_map dbg) as (w & E & _). unfold first_world. rewrite E. reflexivity. Qed.

Lemma ram_asks : forall s l ty, asks_for (ram s l) ty -> ty = SystemMemory.
Proof. intros s l ty H. rewrite <- (asks_system_type (ram s l) ty eq_refl H). reflexivity. Qed.
Lemma mmio_asks : forall s l ty, asks_for (mmio s l) ty -> ty = MemoryMappedIo.
Proof. intros s l ty H. apply (asks_unique (mmio s l)); [exact H|]. apply asks_mmio. left. reflexivity. Qed.
Lemma subset_land : forall a b, N.land a b = a -> bits_subset a b.
Proof. intros a b H i T. rewrite <- H, N.land_spec in T. now apply andb_true_iff in T. Qed.

Example mem_hobs_sensible : forall dbg, world_ok (first_world dbg) /\ Forall hob_wf mem_hobs /\
  first_of is_handoff mem_hobs (BHandoff 0x1000000 0x2000000 0x1000800 0x1FFF900) /\ page_up 0x1000800 <= page_floor 0x1FFF900 /\
  Forall (sensible (g_max (sp_gcd (w_mem (first_world dbg))))) (descriptors mem_hobs) /\
  no_conflict (page_up 0x1000800) (page_floor 0x1FFF900) (descriptors mem_hobs) /\
  (forall a d, In d (descriptors mem_hobs) -> claims_memory (page_up 0x1000800) (page_floor 0x1FFF900) a d -> nowhere (first_world dbg) a) /\
  room (sp_gcd (w_mem (first_world dbg))) (8 * N.of_nat (length (descriptors mem_hobs))).
Proof.
  intros dbg.
  assert (WF : Forall hob_wf boot_hobs) by (repeat constructor; cbn; unfold desc_wf; cbn; repeat split; reflexivity).
  destruct (C52_first_map (blank_world dbg) boot_hobs (first_world dbg)) as (mb & mt & b & t & m & i & A & B & C & D & E & F & G & H).
  { repeat split. } { reflexivity. } { exact WF. } { apply first_init. }
  assert (IDS : b = 0x1000800 /\ t = 0x1FFF900 /\ m = 36).
  { destruct A as (l1 & l2 & A1 & _). destruct B as (k1 & k2 & B1 & _).
    assert (X : In (BHandoff mb mt b t) boot_hobs) by (rewrite A1; apply in_or_app; right; left; reflexivity).
    assert (Y : In (BCpu m i) boot_hobs) by (rewrite B1; apply in_or_app; right; left; reflexivity).
    cbn in X, Y. split; [|split]; [destruct X as [X|[X|[X|[X|[X|[X|[]]]]]]]; inversion X; reflexivity..|
      destruct Y as [Y|[Y|[Y|[Y|[Y|[Y|[]]]]]]]; inversion Y; reflexivity]. }
  destruct IDS as (-> & -> & ->).
  assert (MX : g_max (sp_gcd (w_mem (first_world dbg))) = 2 ^ 36) by apply D.
  split; [exact C|]. split; [repeat constructor; cbn; unfold desc_wf; cbn; repeat split; reflexivity|].
  split; [exists [], [BRes (ram 0x100000 0x3F00000); BRes (mmio 0xFEC00000 0x1000)]; cbn; auto|].
  split; [vm_compute; discriminate|]. split.
  { rewrite MX. cbn [descriptors flat_map app mem_hobs]. constructor; [|constructor; [|constructor]]; unfold sensible.
    - split; [reflexivity|]. split; [vm_compute; discriminate|]. split; [reflexivity|]. split; [discriminate|]. intros ty HA.
      rewrite (ram_asks _ _ _ HA). split; [vm_compute; repeat split; discriminate|]. intros _. split; [reflexivity|]. split; [reflexivity|].
      split; [discriminate|]. intros caps HC. rewrite (capabilities_unique _ _ _ _ HC (get_capabilities_spec _ _)).
      apply subset_land. vm_compute. reflexivity.
    - split; [reflexivity|]. split; [vm_compute; discriminate|]. split; [reflexivity|]. split; [discriminate|]. intros ty HA.
      rewrite (mmio_asks _ _ _ HA). split; [vm_compute; repeat split; discriminate|]. intros _. split; [reflexivity|]. split; [reflexivity|].
      split; [discriminate|]. intros caps HC. rewrite (capabilities_unique _ _ _ _ HC (get_capabilities_spec _ _)).
      apply subset_land. vm_compute. reflexivity. }
  split.
  { constructor; [|repeat constructor]. constructor; [|constructor]. intros a ((X & _) & (Y & _)).
    destruct X as (X & _), Y as (Y & _). unfold in_desc, ram, mmio in *. cbn in X, Y. lia. }
  split.
  { intros a d I (X & _). unfold claims in X. change (page_up 0x1000800) with 0x1001000 in *. change (page_floor 0x1FFF900) with 0x1FFF000 in *.
    assert (La : a < 2 ^ 36).
    { destruct X as (X & _). unfold in_desc in X. cbn in I. destruct I as [<-|[<-|[]]]; cbn in X; lia. }
    unfold nowhere. rewrite (H a La). cbn [blank_world w_mem sp_gcd g_nodesz].
    change (0x1001000 + 4096 * 80) with 0x1051000 in *.
    destruct X as (_ & X & _). destruct (N.leb_spec 0x1001000 a), (N.ltb_spec a 0x1051000), (N.ltb_spec a 0x1FFF000); cbn [andb]; try reflexivity; lia. }
  unfold room. destruct dbg; vm_compute; discriminate.
Qed.

(** ** What is not so *)

(** A descriptor that begins inside free memory and goes on behind it is forgotten: the part behind is in no map. *)
Theorem C52_tail_lost_refuted : forall dbg : bool, exists d a w w', let l := [BHandoff 0x1000000 0x2000000 0x1001000 0x1FFF000; BRes d] in
  w_dbg w = dbg /\ world_ok w /\ Forall hob_wf l /\ add_hob_resource_descriptors w l = BOk w' /\ asks_for d SystemMemory /\
  in_desc d a /\ ~ (0x1001000 <= a < 0x1FFF000) /\ nowhere w a /\ nowhere w' a.
Proof.
  intros dbg. exists (ram 0x1001000 0x3000000), 0x3000000, (first_world dbg).
  set (l := [_; _]).
  assert (X : ends_well (add_hob_resource_descriptors (first_world dbg) l) = true) by (destruct dbg; vm_compute; reflexivity).
  assert (Y : match add_hob_resource_descriptors (first_world dbg) l with BOk w => type_at w 0x3000000 | _ => None end = Some (NonExistent, 0)) by (destruct dbg; vm_compute; reflexivity).
  destruct (add_hob_resource_descriptors (first_world dbg) l) as [w'| |] eqn:E; try discriminate. exists w'. cbn zeta.
  destruct (mem_hobs_sensible dbg) as (WO & _).
  assert (WF : Forall hob_wf l) by (repeat constructor; cbn; unfold desc_wf; cbn; repeat split; reflexivity).
  split; [destruct dbg; vm_compute; reflexivity|]. split; [exact WO|]. split; [exact WF|]. split; [exact E|].
  split; [apply asks_for_system; [reflexivity|reflexivity|discriminate]|].
  split; [unfold in_desc; cbn; lia|]. split; [lia|].
  assert (N1 : nowhere (first_world dbg) 0x3000000) by (destruct dbg; vm_compute; reflexivity). split; [exact N1|].
  destruct (C52_maps_match_the_descriptors _ _ _ WO WF E) as (mb & mt & b & t & (l1 & l2 & L & _ & _) & _ & M & _).
  unfold nowhere in *. destruct (M 0x3000000) as [(d & s & s' & ty & got & O & _ & _ & (_ & _ & ty' & c & HA & _ & ES) & _)|(_ & ->)]; [exfalso|exact N1].
  destruct (M 0x3000000) as [(d1 & s1 & s1' & ty1 & got1 & _ & _ & MA & (_ & _ & ty1' & c1 & HA1 & _ & ES1) & _)|(_ & MA)].
  - unfold type_at in Y. rewrite MA in Y. cbn in Y. rewrite ES1 in Y. cbn in Y. injection Y as Y _. rewrite Y in HA1. inversion HA1.
  - destruct O as (k1 & k2 & K & OC & _). unfold l in K, L.
    assert (IB : b = 0x1001000 /\ t = 0x1FFF000).
    { assert (Z : In (BHandoff mb mt b t) [BHandoff 0x1000000 0x2000000 0x1001000 0x1FFF000; BRes (ram 0x1001000 0x3000000)])
        by (rewrite L; apply in_or_app; right; left; reflexivity).
      destruct Z as [Z|[Z|[]]]; inversion Z; auto. }
    destruct IB as (-> & ->). assert (ID : d = ram 0x1001000 0x3000000).
    { assert (Z : In d (descriptors l)) by (unfold l; cbn [descriptors flat_map app]; cbn [descriptors flat_map app] in K; rewrite K; apply in_or_app; right; left; reflexivity).
      destruct Z as [Z|[]]; auto. }
    subst d. destruct OC as ((_ & _ & OC) & _). apply OC. vm_compute. split; [discriminate|reflexivity].
Qed.

(** Device memory whose V2 descriptor leaves the caching open stops the machine, although the descriptor is valid. *)
Theorem C52_open_caching_refuted : forall dbg, exists d, let l := [BHandoff 0x1000000 0x2000000 0x1001000 0x1FFF000; BRes d] in
  asks_for d MemoryMappedIo /\ protections_declared d /\ d_mattrs d = 0 /\ (forall a, in_desc d a -> nowhere (first_world dbg) a) /\
  add_hob_resource_descriptors (first_world dbg) l = BPanic.
Proof.
  intros dbg. exists (Desc true 1 0x403 0xFEC00000 0x1000 0). cbn zeta.
  split; [apply asks_mmio; auto|]. split; [vm_compute; repeat split; discriminate|]. split; [reflexivity|]. split.
  - intros a Ha. destruct (mem_hobs_sensible dbg) as (_ & _ & _ & _ & _ & _ & N & _). apply (N a (mmio 0xFEC00000 0x1000)).
    + cbn. auto.
    + split; [|exists MemoryMappedIo; apply asks_mmio; auto]. unfold in_desc in Ha. cbn in Ha. unfold claims, in_desc. cbn.
      change (page_up 0x1000800) with 0x1001000. change (page_floor 0x1FFF900) with 0x1FFF000. lia.
  - assert (X : panics (add_hob_resource_descriptors (first_world dbg)
        [BHandoff 0x1000000 0x2000000 0x1001000 0x1FFF000; BRes (Desc true 1 0x403 0xFEC00000 0x1000 0)]) = true)
      by (destruct dbg; vm_compute; reflexivity).
    apply panics_is. exact X.
Qed.

(** Memory that is read-protected and says it can be is refused: the check looks at the read-only bit. *)
Theorem C52_read_protected_refuted : forall dbg, exists d, let l := [BHandoff 0x1000000 0x2000000 0x1001000 0x1FFF000; BRes d] in
  asks_for d MemoryMappedIo /\ attr_bit d 7 = true /\ attr_bit d 20 = true /\
  add_hob_resource_descriptors (first_world dbg) l = BPanic.
Proof.
  intros dbg. exists (Desc false 1 0x100483 0xFEC00000 0x1000 0). cbn zeta.
  split; [apply asks_mmio; auto|]. split; [reflexivity|]. split; [reflexivity|].
  assert (X : panics (add_hob_resource_descriptors (first_world dbg)
        [BHandoff 0x1000000 0x2000000 0x1001000 0x1FFF000; BRes (Desc false 1 0x100483 0xFEC00000 0x1000 0)]) = true)
    by (destruct dbg; vm_compute; reflexivity).
  apply panics_is. exact X.
Qed.

(** Free memory is not always read-protected: more reliable memory of a V2 descriptor is not. *)
Theorem C52_reliable_memory_open_refuted : forall dbg, exists d a w' s, let l := [BHandoff 0x1000000 0x2000000 0x1001000 0x1FFF000; BRes d] in
  asks_for d MoreReliable /\ add_hob_resource_descriptors (first_world dbg) l = BOk w' /\ in_desc d a /\
  mem_at w' a = Some s /\ ms_alloc s = false /\ N.testbit (ms_attrs s) 13 = false.
Proof.
  intros dbg. set (d := Desc true 0 0x2703C07 0x4000000 0x100000 8). set (l := [BHandoff 0x1000000 0x2000000 0x1001000 0x1FFF000; BRes d]).
  assert (X : match add_hob_resource_descriptors (first_world dbg) l with
              | BOk w => match mem_at w 0x4000000 with Some s => negb (ms_alloc s) && negb (N.testbit (ms_attrs s) 13) | None => false end
              | _ => false end = true) by (destruct dbg; vm_compute; reflexivity).
  destruct (add_hob_resource_descriptors (first_world dbg) l) as [w'| |] eqn:E; try discriminate.
  destruct (mem_at w' 0x4000000) as [s|] eqn:M; [|discriminate]. apply andb_true_iff in X. destruct X as (X1 & X2).
  exists d, 0x4000000, w', s. cbn zeta. split; [apply asks_for_system; [reflexivity|reflexivity|discriminate]|]. split; [exact E|].
  split; [unfold in_desc; cbn; lia|]. split; [exact M|]. apply negb_true_iff in X1. apply negb_true_iff in X2. split; [exact X1|exact X2].
Qed.

Print Assumptions C52_maps_match_the_descriptors.
Print Assumptions C52_sensible_descriptors_accepted.
Print Assumptions C52_capabilities.
Print Assumptions C52_first_map.
Print Assumptions C52_tail_lost_refuted.
Print Assumptions C52_open_caching_refuted.
Print Assumptions C52_read_protected_refuted.
Print Assumptions C52_reliable_memory_open_refuted.
