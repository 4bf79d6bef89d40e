(** The invariant of the boot performance table. *)
From Verif Require Import Base.Prelude Base.Bytes Mm.Model Mm.Spec Mm.Props Perf.Model Perf.Spec Perf.Proofs.
Local Open Scope N_scope.

Definition space (gs : list grec) : N := 56 + len (stream gs).

Definition inv (m : mem) (f : fbpt) (gs : list grec) : Prop :=
  Forall well_formed gs /\
  match f_recs f with
  | Unpublished l => l = stream gs /\ f_ptr f = None /\ f_len f = space gs
  | Published base cap off =>
      base = f_addr f + 56 /\ off = len (stream gs) /\ off <= cap /\ f_ptr f = Some (f_addr f + 4) /\
      holds m (f_addr f) (table_bytes gs)
  end.

Lemma three : forall (A B C : Type) (a a' : A) (b b' : B) (c c' : C), (a, b, c) = (a', b', c') -> a = a' /\ b = b' /\ c = c'.
Proof. intros. split; [congruence|split; congruence]. Qed.

Lemma stream_app : forall a b, stream (a ++ b) = stream a ++ stream b.
Proof. intros. unfold stream. now rewrite map_app, concat_app. Qed.

Lemma stream_one : forall g, stream [g] = stored g.
Proof. intros. unfold stream. cbn [map concat]. apply app_nil_r. Qed.

Lemma space_snoc : forall gs g, well_formed g -> space (gs ++ [g]) = space gs + g_len g.
Proof. intros gs g (_ & _ & _ & W & _). unfold space. rewrite stream_app, stream_one, len_app, stored_length, W. unfold len. lia. Qed.

(** Adding to a vector. *)
Lemma push_list : forall dbg m l r, storable r -> push_record dbg m (Unpublished l) r = (Ok (g_len (record_of r)), m, Unpublished (l ++ stored (record_of r))).
Proof.
  intros dbg m l r (W & F). cbn [push_record]. change (N.to_nat MAX_RECORD) with 255%nat.
  assert (G : 4 <= g_len (record_of r) <= 255) by (destruct W as (_ & _ & _ & -> & W); split; [lia|exact W]).
  set (k := N.to_nat (g_len (record_of r))). replace (repeat 0 255) with (repeat 0 k ++ repeat 0 (255 - k)) by (rewrite <- repeat_app; f_equal; unfold k; lia).
  assert (L1 : len (repeat 0 k) = g_len (record_of r)) by (unfold len; rewrite repeat_length; unfold k; lia).
  assert (L2 : len (repeat 0 k) + len (repeat 0 (255 - k)) = 255) by (unfold len; rewrite !repeat_length; unfold k; lia).
  rewrite record_list_ok; [|exact W|rewrite L2; exact F|exact L1]. f_equal. f_equal.
  assert (SL : len (stored (record_of r)) = g_len (record_of r)) by (rewrite stored_length; reflexivity).
  rewrite app_assoc. replace (N.to_nat (len l + g_len (record_of r))) with (length (l ++ stored (record_of r))) by (rewrite <- SL; unfold len; rewrite app_length; lia).
  apply firstn_app_exact.
Qed.

Lemma generic_of : forall g, well_formed g -> record_of (generic g) = g /\ storable (generic g).
Proof.
  intros g W. assert (E : record_of (generic g) = g).
  { destruct W as (_ & _ & _ & W & _). destruct g as [t n v d]. unfold record_of, generic in *. cbn in *. rewrite app_nil_r. now rewrite W. }
  split; [exact E|]. unfold storable, fits_in. rewrite E. split; [exact W|]. destruct W as (_ & _ & _ & W1 & W2). split; [exact W2|].
  intros (cs & C). destruct cs as [|c cs]; [|destruct cs; discriminate]. cbn in C. injection C as C. rewrite C in W1. cbn in W1. lia.
Qed.

Lemma push_all_list : forall dbg m gs l, Forall well_formed gs -> push_all dbg m (Unpublished l) gs = Ok (Unpublished (l ++ stream gs)).
Proof.
  intros dbg m. induction gs as [|g gs IH]; intros l W; cbn [push_all]; [unfold stream; cbn; now rewrite app_nil_r|].
  inversion W as [|? ? W1 W2]; subst. destruct (generic_of g W1) as (E & ST). rewrite push_list, E by exact ST. rewrite IH by exact W2.
  rewrite <- app_assoc. reflexivity.
Qed.

Lemma merge_list : forall dbg m hobs c l count b, Forall (fun h => Forall well_formed (snd h)) hobs ->
  merge_hobs dbg m c (Unpublished l) (map (fun h => (fst h, stream (snd h))) hobs) = Ok (count, b) ->
  b = Unpublished (l ++ stream (concat (map snd hobs))).
Proof.
  intros dbg m. induction hobs as [|(c0, gs) hobs IH]; intros c l count b W H; cbn [map concat fst snd merge_hobs] in *.
  { injection H as _ <-. unfold stream. cbn. now rewrite app_nil_r. }
  inversion W as [|? ? W1 W2]; subst. cbn [snd] in W1. destruct (add32 dbg c c0) as [c1| |]; cbn [bind] in H; try discriminate.
  rewrite iter_stream in H by exact W1. rewrite push_all_list in H by exact W1. cbn [bind] in H. apply IH in H; [|exact W2].
  rewrite H, stream_app, app_assoc. reflexivity.
Qed.

Lemma table_length_inv : forall m f gs, inv m f gs -> space gs < two32 -> table_length m f = space gs.
Proof.
  intros m f gs (W & I) L. unfold table_length. destruct (f_recs f) as [l|base cap off].
  - destruct I as (_ & -> & ->). reflexivity.
  - destruct I as (_ & _ & _ & -> & H). unfold table_bytes in H. apply holds_app in H. destruct H as (_ & H). apply holds_app in H. destruct H as (H & _).
    cbn [length] in H. change (N.of_nat 4) with 4 in H. apply (readm_holds m (f_addr f + 4) _ 4) in H; [|apply le_bytes_length]. rewrite H.
    rewrite le_val_bytes; [reflexivity|]. exact L.
Qed.

Lemma frame_bytes : forall m m' a l b n, only_within m m' b n -> a + len l <= b \/ b + n <= a -> holds m a l -> holds m' a l.
Proof. intros m m' a l b n F L H. eapply holds_frame; [exact F| |exact H]. exact L. Qed.

Lemma table_split : forall m a gs, holds m a (table_bytes gs) <->
  holds m a [70; 66; 80; 84] /\ holds m (a + 4) (le_bytes 4 (space gs)) /\ holds m (a + 8) ([2; 0; 48; 2] ++ repeat 0 44) /\ holds m (a + 56) (stream gs).
Proof.
  intros m a gs. unfold table_bytes. rewrite (holds_app m a), (holds_app m (a + N.of_nat _)), (holds_app m (a + N.of_nat _ + N.of_nat _)).
  rewrite le_bytes_length. change (N.of_nat (length [70; 66; 80; 84])) with 4. change (N.of_nat 4) with 4.
  change (N.of_nat (length ([2; 0; 48; 2] ++ repeat 0 44))) with 48.
  replace (a + 4 + 4) with (a + 8) by lia. replace (a + 8 + 48) with (a + 56) by lia.
  change (space gs) with (56 + N.of_nat (length (stream gs))). tauto.
Qed.

Lemma len4 : forall n, len (le_bytes 4 n) = 4.
Proof. intros. unfold len. now rewrite le_bytes_length. Qed.

Lemma fits_in_dec : forall r n, fits_in r n \/ ~ fits_in r n.
Proof.
  intros r n. unfold fits_in. destruct (N.le_gt_cases (g_len (record_of r)) n) as [H0|]; [|right; lia].
  destruct (N.lt_ge_cases (g_len (record_of r)) n) as [|H1]; [left; auto|].
  assert (ends_empty r \/ ~ ends_empty r) as [EE|EE].
  { unfold ends_empty. destruct (p_chunks r) as [|c cs] using rev_ind; [right; intros (x & X); destruct x; discriminate|].
    destruct c; [left; eauto|right; intros (x & X); apply app_inj_tail in X; destruct X; discriminate]. }
  - right. intros (_ & X). specialize (X EE). lia.
  - left. split; [lia|tauto].
Qed.

(** Adding a record, when it was stored. *)
Lemma added_inv : forall dbg m f gs r m' f', inv m f gs -> storable r -> space (gs ++ [record_of r]) < two32 ->
  add_record dbg m f r = (Ok tt, m', f') -> inv m' f' (gs ++ [record_of r]).
Proof.
  intros dbg m f gs r m' f' I ST L H. assert (W : well_formed (record_of r)) by (apply ST). pose proof (space_snoc gs _ W) as SP.
  assert (WS : Forall well_formed (gs ++ [record_of r])) by (apply Forall_app; split; [apply I|constructor; [exact W|constructor]]).
  assert (G : 4 <= g_len (record_of r) <= 255) by (destruct W as (_ & _ & _ & -> & W); split; [lia|exact W]).
  unfold add_record in H. destruct (f_recs f) as [l|base cap off] eqn:R.
  - rewrite push_list in H by exact ST. pose proof (table_length_inv m f gs I ltac:(lia)) as T. destruct I as (_ & I). rewrite R in I. destruct I as (-> & P & FL).
    unfold table_length in *. cbn [f_ptr f_len] in *. rewrite P in *. rewrite FL in H. rewrite N.mod_small in H by (change two32 with 4294967296; lia).
    unfold add32 in H. destruct (N.ltb_spec (space gs + g_len (record_of r)) two32); [|lia]. unfold set_length in H. cbn [f_ptr f_addr f_recs] in H. apply three in H. destruct H as (_ & <- & <-).
    split; [exact WS|]. cbn [f_recs f_ptr f_len]. rewrite stream_app, stream_one. auto.
  - destruct (push_record dbg m (Published base cap off) r) as [[x m1] b1] eqn:E. cbn [push_record] in E.
    pose proof I as (_ & I'). rewrite R in I'. destruct I' as (HB & HO & HC & HP & HH). subst base off.
    pose proof (fits_in_dec r (cap - len (stream gs))) as FI.
    destruct FI as [FI|FI].
    2:{ destruct (record_mem_full r (f_addr f + 56) cap m (len (stream gs)) HC FI) as (m2 & E2). rewrite E2 in E. injection E as <- <- <-. discriminate. }
    destruct (record_mem_ok r (f_addr f + 56) cap m (len (stream gs)) W HC FI) as (m2 & E2 & H2 & F2). rewrite E2 in E.
    assert (x = Ok (g_len (record_of r)) /\ m1 = m2 /\ b1 = Published (f_addr f + 56) cap (len (stream gs) + g_len (record_of r))) as (-> & -> & ->) by (split; [congruence|split; congruence]). clear E.
    rewrite N.mod_small in H by (change two32 with 4294967296; lia).
    apply table_split in HH. destruct HH as (HA & HL & HR & HS).
    assert (D : holds m2 (f_addr f) [70; 66; 80; 84] /\ holds m2 (f_addr f + 4) (le_bytes 4 (space gs)) /\ holds m2 (f_addr f + 8) ([2; 0; 48; 2] ++ repeat 0 44) /\ holds m2 (f_addr f + 56) (stream gs)).
    { split; [eapply frame_bytes; [exact F2| |exact HA]; left; unfold len; cbn; lia|]. split; [eapply frame_bytes; [exact F2| |exact HL]; left; rewrite len4; lia|].
      split; [eapply frame_bytes; [exact F2| |exact HR]; left; unfold len; cbn [app length]; rewrite repeat_length; lia|]. eapply frame_bytes; [exact F2| |exact HS]. left. lia. }
    destruct D as (DA & DL & DR & DS).
    assert (T : table_length m2 (Fbpt (f_addr f) (f_len f) (f_ptr f) (Published (f_addr f + 56) cap (len (stream gs) + g_len (record_of r)))) = space gs).
    { unfold table_length. cbn [f_ptr]. rewrite HP. apply (readm_holds m2 (f_addr f + 4) _ 4) in DL; [|apply le_bytes_length]. rewrite DL. apply le_val_bytes. change (256 ^ N.of_nat 4) with two32. lia. }
    rewrite T in H. unfold add32 in H. destruct (N.ltb_spec (space gs + g_len (record_of r)) two32); [|lia].
    unfold set_length in H. cbn [f_ptr] in H. rewrite HP in H. apply three in H. destruct H as (_ & <- & <-). split; [exact WS|]. cbn [f_recs f_addr f_ptr].
    split; [reflexivity|]. rewrite stream_app, stream_one, len_app, stored_length. destruct FI as (FI & _).
    assert (GL : 4 + len (g_data (record_of r)) = g_len (record_of r)) by reflexivity.
    split; [lia|]. split; [lia|]. split; [reflexivity|].
    pose proof (writem_within m2 (f_addr f + 4) (le_bytes 4 (space gs + g_len (record_of r)))) as WW. rewrite le_bytes_length in WW. change (N.of_nat 4) with 4 in WW.
    apply table_split. split; [eapply frame_bytes; [exact WW| |exact DA]; left; unfold len; cbn; lia|].
    split; [rewrite SP; apply writem_holds|]. split; [eapply frame_bytes; [exact WW| |exact DR]; right; lia|].
    rewrite stream_app, stream_one. apply holds_app. split; [eapply frame_bytes; [exact WW| |exact DS]; right; lia|].
    eapply frame_bytes; [exact WW|right; lia|]. exact H2.
Qed.

(** Memory that is the same in the table leaves the invariant. *)
Lemma outside_inv : forall m f gs m', inv m f gs -> (forall x, in_table f x -> m' x = m x) -> inv m' f gs.
Proof.
  intros m f gs m' (W & I) H. split; [exact W|]. unfold in_table in H. destruct (f_recs f) as [l|base cap off]; [exact I|].
  destruct I as (HB & HO & HC & HP & HH). repeat (split; [assumption|]). intros i Hi. rewrite <- (HH i Hi). apply H.
  subst base off. unfold table_bytes in Hi. rewrite !app_length, le_bytes_length, repeat_length in Hi. cbn [length] in Hi. unfold len in HC. lia.
Qed.

(** Only the free part of the table is written when a record is refused. *)
Lemma refused_inv : forall dbg m f gs r e m' f', inv m f gs -> published f \/ storable r ->
  add_record dbg m f r = (Err e, m', f') -> inv m' f' gs.
Proof.
  intros dbg m f gs r e m' f' I P H. unfold add_record in H. pose proof I as (W & I'). destruct (f_recs f) as [l|base cap off] eqn:R.
  - destruct P as [(? & ? & ? & P)|ST]; [congruence|]. rewrite push_list in H by exact ST.
    destruct (add32 dbg _ _) as [t| |] eqn:A; [|unfold add32 in A; destruct (_ <? _); [|destruct dbg]; discriminate|discriminate].
    destruct (set_length _ _ t); discriminate.
  - destruct I' as (HB & HO & HC & HP & HH). subst base off. cbn [push_record] in H.
    destruct (write_into (put_mem (f_addr f + 56) cap) m (len (stream gs)) r) as [m1 o] eqn:E. pose proof (record_mem_frame _ _ _ _ _ _ _ E) as F. destruct o as [n|].
    + destruct (add32 dbg _ _) as [t| |] eqn:A; [|unfold add32 in A; destruct (_ <? _); [|destruct dbg]; discriminate|discriminate].
      destruct (set_length _ _ t); discriminate.
    + apply three in H. destruct H as (_ & <- & <-). split; [exact W|]. cbn [f_recs f_addr f_ptr]. repeat (split; [auto; fail|]).
      apply table_split in HH. destruct HH as (HA & HL & HR & HS). apply table_split.
      split; [eapply frame_bytes; [exact F| |exact HA]; left; unfold len; cbn; lia|]. split; [eapply frame_bytes; [exact F| |exact HL]; left; rewrite len4; lia|].
      split; [eapply frame_bytes; [exact F| |exact HR]; left; unfold len; cbn [app length]; rewrite repeat_length; lia|]. eapply frame_bytes; [exact F| |exact HS]. left. lia.
Qed.

Lemma basic_stored : well_formed (record_of basic_boot) /\ ~ ends_empty basic_boot /\ stored (record_of basic_boot) = [2; 0; 48; 2] ++ repeat 0 44 /\ g_len (record_of basic_boot) = 48.
Proof.
  split; [|split; [|split; reflexivity]].
  - unfold well_formed. split; [reflexivity|]. split; [reflexivity|]. split; [vm_compute; repeat constructor|]. split; [reflexivity|]. vm_compute. discriminate.
  - intros (cs & C). do 6 (destruct cs as [|? cs]; [discriminate|]; cbn in C; injection C as _ C). destruct cs; discriminate.
Qed.

Lemma table_pages_size : forall f, 56 + size_of (f_recs f) + 65536 <= table_pages f * 4096.
Proof. intros f. unfold table_pages, EMPTY_TABLE, EXTRA. pose proof (N.div_mod (56 + size_of (f_recs f) + 0x10000 + 4095) 4096 ltac:(lia)). pose proof (N.mod_lt (56 + size_of (f_recs f) + 0x10000 + 4095) 4096 ltac:(lia)). lia. Qed.

(** Reporting the table. *)
Lemma allocate_granted : forall at_address anywhere f prev r, granted at_address anywhere prev (table_pages f) r ->
  allocate_table at_address anywhere f prev = match r with Ok a => Ok (a, table_pages f * 4096) | Err e => Err (PEfi e) | Panic => Panic end.
Proof.
  intros at_address anywhere f prev r [(p & a & -> & E & ->)|(NN & E)]; unfold allocate_table.
  - rewrite E. reflexivity.
  - replace (match prev with Some a => at_address a (table_pages f) | None => None end) with (@None N) by (destruct prev; [symmetry; auto|reflexivity]).
    rewrite E. reflexivity.
Qed.

Lemma granted_some : forall at_address anywhere prev n, exists r, granted at_address anywhere prev n r.
Proof.
  intros. destruct prev as [p|]; [|exists (anywhere n); right; split; [discriminate|reflexivity]].
  destruct (at_address p n) as [a|] eqn:E; [exists (Ok a); left; eauto|exists (anywhere n); right; split; [congruence|reflexivity]].
Qed.

Lemma header_ok : forall dbg m a size t, size >= 56 -> exists m3,
  put_mem a size m 0 (le_bytes 4 SIGNATURE) = Some (writem m (a + 0) (le_bytes 4 SIGNATURE)) /\
  put_mem a size (writem m (a + 0) (le_bytes 4 SIGNATURE)) 4 (le_bytes 4 t) = Some (writem (writem m (a + 0) (le_bytes 4 SIGNATURE)) (a + 4) (le_bytes 4 t)) /\
  write_into (put_mem a size) (writem (writem m (a + 0) (le_bytes 4 SIGNATURE)) (a + 4) (le_bytes 4 t)) 8 basic_boot = (m3, Some 48) /\
  (dbg && negb (EMPTY_TABLE =? 8 + 48) = false) /\
  only_within m m3 a 56 /\ holds m3 a [70; 66; 80; 84] /\ holds m3 (a + 4) (le_bytes 4 t) /\ holds m3 (a + 8) ([2; 0; 48; 2] ++ repeat 0 44).
Proof.
  intros dbg m a size t L. rewrite !put_mem_ok by (rewrite ?len4; lia). set (m1 := writem m (a + 0) (le_bytes 4 SIGNATURE)). set (m2 := writem m1 (a + 4) (le_bytes 4 t)).
  destruct basic_stored as (W & NE & SB & SL).
  destruct (record_mem_ok basic_boot a size m2 8 W ltac:(lia)) as (m3 & E & H & F); [split; [rewrite SL; lia|tauto]|]. rewrite SL in E, F. rewrite SB in H.
  exists m3. split; [reflexivity|]. split; [reflexivity|]. split; [exact E|]. split; [destruct dbg; reflexivity|].
  assert (F1 : only_within m m1 (a + 0) 4) by (pose proof (writem_within m (a + 0) (le_bytes 4 SIGNATURE)) as X; rewrite le_bytes_length in X; exact X).
  assert (F2 : only_within m1 m2 (a + 4) 4) by (pose proof (writem_within m1 (a + 4) (le_bytes 4 t)) as X; rewrite le_bytes_length in X; exact X).
  split; [intros x Hx; rewrite F, F2, F1 by lia; reflexivity|].
  assert (S1 : holds m1 a [70; 66; 80; 84]) by (pose proof (writem_holds m (a + 0) (le_bytes 4 SIGNATURE)) as X; rewrite N.add_0_r in X at 2; exact X).
  assert (S2 : holds m2 a [70; 66; 80; 84]) by (eapply frame_bytes; [exact F2|left; cbn; lia|exact S1]).
  split; [eapply frame_bytes; [exact F|left; cbn; lia|exact S2]|]. split; [|exact H].
  eapply frame_bytes; [exact F|left; rewrite len4; lia|]. apply writem_holds.
Qed.

Lemma report_inv : forall dbg at_address anywhere m f gs prev r, inv m f gs -> space gs < two32 -> unpublished f ->
  granted at_address anywhere prev (table_pages f) r ->
  match r with
  | Ok a => exists m' f', report_table dbg at_address anywhere m f prev = (Ok a, m', f') /\ inv m' f' gs /\ f_addr f' = a /\
      only_within m m' a (space gs) /\ f_recs f' = Published (a + 56) (table_pages f * 4096 - 56) (len (stream gs))
  | Err e => report_table dbg at_address anywhere m f prev = (Err (PEfi e), m, f)
  | Panic => report_table dbg at_address anywhere m f prev = (Panic, m, f)
  end.
Proof.
  intros dbg at_address anywhere m f gs prev r I L (l & U) G. unfold report_table. rewrite (allocate_granted _ _ _ _ _ G).
  destruct r as [a|e|]; [|reflexivity|reflexivity]. pose proof (table_pages_size f) as TP. set (size := table_pages f * 4096) in *.
  destruct (header_ok dbg m a size (space gs) ltac:(lia)) as (m3 & E1 & E2 & E3 & D & F & HA & HL & HR).
  rewrite E1. assert (T : table_length (writem m (a + 0) (le_bytes 4 SIGNATURE)) (Fbpt a (f_len f) (f_ptr f) (f_recs f)) = space gs).
  { destruct I as (_ & I). rewrite U in I. destruct I as (_ & P & FL). unfold table_length. cbn [f_ptr f_len]. rewrite P. exact FL. }
  rewrite T, E2, E3. change (8 + 48) with 56 in *. rewrite D. destruct (N.ltb_spec size 56); [lia|]. destruct I as (W & I). rewrite U in I. destruct I as (-> & P & FL).
  unfold report. rewrite U in *. cbn [size_of] in TP. destruct (N.ltb_spec (size - 56) (len (stream gs))); [lia|].
  do 2 eexists. split; [reflexivity|]. pose proof (writem_within m3 (a + 56) (stream gs)) as WW. fold (len (stream gs)) in WW.
  split; [|split; [reflexivity|split; [|reflexivity]]].
  - split; [exact W|]. cbn [f_recs f_addr f_ptr]. split; [reflexivity|]. split; [reflexivity|]. split; [lia|]. split; [reflexivity|]. apply table_split.
    split; [eapply frame_bytes; [exact WW|left; cbn; lia|exact HA]|]. split; [eapply frame_bytes; [exact WW|left; rewrite len4; lia|exact HL]|].
    split; [eapply frame_bytes; [exact WW|left; unfold len; cbn [app length]; rewrite repeat_length; lia|exact HR]|]. apply writem_holds.
  - intros x Hx. unfold space in Hx. rewrite WW by lia. apply F. lia.
Qed.

Lemma merge_bound : forall gs g, space gs <= space (gs ++ g).
Proof. intros. unfold space. rewrite stream_app, len_app. lia. Qed.

Lemma reached_inv : forall dbg m f gs, reached dbg m f gs -> space gs < two32 -> inv m f gs.
Proof.
  induction 1 as [m|m f gs hobs count b m' f' R IH U W M P|m f gs r m' f' R IH ST A|m f gs r e m' f' R IH ST A|m f gs at_address anywhere prev a m' f' R IH U A|m f gs at_address anywhere prev e m' f' R IH U A|m f gs m' R IH A]; intros L.
  - split; [constructor|]. cbn. auto.
  - apply merge_list in M; [|exact W]. cbn [app] in M. subst b. set (all := concat (map snd hobs)) in *.
    assert (f_ptr f = None) as FP.
    { clear - R U. destruct U as (l & U). revert U. revert l. induction R; intros l U; cbn in *; try reflexivity.
      - unfold set_perf_records, set_length in H2. destruct H as (l0 & H). specialize (IHR l0 H). rewrite IHR in H2. injection H2 as _ <-. reflexivity.
      - unfold add_record in H0. destruct (f_recs f) as [l0|base cap off] eqn:E.
        + specialize (IHR l0 eq_refl). destruct (push_record dbg m (Unpublished l0) r) as [[x m1] b1]. destruct x as [n| |]; try discriminate.
          destruct (add32 dbg _ _); try discriminate. unfold set_length in H0. cbn [f_ptr] in H0. rewrite IHR in H0. injection H0 as _ <-. reflexivity.
        + destruct (push_record dbg m (Published base cap off) r) as [[x m1] b1] eqn:PR. destruct x as [n| |]; try discriminate.
          assert (exists o, b1 = Published base cap o) as (o & ->). { cbn [push_record] in PR. destruct (write_into _ m off r) as [m2 [n2|]]; apply three in PR; destruct PR as (_ & _ & <-); eauto. }
          destruct (add32 dbg _ _); try discriminate. unfold set_length in H0. cbn [f_ptr] in H0. destruct (f_ptr f); injection H0 as _ <-; discriminate.
      - unfold add_record in H0. destruct (f_recs f) as [l0|base cap off] eqn:E.
        + specialize (IHR l0 eq_refl). destruct (push_record dbg m (Unpublished l0) r) as [[x m1] b1]. destruct x as [n|e1|]; try discriminate.
          * destruct (add32 dbg _ _); try (destruct (set_length _ _ _); discriminate); injection H0 as _ _ <-; exact IHR.
          * injection H0 as _ _ <-. exact IHR.
        + destruct (push_record dbg m (Published base cap off) r) as [[x m1] b1] eqn:PR.
          assert (exists o, b1 = Published base cap o) as (o & ->). { cbn [push_record] in PR. destruct (write_into _ m off r) as [m2 [n2|]]; apply three in PR; destruct PR as (_ & _ & <-); eauto. }
          destruct x as [n|e1|]; try discriminate.
          * destruct (add32 dbg _ _); try (destruct (set_length _ _ _); discriminate); injection H0 as _ _ <-; discriminate.
          * injection H0 as _ _ <-. discriminate.
      - exfalso. unfold report_table in H0. destruct (allocate_table _ _ f prev) as [(a0, size)| |]; try discriminate.
        destruct (put_mem a0 size m 0 _); try discriminate. destruct (put_mem a0 size m0 4 _); try discriminate.
        destruct (write_into (put_mem a0 size) m1 8 basic_boot) as [m3 [n|]]; try discriminate. destruct (dbg && _); try discriminate. destruct (size <? 8 + n); try discriminate.
        unfold report in H0. destruct (f_recs f) as [l0|]; [destruct (_ <? len l0); try discriminate|destruct dbg; discriminate]. injection H0 as _ _ <-. discriminate.
      - unfold report_table in H0. destruct H as (l0 & H). specialize (IHR l0 H). destruct (allocate_table _ _ f prev) as [(a0, size)| |]; try discriminate.
        + destruct (put_mem a0 size m 0 _); [|injection H0 as _ _ <-; exact IHR]. destruct (put_mem a0 size m0 4 _); [|injection H0 as _ _ <-; exact IHR].
          destruct (write_into (put_mem a0 size) m1 8 basic_boot) as [m3 [n|]]; [|injection H0 as _ _ <-; exact IHR]. destruct (dbg && _); try discriminate. destruct (size <? 8 + n); try discriminate.
          destruct (report dbg m3 (f_recs f) _ _) as [[x m4] b]. destruct x; try discriminate. injection H0 as _ _ <-. exact IHR.
        + injection H0 as _ _ <-. exact IHR.
      - eauto. }
    unfold set_perf_records, set_length in P. rewrite FP in P. injection P as <- <-. split; [|cbn [f_recs f_ptr f_len]].
    { unfold all. clear - W. induction hobs as [|h hobs IH]; cbn; [constructor|]. inversion W; subst. apply Forall_app. auto. }
    split; [reflexivity|]. split; [reflexivity|]. cbn [size_of]. unfold EMPTY_TABLE. fold (space all). rewrite N.mod_small by exact L. reflexivity.
  - assert (space gs < two32) as L' by (pose proof (merge_bound gs [record_of r]); lia). eapply added_inv; eauto.
  - eapply refused_inv; [apply IH, L|exact ST|exact A].
  - destruct (granted_some at_address anywhere prev (table_pages f)) as (g & G). pose proof (report_inv dbg at_address anywhere m f gs prev g (IH L) L U G) as RI.
    destruct g as [a1|e1|]; [|congruence|congruence]. destruct RI as (m1 & f1 & E & I & _). rewrite E in A. injection A as _ <- <-. exact I.
  - destruct (granted_some at_address anywhere prev (table_pages f)) as (g & G). pose proof (report_inv dbg at_address anywhere m f gs prev g (IH L) L U G) as RI.
    destruct g as [a1|e1|]; [|rewrite RI in A; injection A as _ <- <-; auto|congruence]. destruct RI as (m1 & f1 & E & I & _). congruence.
  - eapply outside_inv; [apply IH, L|exact A].
Qed.
