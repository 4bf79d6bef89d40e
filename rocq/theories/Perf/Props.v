(** C67 and C68: performance records, the boot performance table, and measurements. *)
From Verif Require Import Base.Prelude Base.Bytes Mm.Model Mm.Spec Mm.Props Perf.Model Perf.Spec Perf.Proofs Perf.Main.
Local Open Scope N_scope.

(** ** C67: the records *)

(** Iterating over bytes gives exactly the records they are; over bytes that are no records it panics, and it ends. *)
Theorem c67_iterate : forall l gs, bytes_ok l ->
  (iter l = Ok gs <-> l = stream gs /\ Forall well_formed gs) /\
  ((forall hs, Forall well_formed hs -> l <> stream hs) -> iter l = Panic).
Proof.
  intros l gs HB. split.
  - split; [apply iter_inv_fuel, HB|]. intros (-> & W). apply iter_stream, W.
  - intros NS. destruct (iter l) as [hs|[]|] eqn:E; [|exfalso; revert E; apply iter_no_err_fuel; lia|reflexivity].
    destruct (iter_inv_fuel _ _ _ HB E) as (E1 & W). exfalso. eapply NS; eauto.
Qed.

(** ** C67: the table *)

(** Whatever happened to it, the table has the records it should have, in the order they were added, with a correct
    length; once it is published, memory holds all of it. *)
Theorem c67_table : forall dbg m f gs, reached dbg m f gs -> 56 + N.of_nat (length (stream gs)) < 2 ^ 32 ->
  iter (buffer_of m (f_recs f)) = Ok gs /\
  buffer_of m (f_recs f) = stream gs /\
  table_length m f = 56 + N.of_nat (length (stream gs)) /\
  (published f -> holds m (f_addr f) (table_bytes gs)).
Proof.
  intros dbg m f gs R L. pose proof (reached_inv dbg m f gs R L) as I. pose proof (table_length_inv m f gs I L) as T.
  assert (B : buffer_of m (f_recs f) = stream gs).
  { destruct I as (W & I). unfold buffer_of. destruct (f_recs f) as [l|base cap off]; [apply I|]. destruct I as (-> & -> & _ & _ & H).
    apply table_split in H. apply readm_holds; [unfold len; lia|]. apply H. }
  split; [rewrite B; apply iter_stream, I|]. split; [exact B|]. split; [exact T|]. intros (base & cap & off & P). destruct I as (_ & I). rewrite P in I. apply I.
Qed.

(** A record of at most 255 bytes is always added before publication.  After it, it is added exactly if there is room; if
    not, OUT_OF_RESOURCES is returned and the table is as before ([c67_table]).  Only the table is written. *)
Theorem c67_add : forall dbg m f gs r, reached dbg m f gs -> storable r -> 56 + N.of_nat (length (stream gs)) + 255 < 2 ^ 32 ->
  (unpublished f -> exists f', add_record dbg m f r = (Ok tt, m, f') /\ unpublished f' /\ reached dbg m f' (gs ++ [record_of r])) /\
  (published f -> fits_in r (room f) -> exists m' f', add_record dbg m f r = (Ok tt, m', f') /\ published f' /\ f_addr f' = f_addr f /\
     room f' = room f - g_len (record_of r) /\ reached dbg m' f' (gs ++ [record_of r]) /\ (forall x, ~ in_table f x -> m' x = m x)) /\
  (published f -> ~ fits_in r (room f) -> exists m', add_record dbg m f r = (Err POutOfResources, m', f) /\ reached dbg m' f gs /\
     (forall x, ~ in_table f x -> m' x = m x)).
Proof.
  intros dbg m f gs r R ST L. assert (L' : space gs < two32) by (unfold space, len; change two32 with (2 ^ 32); lia).
  pose proof (reached_inv dbg m f gs R L') as I. pose proof I as (WS & I0).
  assert (W : well_formed (record_of r)) by (apply ST).
  assert (G : 4 <= g_len (record_of r) <= 255) by (destruct W as (_ & _ & _ & -> & W); split; [lia|exact W]).
  assert (SP : space gs + g_len (record_of r) < two32) by (unfold space, len; change two32 with (2 ^ 32); lia).
  assert (SM : g_len (record_of r) mod two32 = g_len (record_of r)) by (apply N.mod_small; change two32 with 4294967296; lia).
  split; [|split].
  - intros (l & U). destruct (add_record dbg m f r) as [[x m'] f'] eqn:E. pose proof E as E0. unfold add_record in E. rewrite U in E, I0. rewrite push_list in E by exact ST.
    destruct I0 as (-> & P & FL). unfold table_length in E. cbn [f_ptr f_len] in E. rewrite P, FL, SM in E. unfold add32 in E.
    destruct (N.ltb_spec (space gs + g_len (record_of r)) two32); [|lia]. unfold set_length in E. cbn [f_ptr f_addr f_recs] in E. apply three in E. destruct E as (<- & <- & <-).
    eexists. split; [reflexivity|]. split; [eexists; reflexivity|]. eapply r_added; eauto.
  - intros (base & cap & off & U) FI. destruct (add_record dbg m f r) as [[x m'] f'] eqn:E. pose proof E as E0. unfold add_record in E. unfold room in FI. rewrite U in E, I0, FI.
    destruct I0 as (-> & -> & HC & P & HH). cbn [push_record] in E.
    destruct (record_mem_ok r (f_addr f + 56) cap m (len (stream gs)) W HC FI) as (m2 & E2 & H2 & F2). rewrite E2 in E.
    assert (T : table_length m2 (Fbpt (f_addr f) (f_len f) (f_ptr f) (Published (f_addr f + 56) cap (len (stream gs) + g_len (record_of r)))) = space gs).
    { unfold table_length. cbn [f_ptr]. rewrite P. apply table_split in HH. destruct HH as (_ & HL & _).
      assert (holds m2 (f_addr f + 4) (le_bytes 4 (space gs))) as DL by (eapply frame_bytes; [exact F2|left; rewrite len4; lia|exact HL]).
      apply (readm_holds m2 (f_addr f + 4) _ 4) in DL; [|apply le_bytes_length]. rewrite DL. apply le_val_bytes. change (256 ^ N.of_nat 4) with two32. lia. }
    rewrite T, SM in E. unfold add32 in E. destruct (N.ltb_spec (space gs + g_len (record_of r)) two32); [|lia].
    unfold set_length in E. cbn [f_ptr] in E. rewrite P in E. apply three in E. destruct E as (<- & <- & <-).
    do 2 eexists. split; [reflexivity|]. split; [do 3 eexists; reflexivity|]. split; [reflexivity|]. cbn [f_recs].
    split; [unfold room; rewrite U; cbn [f_recs]; lia|]. split; [eapply r_added; [exact R|exact ST|exact E0]|].
    intros x Hx. unfold in_table in Hx. rewrite U in Hx. pose proof (writem_within m2 (f_addr f + 4) (le_bytes 4 (space gs + g_len (record_of r)))) as WW.
    rewrite le_bytes_length in WW. change (N.of_nat 4) with 4 in WW. destruct FI as (FI & _). rewrite WW by lia. apply F2. lia.
  - intros (base & cap & off & U) FI. destruct (add_record dbg m f r) as [[x m'] f'] eqn:E. pose proof E as E0. unfold add_record in E. unfold room in FI. rewrite U in E, I0, FI.
    destruct I0 as (-> & -> & HC & P & HH). cbn [push_record] in E.
    destruct (record_mem_full r (f_addr f + 56) cap m (len (stream gs)) HC FI) as (m2 & E2). rewrite E2 in E. pose proof (record_mem_frame _ _ _ _ _ _ _ E2) as F2.
    apply three in E. destruct E as (<- & <- & <-). exists m2. assert (FE : Fbpt (f_addr f) (f_len f) (f_ptr f) (Published (f_addr f + 56) cap (len (stream gs))) = f) by (destruct f; cbn in *; congruence).
    rewrite FE in *. split; [reflexivity|]. split; [eapply r_refused; [exact R|right; exact ST|exact E0]|]. intros x Hx. unfold in_table in Hx. rewrite U in Hx. apply F2. lia.
Qed.

(** Nothing outside the table is written, however long the record. *)
Theorem c67_add_within : forall dbg m f gs r x m' f', reached dbg m f gs -> 56 + N.of_nat (length (stream gs)) < 2 ^ 32 ->
  add_record dbg m f r = (x, m', f') ->
  (unpublished f -> m' = m) /\ (forall a, ~ in_table f a -> m' a = m a).
Proof.
  intros dbg m f gs r x m' f' R L E. pose proof (reached_inv dbg m f gs R L) as (_ & I). unfold add_record in E.
  destruct (f_recs f) as [l|base cap off] eqn:U.
  - assert (M : exists y b, push_record dbg m (Unpublished l) r = (y, m, b)).
    { cbn [push_record]. destruct (write_into put_list _ (len l) r) as [l' [n|]]; eauto. }
    destruct M as (y & b & M). rewrite M in E. assert (m' = m) as ->.
    { destruct I as (_ & P & _). destruct y as [n|e|]; [|apply three in E; destruct E as (_ & <- & _); reflexivity|apply three in E; destruct E as (_ & <- & _); reflexivity].
      destruct (add32 dbg _ _); [|apply three in E; destruct E as (_ & <- & _); reflexivity|apply three in E; destruct E as (_ & <- & _); reflexivity].
      unfold set_length in E. cbn [f_ptr] in E. rewrite P in E. apply three in E. destruct E as (_ & <- & _). reflexivity. }
    auto.
  - split; [intros (l & X); congruence|]. intros a Ha. unfold in_table in Ha. rewrite U in Ha. destruct I as (-> & -> & HC & P & HH).
    cbn [push_record] in E. destruct (write_into (put_mem (f_addr f + 56) cap) m (len (stream gs)) r) as [m1 o] eqn:E2. pose proof (record_mem_frame _ _ _ _ _ _ _ E2) as F2.
    assert (M1 : m1 a = m a) by (apply F2; lia).
    destruct o as [n|]; [|apply three in E; destruct E as (_ & <- & _); exact M1].
    destruct (add32 dbg _ _); [|apply three in E; destruct E as (_ & <- & _); exact M1|apply three in E; destruct E as (_ & <- & _); exact M1].
    unfold set_length in E. cbn [f_ptr] in E. rewrite P in E. apply three in E. destruct E as (_ & <- & _).
    pose proof (writem_within m1 (f_addr f + 4) (le_bytes 4 a0)) as WW. rewrite le_bytes_length in WW. change (N.of_nat 4) with 4 in WW. rewrite WW by lia. exact M1.
Qed.

(** Publication: the table goes to the pages the allocator gives, the wanted ones if possible, with room for at least
    65536 more bytes; nothing else is written.  If there are no pages, nothing changes. *)
Theorem c67_report : forall dbg at_address anywhere m f gs prev r, reached dbg m f gs -> 56 + N.of_nat (length (stream gs)) < 2 ^ 32 -> unpublished f ->
  exists n, 56 + N.of_nat (length (stream gs)) + 0x10000 <= n * 4096 < 56 + N.of_nat (length (stream gs)) + 0x10000 + 4096 /\
  (granted at_address anywhere prev n r ->
   (forall a, r = Ok a -> exists m' f', report_table dbg at_address anywhere m f prev = (Ok a, m', f') /\ published f' /\ f_addr f' = a /\ reached dbg m' f' gs /\
      (forall x, in_table f' x <-> a <= x < a + n * 4096) /\ 0x10000 <= room f' /\ only_within m m' a (n * 4096)) /\
   (forall e, r = Err e -> report_table dbg at_address anywhere m f prev = (Err (PEfi e), m, f))).
Proof.
  intros dbg at_address anywhere m f gs prev r R L U. pose proof (reached_inv dbg m f gs R L) as I. exists (table_pages f).
  assert (SZ : size_of (f_recs f) = len (stream gs)) by (destruct U as (l & U); destruct I as (_ & I); rewrite U in *; destruct I as (-> & _); reflexivity).
  pose proof (table_pages_size f) as TP. rewrite SZ in TP. unfold len in TP.
  split. { split; [lia|]. unfold table_pages, EMPTY_TABLE, EXTRA. rewrite SZ. unfold len. pose proof (N.div_mod (56 + N.of_nat (length (stream gs)) + 0x10000 + 4095) 4096 ltac:(lia)).
    pose proof (N.mod_lt (56 + N.of_nat (length (stream gs)) + 0x10000 + 4095) 4096 ltac:(lia)). lia. }
  intros G. pose proof (report_inv dbg at_address anywhere m f gs prev r I L U G) as RI. split.
  - intros a ->. destruct RI as (m' & f' & E & I' & A & O & F). exists m', f'. split; [exact E|]. split; [do 3 eexists; exact F|]. split; [exact A|].
    split; [eapply r_reported; eauto|]. split; [intros x; unfold in_table; rewrite F, A; lia|]. split; [unfold room; rewrite F; unfold len; lia|].
    intros x Hx. apply O. unfold space, len. lia.
  - intros e ->. exact RI.
Qed.

(** A record of more than 255 bytes before publication: a debug build panics; a release build returns an error, keeps the
    length, but leaves 255 bytes behind, so that iterating over the records panics. *)
Lemma iter_broken : forall gs rest n, Forall well_formed gs -> rest <> [] -> next_record rest = Panic -> (length (stream gs ++ rest) <= n)%nat -> iter_fuel n (stream gs ++ rest) = Panic.
Proof.
  induction gs as [|g gs IH]; intros rest n W NE P L.
  - cbn [stream map concat app] in *. unfold stream in *. cbn [map concat app] in *. destruct rest as [|z zs]; [congruence|]. destruct n as [|n]; [cbn in L; lia|]. cbn [iter_fuel]. rewrite P. reflexivity.
  - inversion W as [|? ? W1 W2]; subst. change (stream (g :: gs)) with (stored g ++ stream gs) in *. rewrite <- app_assoc in *.
    pose proof (stored_length g) as SL. unfold len in SL. rewrite app_length in L. destruct n as [|n]; [lia|].
    destruct (stored g ++ stream gs ++ rest) as [|z zs] eqn:E; [apply (f_equal (@length N)) in E; rewrite app_length in E; cbn in E; lia|].
    cbn [iter_fuel]. rewrite <- E, next_stored by exact W1. cbn [bind]. rewrite IH; [reflexivity|exact W2|exact NE|exact P|lia].
Qed.

Theorem c67_too_long_refuted : forall dbg m f gs r, reached dbg m f gs -> 56 + N.of_nat (length (stream gs)) < 2 ^ 32 -> unpublished f -> 255 < g_len (record_of r) ->
  exists f', add_record dbg m f r = (if dbg then Panic else Err PDebugAssert, m, f') /\ table_length m f' = table_length m f /\
    length (buffer_of m (f_recs f')) = (length (stream gs) + 255)%nat /\ iter (buffer_of m (f_recs f')) = Panic.
Proof.
  intros dbg m f gs r R L (l & U) T. pose proof (reached_inv dbg m f gs R L) as (W & I). rewrite U in I. destruct I as (-> & P & FL).
  destruct (record_list_long r (stream gs) T) as (l' & E & L1 & F1 & N1). unfold add_record. rewrite U. cbn [push_record]. change (N.to_nat MAX_RECORD) with 255%nat. rewrite E.
  exists (Fbpt (f_addr f) (f_len f) (f_ptr f) (Unpublished l')). split; [destruct dbg; reflexivity|]. split; [unfold table_length; cbn [f_ptr f_len]; rewrite P; reflexivity|].
  cbn [f_recs buffer_of]. unfold len in L1. split; [lia|].
  assert (S1 : l' = stream gs ++ skipn (length (stream gs)) l') by (rewrite <- F1 at 1; symmetry; apply firstn_skipn).
  set (rest := skipn (length (stream gs)) l') in *. assert (LR : length rest = 255%nat) by (unfold rest; rewrite skipn_length; lia).
  unfold iter. rewrite S1. apply iter_broken; [exact W|intros X; rewrite X in LR; discriminate| |lia].
  unfold next_record. unfold len. rewrite LR. cbn [N.ltb]. destruct (N.ltb_spec (N.of_nat 255) 4); [lia|].
  rewrite (nth_indep rest 0 1) by lia. rewrite N1. reflexivity.
Qed.

(** Publishing again: a debug build panics; a release build returns an error but has moved the address of the table to a
    table with no records and the old records' length. *)
Theorem c67_second_report_refuted : forall dbg at_address anywhere m f gs prev a, reached dbg m f gs -> 56 + N.of_nat (length (stream gs)) < 2 ^ 32 -> published f ->
  granted at_address anywhere prev (table_pages f) (Ok a) ->
  exists m' f', report_table dbg at_address anywhere m f prev = (if dbg then Panic else Err PDebugAssert, m', f') /\ f_addr f' = a /\ f_recs f' = f_recs f /\
    only_within m m' a 56.
Proof.
  intros dbg at_address anywhere m f gs prev a R L (base & cap & off & U) G. unfold report_table. rewrite (allocate_granted _ _ _ _ _ G).
  pose proof (table_pages_size f) as TP. set (size := table_pages f * 4096) in *.
  destruct (header_ok dbg m a size (table_length (writem m (a + 0) (le_bytes 4 SIGNATURE)) (Fbpt a (f_len f) (f_ptr f) (f_recs f))) ltac:(lia)) as (m3 & E1 & E2 & E3 & D & F & _).
  rewrite E1, E2, E3. change (8 + 48) with 56 in *. rewrite D. destruct (N.ltb_spec size 56); [lia|]. rewrite U. cbn [report].
  exists m3, (Fbpt a (f_len f) (f_ptr f) (Published base cap off)). split; [destruct dbg; reflexivity|]. auto.
Qed.
