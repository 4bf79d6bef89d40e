(** Sections read from arbitrary bytes. *)
From Verif Require Import Base.Prelude Base.Bytes Align.Model Align.Proofs Ffs.Model Ffs.Spec Ffs.SectionProofs.
Local Open Scope N_scope.

Lemma content_from_inv : forall dbg size x n, content_from dbg size x = Ok n -> size < 2 ^ 33 -> x < 2 ^ 33 -> size = x + n /\ n < 2 ^ 32.
Proof.
  intros dbg size x n H S X. unfold content_from, usub, to_u32 in H. destruct (N.leb_spec x size) as [L|L]; cbn [bind] in H.
  - destruct (N.ltb_spec (size - x) two32) as [T|T]; [|discriminate]. injection H as <-. unfold two32 in T. lia.
  - destruct dbg; cbn [bind] in H; [discriminate|]. rewrite N.mod_small in H by (unfold two64; lia).
    destruct (N.ltb_spec (size + two64 - x) two32) as [T|T]; [|discriminate]. unfold two32, two64 in T. lia.
Qed.

Lemma finish_inv : forall b h o e s, finish_section b h o e = Ok s -> size_of h = e - o -> o <= e ->
  s = unread h (bytes_at b o (e - o)) /\ size_of h = blen (bytes_at b o (e - o)) /\ e <= blen b.
Proof.
  intros b h o e s H Hn Ho. unfold finish_section in H. destruct (slice b o e) as [d|x|] eqn:E; cbn [bind] in H; try discriminate.
  injection H as <-. apply slice_inv in E. destruct E as (E1 & E2 & ->). split; [reflexivity|]. split; [|exact E2].
  rewrite bytes_at_len; [exact Hn|lia].
Qed.

Lemma three_ff : forall b, bytes_ok b -> 4 <= blen b ->
  (forallb (N.eqb 0xff) (bytes_at b 0 3) = true <-> size_field b = 0xFFFFFF).
Proof.
  intros b B L. unfold size_field, bytes_at. cbn [N.to_nat skipn]. change (Pos.to_nat 3) with 3%nat.
  destruct b as [|x [|y [|z t]]]; try (unfold blen in L; cbn [length] in L; lia).
  inversion B as [|? ? X B1]; subst. inversion B1 as [|? ? Y B2]; subst. inversion B2 as [|? ? Z B3]; subst.
  cbn [firstn le_val forallb]. rewrite !andb_true_iff, !N.eqb_eq. split; [intros (<- & <- & <- & _); reflexivity|]. intros E.
  assert (x = 255 /\ y = 255 /\ z = 255) by lia. intuition.
Qed.

Lemma read_size_inv : forall b size off, bytes_ok b -> 4 <= blen b -> read_size b = Ok (size, off) ->
  sized b size off /\ size < 2 ^ 32 /\ (off = 4 /\ size < 2 ^ 24 /\ size <> 0xFFFFFF \/ off = 8) /\ off <= blen b.
Proof.
  intros b size off B L H. unfold read_size in H. pose proof (three_ff b B L) as T.
  destruct (forallb (N.eqb 255) (bytes_at b 0 3)) eqn:F.
  - destruct (N.ltb_spec (blen b) 8); [discriminate|]. injection H as <- <-. pose proof (proj1 T eq_refl) as E.
    split; [right; split; [exact E|split; [lia|split; reflexivity]]|]. split; [apply (rd_lt b 4 4 B)|]. split; [right; reflexivity|lia].
  - injection H as <- <-. assert (E : size_field b <> 0xFFFFFF) by (intros X; discriminate (proj2 T X)).
    assert (S : le_val (bytes_at b 0 3) < 2 ^ 24).
    { eapply N.lt_le_trans; [apply le_val_bound, bytes_at_ok, B|]. change (2 ^ 24) with (256 ^ 3). apply N.pow_le_mono_r; [lia|].
      unfold bytes_at. rewrite firstn_length. lia. }
    split; [left; split; [exact E|split; reflexivity]|]. split; [lia|]. split; [left; split; [reflexivity|split; [exact S|exact E]]|lia].
Qed.

Lemma type_byte : forall b, 4 <= blen b -> rd b 3 1 = nth 3 b 0.
Proof.
  intros b L. destruct b as [|x [|y [|z [|t u]]]]; try (unfold blen in L; cbn [length] in L; lia).
  change (x :: y :: z :: t :: u) with ([x; y; z] ++ t :: u) at 1. rewrite (rd_pre0 [x; y; z]) by reflexivity. apply rd_byte.
Qed.

Lemma bytes_at_split : forall l o m n k, k = m + n -> o + k <= blen l -> bytes_at l o k = bytes_at l o m ++ bytes_at l (o + m) n.
Proof.
  intros l o m n k -> H. unfold bytes_at at 1 3. rewrite (bytes_split l o m) by lia. rewrite firstn_app.
  pose proof (bytes_at_len l o m ltac:(lia)) as X. unfold blen in X.
  replace (N.to_nat (m + n) - length (bytes_at l o m))%nat with (N.to_nat n) by lia.
  f_equal. apply firstn_all2. lia.
Qed.

(** What a successful read says. *)
Lemma parse_typed_inv : forall dbg b ty size off s, bytes_ok b -> off <= blen b -> off < 2 ^ 10 -> size < 2 ^ 32 -> size <= blen b -> ty < 256 ->
  parse_typed dbg b ty size off = Ok s ->
  exists h c, s = unread h c /\ fields_ok off h /\ section_type_raw h = ty /\ size_of h = blen c /\
    bytes_at b 0 size = bytes_at b 0 off ++ header_data h ++ c /\ size = off + own_header_len h + blen c.
Proof.
  intros dbg b ty size off s B L O S SB T H. unfold parse_typed in H.
  assert (SP : forall o n, o + n <= size -> bytes_at b o (size - o) = bytes_at b o n ++ bytes_at b (o + n) (size - (o + n))).
  { intros o n E. apply bytes_at_split; lia. }
  assert (S0 : off <= size -> bytes_at b 0 size = bytes_at b 0 off ++ bytes_at b off (size - off)).
  { intros E. pose proof (SP 0 off E) as X. rewrite N.sub_0_r, N.add_0_l in X. exact X. }
  destruct (N.eqb_spec ty COMPRESSION) as [->|N1].
  { destruct (N.ltb_spec (blen b) (off + 5)); [discriminate|].
    destruct (content_from dbg size (off + 5)) as [n|e|] eqn:C; cbn [bind] in H; try discriminate.
    destruct (content_from_inv _ _ _ _ C ltac:(lia) ltac:(lia)) as (C1 & C2).
    apply finish_inv in H; [|cbn [size_of]; lia|lia]. destruct H as (-> & K1 & K2). eexists _, _. split; [reflexivity|].
    split. { cbn [fields_ok uncompressed_length compression_type]. split; [apply (rd_lt b off 4 B)|apply (rd_lt b (off + 4) 1 B)]. }
    split; [reflexivity|]. split; [exact K1|]. split; [|cbn [own_header_len]; cbn [size_of] in K1; lia].
    rewrite S0 by lia. f_equal. rewrite (SP off 5) by lia. cbn [header_data uncompressed_length compression_type]. f_equal.
    assert (E1 : [rd b (off + 4) 1] = bytes_at b (off + 4) 1).
    { pose proof (rd_le b (off + 4) 1 B ltac:(lia)) as Y. cbn [le_bytes] in Y. rewrite N.mod_small in Y by (apply (rd_lt b (off + 4) 1 B)). exact Y. }
    rewrite (rd_le b off 4 B), E1 by lia. change (N.of_nat 4) with 4. apply bytes_at_split; lia. }
  destruct (N.eqb_spec ty GUID_DEFINED) as [->|N2].
  { destruct (N.ltb_spec (blen b) (off + 20)); [discriminate|]. cbn [data_offset] in H.
    destruct (N.ltb_spec (blen b) (rd b (off + 16) 2)); [discriminate|].
    destruct (slice b (off + 20) (rd b (off + 16) 2)) as [items|e|] eqn:I; cbn [bind] in H; try discriminate.
    apply slice_inv in I. destruct I as (I1 & I2 & ->).
    pose proof (rd_lt b (off + 16) 2 B) as DB. change (256 ^ N.of_nat 2) with (2 ^ 16) in DB.
    destruct (content_from dbg size (rd b (off + 16) 2)) as [n|e|] eqn:C; cbn [bind] in H; try discriminate.
    destruct (content_from_inv _ _ _ _ C ltac:(lia) ltac:(lia)) as (C1 & C2).
    apply finish_inv in H; [|cbn [size_of]; lia|lia]. destruct H as (-> & K1 & K2). eexists _, _. split; [reflexivity|].
    pose proof (bytes_at_len b (off + 20) (rd b (off + 16) 2 - (off + 20)) ltac:(lia)) as IL.
    split.
    { cbn [fields_ok section_definition_guid data_offset gd_attributes]. split; [|split; [|split; [|split; [|split]]]].
      - pose proof (bytes_at_len b off 16 ltac:(lia)) as X. unfold blen in X. lia.
      - now apply bytes_at_ok.
      - now apply bytes_at_ok.
      - rewrite IL. lia.
      - exact DB.
      - apply (rd_lt b (off + 18) 2 B). }
    split; [reflexivity|]. split; [exact K1|]. split; [|cbn [own_header_len]; cbn [size_of] in K1; rewrite IL; lia].
    rewrite S0 by lia. f_equal. cbn [header_data section_definition_guid data_offset gd_attributes].
    rewrite (rd_le b (off + 16) 2 B), (rd_le b (off + 18) 2 B) by lia. change (N.of_nat 2) with 2.
    rewrite (SP off 16), (SP (off + 16) 2) by lia. replace (off + 16 + 2) with (off + 18) by lia. rewrite (SP (off + 18) 2) by lia.
    replace (off + 18 + 2) with (off + 20) by lia. rewrite (SP (off + 20) (rd b (off + 16) 2 - (off + 20))) by lia.
    replace (off + 20 + (rd b (off + 16) 2 - (off + 20))) with (rd b (off + 16) 2) by lia.
    rewrite <- !app_assoc. reflexivity. }
  destruct (N.eqb_spec ty VERSION) as [->|N3].
  { destruct (N.ltb_spec (blen b) (off + 2)); [discriminate|].
    destruct (content_from dbg size (off + 2)) as [n|e|] eqn:C; cbn [bind] in H; try discriminate.
    destruct (content_from_inv _ _ _ _ C ltac:(lia) ltac:(lia)) as (C1 & C2).
    apply finish_inv in H; [|cbn [size_of]; lia|lia]. destruct H as (-> & K1 & K2). eexists _, _. split; [reflexivity|].
    split; [apply (rd_lt b off 2 B)|]. split; [reflexivity|]. split; [exact K1|]. split; [|cbn [own_header_len]; cbn [size_of] in K1; lia].
    rewrite S0 by lia. f_equal. rewrite (SP off 2) by lia. cbn [header_data]. now rewrite (rd_le b off 2 B) by lia. }
  destruct (N.eqb_spec ty FREEFORM_SUBTYPE_GUID) as [->|N4].
  { destruct (N.ltb_spec (blen b) (off + 16)); [discriminate|].
    destruct (content_from dbg size (off + 16)) as [n|e|] eqn:C; cbn [bind] in H; try discriminate.
    destruct (content_from_inv _ _ _ _ C ltac:(lia) ltac:(lia)) as (C1 & C2).
    apply finish_inv in H; [|cbn [size_of]; lia|lia]. destruct H as (-> & K1 & K2). eexists _, _. split; [reflexivity|].
    split. { cbn [fields_ok]. split; [|now apply bytes_at_ok]. pose proof (bytes_at_len b off 16 ltac:(lia)) as X. unfold blen in X. lia. }
    split; [reflexivity|]. split; [exact K1|]. split; [|cbn [own_header_len]; cbn [size_of] in K1; lia].
    rewrite S0 by lia. f_equal. now rewrite (SP off 16) by lia. }
  destruct (content_from dbg size off) as [n|e|] eqn:C; cbn [bind] in H; try discriminate.
  destruct (content_from_inv _ _ _ _ C ltac:(lia) ltac:(lia)) as (C1 & C2).
  apply finish_inv in H; [|cbn [size_of]; lia|lia]. destruct H as (-> & K1 & K2). eexists _, _. split; [reflexivity|].
  split. { cbn [fields_ok]. split; [exact T|]. unfold special_types. cbn [In]. unfold COMPRESSION, GUID_DEFINED, VERSION, FREEFORM_SUBTYPE_GUID in *. intuition congruence. }
  split; [reflexivity|]. split; [exact K1|]. split; [|cbn [own_header_len]; cbn [size_of] in K1; lia].
  cbn [header_data app]. apply S0. lia.
Qed.

Lemma parse_inv : forall dbg b s, bytes_ok b -> new_from_buffer dbg b = Ok s ->
  exists h c size off, s = unread h c /\ 4 <= blen b /\ read_size b = Ok (size, off) /\ size <= blen b /\ fields_ok off h /\
    section_type_raw h = rd b 3 1 /\ size_of h = blen c /\ bytes_at b 0 size = bytes_at b 0 off ++ header_data h ++ c /\
    size = off + own_header_len h + blen c.
Proof.
  intros dbg b s B H. unfold new_from_buffer in H. destruct (N.ltb_spec (blen b) 4) as [L|L]; [discriminate|].
  destruct (read_size b) as [[size off]|e|] eqn:R; cbn [bind] in H; try discriminate.
  destruct (N.ltb_spec (blen b) size) as [L2|L2]; [discriminate|].
  destruct (read_size_inv b size off B L R) as (_ & S & O & OL).
  destruct (parse_typed_inv dbg b _ size off s B OL ltac:(lia) S L2 (rd_lt b 3 1 B) H) as (h & c & A1 & A2 & A3 & A4 & A5 & A6).
  exists h, c, size, off. auto 10.
Qed.

(** The common header of a section read with a canonical size. *)
Lemma read_back : forall dbg b s, bytes_ok b -> new_from_buffer dbg b = Ok s ->
  (size_field b <> 0xFFFFFF \/ 2 ^ 24 + 4 <= le_val (firstn 4 (skipn 4 b))) ->
  writable s /\ exists size, section_size dbg s = Ok size /\ size <= blen b /\ serialize_section dbg s = Ok (firstn (N.to_nat size) b).
Proof.
  intros dbg b s B H C. destruct (parse_inv dbg b s B H) as (h & c & size & off & -> & L & R & SB & F & T & SZ & E & SE).
  destruct (read_size_inv b size off B L R) as (SD & S & O & OL).
  assert (BC : bytes_ok c).
  { assert (X : bytes_ok (bytes_at b 0 size)) by now apply bytes_at_ok. rewrite E in X. apply bytes_ok_app in X. destruct X as (_ & X).
    now apply bytes_ok_app in X. }
  assert (SH : short_len h c = 4 + own_header_len h + blen c) by reflexivity.
  assert (CL : common_len h c = off /\ disk_len h c = size /\ short_len h c <> 0xFFFFFF).
  { unfold disk_len, common_len. destruct SD as [(D1 & D2 & ->)|(D1 & D2 & D3 & ->)].
    - destruct O as [(_ & O1 & O2)|O]; [|discriminate O]. rewrite (proj2 (N.ltb_lt _ _)) by lia. split; [reflexivity|lia].
    - destruct C as [C|C]; [contradiction|]. rewrite <- D3 in C. rewrite (proj2 (N.ltb_ge _ _)) by lia. split; [reflexivity|lia]. }
  destruct CL as (CL & DL & NF).
  assert (W : writable (unread h c)).
  { unfold writable. rewrite unread_header, unread_bytes, unread_clean, CL, DL. auto 8. }
  split; [exact W|]. exists size. rewrite (serialize_ok dbg _ W).
  pose proof (size_unread dbg _ W) as SU. rewrite (image_len _ W) in SU. rewrite unread_header, unread_bytes in SU. rewrite DL in SU.
  split; [exact SU|]. split; [exact SB|]. f_equal. unfold image. rewrite unread_header, unread_bytes.
  change (firstn (N.to_nat size) b) with (bytes_at b 0 size). rewrite E. f_equal.
  unfold common. rewrite DL. pose proof (type_byte b L) as TB. rewrite T.
  destruct SD as [(D1 & D2 & ->)|(D1 & D2 & D3 & ->)].
  - unfold common_len in CL. destruct (short_len h c <? 2 ^ 24); [|discriminate].
    replace (short_len h c) with size by lia. rewrite D2. unfold size_field.
    assert (X : length (firstn 3 b) = 3%nat) by (rewrite firstn_length; unfold blen in L; lia).
    rewrite <- X at 1. rewrite le_bytes_val by (apply (bytes_at_ok b 0 3 B)). rewrite TB.
    destruct b as [|x [|y [|z [|t u]]]]; try (unfold blen in L; cbn [length] in L; lia). reflexivity.
  - unfold common_len in CL. destruct (short_len h c <? 2 ^ 24); [discriminate|]. rewrite D3, TB.
    assert (X : length (firstn 4 (skipn 4 b)) = 4%nat) by (rewrite firstn_length, skipn_length; unfold blen in D2; lia).
    rewrite <- X at 1. rewrite le_bytes_val by (apply (bytes_at_ok b 4 4 B)).
    pose proof (three_ff b B L) as TF. pose proof (proj2 TF D1) as FF.
    destruct b as [|x [|y [|z [|t [|u0 [|u1 [|u2 [|u3 u]]]]]]]]; try (unfold blen in D2; cbn [length] in D2; lia).
    change (bytes_at (x :: y :: z :: t :: u0 :: u1 :: u2 :: u3 :: u) 0 3) with [x; y; z] in FF. cbn [forallb] in FF.
    rewrite !andb_true_iff, !N.eqb_eq in FF. destruct FF as (<- & <- & <- & _). reflexivity.
Qed.

(** ** No panic, and an end *)
Lemma content_from_total : forall size x, content_from false size x <> Panic.
Proof.
  intros size x. unfold content_from, usub, to_u32. destruct (x <=? size); cbn [bind]; destruct (_ <? two32); discriminate.
Qed.
Lemma finish_total : forall b h o e, o <= e -> e <= blen b -> finish_section b h o e <> Panic.
Proof.
  intros b h o e H1 H2. unfold finish_section, slice. rewrite (proj2 (N.leb_le _ _) H1), (proj2 (N.leb_le _ _) H2). discriminate.
Qed.
Lemma content_finish : forall b h size x, size < 2 ^ 33 -> x < 2 ^ 33 -> size <= blen b ->
  bind (content_from false size x) (fun n => finish_section b (h n) x size) <> Panic.
Proof.
  intros b h size x S X L. destruct (content_from false size x) as [n|e|] eqn:C; cbn [bind].
  - destruct (content_from_inv _ _ _ _ C S X) as (C1 & _). apply finish_total; lia.
  - discriminate.
  - exfalso. now apply (content_from_total size x).
Qed.

Lemma new_from_buffer_panic : forall b, bytes_ok b -> new_from_buffer false b = Panic -> overlapping_guid_header b.
Proof.
  intros b B H. unfold new_from_buffer in H. destruct (N.ltb_spec (blen b) 4) as [L|L]; [discriminate|].
  destruct (read_size b) as [[size off]|e|] eqn:R; cbn [bind] in H; try discriminate.
  2: { exfalso. unfold read_size in R. destruct (forallb _ _); [destruct (blen b <? 8)|]; discriminate. }
  destruct (N.ltb_spec (blen b) size) as [L2|L2]; [discriminate|].
  destruct (read_size_inv b size off B L R) as (SD & S & O & OL). unfold parse_typed in H.
  destruct (N.eqb_spec (rd b 3 1) COMPRESSION).
  { exfalso. destruct (blen b <? off + 5); [discriminate|]. revert H. apply (content_finish b (fun n => HCompression _ n)); lia. }
  destruct (N.eqb_spec (rd b 3 1) GUID_DEFINED) as [T|_].
  { destruct (N.ltb_spec (blen b) (off + 20)) as [L3|L3]; [discriminate|]. cbn [data_offset] in H.
    destruct (N.ltb_spec (blen b) (rd b (off + 16) 2)) as [L4|L4]; [discriminate|].
    pose proof (rd_lt b (off + 16) 2 B) as DB. change (256 ^ N.of_nat 2) with (2 ^ 16) in DB.
    destruct (slice b (off + 20) (rd b (off + 16) 2)) as [items|e|] eqn:I; cbn [bind] in H.
    - exfalso. revert H. apply (content_finish b (fun n => HGuidDefined _ items n)); lia.
    - unfold slice in I. destruct (_ && _); discriminate.
    - exists size, off. split; [exact SD|]. split; [exact L2|]. rewrite <- (type_byte b L). split; [exact T|]. split; [exact L3|].
      unfold slice in I. rewrite (proj2 (N.leb_le _ _) L4) in I. rewrite andb_true_r in I.
      destruct (N.leb_spec (off + 20) (rd b (off + 16) 2)); [discriminate|]. exact H0. }
  exfalso. destruct (rd b 3 1 =? VERSION).
  { destruct (blen b <? off + 2); [discriminate|]. revert H. apply (content_finish b (fun n => HVersion _ n)); lia. }
  destruct (rd b 3 1 =? FREEFORM_SUBTYPE_GUID).
  { destruct (blen b <? off + 16); [discriminate|]. revert H. apply (content_finish b (fun n => HFreeform _ n)); lia. }
  revert H. apply (content_finish b (fun n => HStandard _ n)); lia.
Qed.

Lemma overlapping_panics : forall dbg b, bytes_ok b -> 4 <= blen b -> overlapping_guid_header b ->
  new_from_buffer dbg b = Panic \/ exists e, new_from_buffer dbg b = Err e.
Proof.
  intros dbg b B L (size & off & SD & SB & T & L3 & D).
  destruct (new_from_buffer dbg b) as [s|e|] eqn:E; [exfalso|right; eauto|left; reflexivity].
  unfold new_from_buffer in E. rewrite (proj2 (N.ltb_ge _ _) L) in E.
  assert (R : read_size b = Ok (size, off)).
  { unfold read_size. pose proof (three_ff b B L) as TF. destruct SD as [(S1 & S2 & ->)|(S1 & S2 & S3 & ->)].
    - destruct (forallb (N.eqb 255) (bytes_at b 0 3)) eqn:F; [exfalso; apply S1, TF; reflexivity|]. rewrite S2. reflexivity.
    - rewrite (proj2 TF S1). rewrite (proj2 (N.ltb_ge _ _) S2). rewrite S3. reflexivity. }
  rewrite R in E. cbn [bind] in E. rewrite (proj2 (N.ltb_ge _ _) SB) in E. unfold parse_typed in E.
  rewrite (type_byte b L), T in E. change (2 =? COMPRESSION) with false in E. change (2 =? GUID_DEFINED) with true in E. cbv iota in E.
  rewrite (proj2 (N.ltb_ge _ _) L3) in E. cbn [data_offset] in E.
  destruct (blen b <? rd b (off + 16) 2); [discriminate|]. unfold slice in E.
  change (rd b (off + 16) 2) with (le_val (firstn 2 (skipn (N.to_nat (off + 16)) b))) in E. rewrite (proj2 (N.leb_gt _ _) D) in E. discriminate.
Qed.

Lemma parsed_size : forall dbg b s, bytes_ok b -> new_from_buffer dbg b = Ok s -> exists z, section_size dbg s = Ok z /\ 4 <= z < 2 ^ 33.
Proof.
  intros dbg b s B H. destruct (parse_inv dbg b s B H) as (h & c & size & off & -> & L & R & SB & F & T & SZ & E & SE).
  destruct (read_size_inv b size off B L R) as (SD & S & O & OL). unfold section_size. rewrite unread_clean, unread_header.
  unfold total_section_size, serialize_header. pose proof (own_header_data _ _ F) as OD. rewrite OD, <- size_content, SZ.
  destruct h; [destruct F|..]; (destruct (_ <? MAX_STANDARD_SECTION_SIZE); [cbn [bind]; eexists; split; [reflexivity|]; bl; rewrite ?OD; lia|]);
    (rewrite (N.mod_small (4 + _ + blen c) two32) by (unfold two32; lia));
    (rewrite (proj2 (N.leb_gt two32 _)) by (unfold two32; lia)); rewrite andb_false_r; cbn [bind]; eexists; (split; [reflexivity|]); bl; rewrite ?OD; lia.
Qed.

Lemma collect_more : forall A (next : N -> step A) f f' o r, (f <= f')%nat -> collect next f o = Some r -> collect next f' o = Some r.
Proof.
  intros A next f. induction f as [|f IH]; intros f' o r L H; [discriminate|]. destruct f' as [|f']; [lia|].
  cbn [collect] in *. destruct (next o) as [|[a|e|] [o'|]|]; try exact H.
  destruct (collect next f o') as [[l|e|]|] eqn:E; try discriminate; rewrite (IH f' o' _ ltac:(lia) E); exact H.
Qed.

Lemma bytes_ok_skipn : forall n l, bytes_ok l -> bytes_ok (skipn n l).
Proof. intros n l H. unfold bytes_ok in *. rewrite <- (firstn_skipn n l) in H. apply Forall_app in H. apply H. Qed.

(** Every list of sections ends, with a list of pieces, an error, or at a
    GUID-defined section that overlaps its header. *)
Definition from_bytes (data : list N) (s : section) : Prop := piece (s_bytes s) data.
Lemma piece_skipn : forall p n l, piece p (skipn n l) -> piece p l.
Proof. intros p n l (x & y & E). exists (firstn n l ++ x), y. rewrite <- app_assoc, <- E. symmetry. apply firstn_skipn. Qed.

Lemma collect_sections_total : forall data, bytes_ok data -> blen data < 2 ^ 63 -> forall fuel o, blen data - o < N.of_nat fuel ->
  exists r, collect (section_next false data) fuel o = Some r /\
    match r with
    | Ok l => Forall (from_bytes data) l
    | Err _ => True
    | Panic => exists k, overlapping_guid_header (skipn k data)
    end.
Proof.
  intros data B LD. induction fuel as [|fuel IH]; intros o F; [lia|]. cbn [collect]. unfold section_next at 1.
  destruct (N.leb_spec (blen data) o) as [L|L]; [eexists; split; [reflexivity|constructor]|].
  pose proof (bytes_ok_skipn (N.to_nat o) data B) as BS.
  destruct (new_from_buffer false (skipn (N.to_nat o) data)) as [s|e|] eqn:P.
  - destruct (parsed_size false _ _ BS P) as (z & Z1 & Z2). rewrite Z1.
    change 4 with (2 ^ 2). rewrite align_up_pad by (unfold two64; lia). change (2 ^ 2) with 4.
    destruct (IH (o + (z + pad_of 4 z)) ltac:(lia)) as (r & R1 & R2). rewrite R1.
    destruct r as [l|e|]; eexists; (split; [reflexivity|]); try exact R2. constructor; [|exact R2].
    destruct (parse_inv _ _ _ BS P) as (h & c & size & off & -> & _ & _ & SB & _ & _ & _ & E & _). unfold from_bytes. rewrite unread_bytes.
    apply (piece_skipn _ (N.to_nat o)). exists (bytes_at (skipn (N.to_nat o) data) 0 off ++ header_data h), (skipn (N.to_nat size) (skipn (N.to_nat o) data)).
    pose proof (bytes_split (skipn (N.to_nat o) data) 0 size ltac:(lia)) as X. cbn [N.to_nat skipn] in X. rewrite N.add_0_l in X.
    rewrite X at 1. rewrite E. rewrite <- !app_assoc. reflexivity.
  - eexists. split; [reflexivity|exact I].
  - eexists. split; [reflexivity|]. exists (N.to_nat o). now apply new_from_buffer_panic.
Qed.
