(** C31-C34: the firmware file system. *)
From Verif Require Import Base.Prelude Base.Bytes Align.Model Align.Proofs Ffs.Model Ffs.Spec Ffs.SectionProofs Ffs.SectionRead Ffs.FileProofs
  Ffs.VolumeProofs Ffs.VolumeMain Ffs.Safety.
Local Open Scope N_scope.

Ltac parts := repeat match goal with |- _ /\ _ => split end.

(** ** C31: sections *)

(** A section that can be written is read back the same, whatever follows it,
    and is as long as it says. *)
Theorem C31_round_trip : forall dbg s, writable s ->
  exists b, serialize_section dbg s = Ok b /\ blen b = disk_len (s_header s) (s_bytes s) /\
    forall rest, exists s', new_from_buffer dbg (b ++ rest) = Ok s' /\ same_section s' s /\ section_size dbg s' = Ok (blen b).
Proof.
  intros dbg s W. exists (image s). split; [now apply serialize_ok|]. split; [now apply image_len|]. intros rest. eexists. split; [now apply parse_image|].
  split; [split; [apply unread_header|apply unread_bytes]|]. now apply size_unread.
Qed.

(** Bytes that are read as a section are written back as they were, provided
    the size is in the short field or is too big for it. *)
Theorem C31_read_then_write : forall dbg b s, bytes_ok b -> new_from_buffer dbg b = Ok s ->
  (size_field b <> 0xFFFFFF \/ 2 ^ 24 + 4 <= le_val (firstn 4 (skipn 4 b))) ->
  writable s /\ exists size, section_size dbg s = Ok size /\ size <= blen b /\ serialize_section dbg s = Ok (firstn (N.to_nat size) b).
Proof. exact read_back. Qed.

(** A section built from a header and content is that section. *)
Theorem C31_new_from_header : forall dbg h c, writable (unread h c) -> new_from_header_with_data dbg h c = Ok (unread h c).
Proof.
  intros dbg h c W. unfold new_from_header_with_data. pose proof (serialize_ok dbg _ W) as S. pose proof (parse_image dbg _ [] W) as P. rewrite app_nil_r in P.
  rewrite unread_header, unread_bytes in P. unfold serialize_section in S. rewrite unread_clean, unread_header, unread_bytes in S.
  destruct W as (_ & _ & _ & F & _). rewrite unread_header in F. destruct h; [destruct F|..];
    (match type of S with bind ?e _ = _ => destruct e as [b|e0|]; cbn [bind] in S |- *; try discriminate end; injection S as S; rewrite S; exact P).
Qed.

(** A section that was changed and not composed is not written, measured or
    handed out. *)
Theorem C31_dirty_is_refused : forall dbg s, dirty s = true ->
  serialize_section dbg s = Err FNotComposed /\ section_size dbg s = Err FNotComposed /\ try_content s = Err FNotComposed.
Proof. intros dbg s D. unfold serialize_section, section_size, try_content. rewrite D. auto. Qed.

(** New content for a leaf: refused until composed, then written and read
    back as set. *)
Theorem C31_set_data : forall h old d data, fields_ok (common_len h data) h -> bytes_ok data -> disk_len h data < 2 ^ 32 -> short_len h data <> 0xFFFFFF ->
  exists s1, set_section_data (Section h (Leaf old) d) data = Ok s1 /\ dirty s1 = true /\
    forall composer, exists s2, compose composer s1 = Ok s2 /\ writable s2 /\ s_bytes s2 = data /\ s_header s2 = with_content_size h (blen data).
Proof.
  intros h old d data F B L N.
  assert (DL : blen data < two32) by (unfold disk_len, two32 in *; lia).
  unfold set_section_data, to_u32. rewrite (proj2 (N.ltb_lt _ _) DL). cbn [bind]. eexists. split; [reflexivity|]. split; [reflexivity|].
  intros composer. cbn [compose]. unfold to_u32. rewrite (proj2 (N.ltb_lt _ _) DL). cbn [bind]. eexists. split; [reflexivity|].
  split; [|split; [reflexivity|destruct h; reflexivity]].
  unfold writable. cbn [s_header s_bytes dirty].
  assert (WC : forall m, with_content_size (with_content_size h m) m = with_content_size h m) by (intros; destruct h; reflexivity). rewrite WC.
  assert (E1 : own_header_len (with_content_size h (blen data)) = own_header_len h) by (destruct h; reflexivity).
  assert (E2 : short_len (with_content_size h (blen data)) data = short_len h data) by (unfold short_len; now rewrite E1).
  assert (E3 : common_len (with_content_size h (blen data)) data = common_len h data) by (unfold common_len; now rewrite E2).
  assert (E4 : disk_len (with_content_size h (blen data)) data = disk_len h data) by (unfold disk_len; now rewrite E1, E3).
  rewrite E2, E3, E4. split; [reflexivity|]. split; [destruct h; reflexivity|]. split; [exact B|]. split; [|auto]. destruct h; exact F.
Qed.

(** Composing leaves nothing dirty, at any depth, whatever the composer. *)
Theorem C31_composed_is_clean : forall composer s s', compose composer s = Ok s' -> dirty s' = false /\ size_of (s_header s') = blen (s_bytes s').
Proof.
  intros composer. fix IH 1. intros [h [b|subs b x] d] s' H; cbn [compose] in H.
  - unfold to_u32 in H. destruct (blen b <? two32); cbn [bind] in H; [|discriminate]. injection H as <-. split; [reflexivity|]. destruct h; reflexivity.
  - match type of H with bind ?e _ = _ => destruct e as [subs'|e0|] eqn:G; cbn [bind] in H; try discriminate end.
    assert (C : existsb dirty subs' = false).
    { clear H. revert subs' G. induction subs as [|s subs IHs]; intros subs' G.
      - injection G as <-. reflexivity.
      - destruct (compose composer s) as [s1|e|] eqn:CS; cbn [bind] in G; try discriminate. pose proof (IH s s1 CS) as (D1 & _).
        match type of G with bind ?e _ = _ => destruct e as [r|e0|] eqn:GR; cbn [bind] in G; try discriminate end.
        injection G as <-. cbn [existsb]. rewrite D1. cbn [orb]. apply IHs. reflexivity. }
    destruct (composer _) as [[h' content]|e|]; cbn [bind] in H; try discriminate.
    unfold to_u32 in H. destruct (blen content <? two32); cbn [bind] in H; [|discriminate]. injection H as <-. split.
    + cbn [dirty]. destruct x; [exact C|reflexivity].
    + destruct h'; reflexivity.
Qed.

(** Extracting keeps the section and fills in the sections found in what the
    extractor gave, in order; nothing becomes dirty. *)
Lemma parsed_clean : forall dbg b s, new_from_buffer dbg b = Ok s -> dirty s = false.
Proof.
  assert (F : forall b h o n s, finish_section b h o n = Ok s -> dirty s = false).
  { intros b h o n s H. unfold finish_section in H. destruct (slice b o n); cbn [bind] in H; try discriminate. injection H as <-. destruct h; reflexivity. }
  intros dbg b s H. unfold new_from_buffer in H. destruct (blen b <? 4); [discriminate|]. destruct (read_size b) as [[size off]|e|]; cbn [bind] in H; try discriminate.
  destruct (blen b <? size); [discriminate|]. unfold parse_typed in H.
  repeat match type of H with
         | (if ?c then _ else _) = Ok _ => destruct c; try discriminate
         | bind ?e _ = Ok _ => destruct e; cbn [bind] in H; try discriminate
         end; now apply F in H.
Qed.
Lemma collected_clean : forall dbg data fuel o l, collect (section_next dbg data) fuel o = Some (Ok l) -> Forall (fun s => dirty s = false) l.
Proof.
  intros dbg data fuel. induction fuel as [|fuel IH]; intros o l H; [discriminate|]. cbn [collect] in H.
  destruct (section_next dbg data o) as [|[s|e|] [o'|]|] eqn:SN; try discriminate.
  - injection H as <-. constructor.
  - destruct (collect _ fuel o') as [[r|e|]|] eqn:C; try discriminate. injection H as <-. constructor; [|now apply IH in C].
    unfold section_next in SN. destruct (blen data <=? o); [discriminate|]. destruct (new_from_buffer dbg _) as [s0|e|] eqn:P; try discriminate.
    destruct (section_size dbg s0); try discriminate. destruct (align_up 64 _ 4); try discriminate. injection SN as <- _. now apply parsed_clean in P.
  - unfold section_next in SN. destruct (blen data <=? o); [discriminate|]. destruct (new_from_buffer dbg _) as [s0|e|] eqn:P; try discriminate.
    destruct (section_size dbg s0); try discriminate. destruct (align_up 64 _ 4); discriminate.
Qed.
Theorem C31_extract : forall dbg extractor fuel s s', extract dbg extractor fuel s = Some (Ok s') ->
  same_section s' s /\ (dirty s = false -> dirty s' = false) /\
  forall h b d, s = Section h (Encapsulation [] b false) d ->
    exists bytes l, (extractor s = Ok bytes \/ (extractor s = Err FUnsupported /\ bytes = [])) /\ sections_of dbg (pred fuel) bytes = Some (Ok l) /\
      Forall2 same_section (s_subs s') l.
Proof.
  intros dbg extractor. induction fuel as [|fuel IH]; intros s s' H; [discriminate|]. cbn [extract] in H.
  destruct s as [h [b|subs b x] d]; [injection H as <-; split; [split; reflexivity|]; split; [auto|]; intros h' b' d' Q; discriminate|].
  destruct x; [injection H as <-; split; [split; reflexivity|]; split; [auto|]; intros h' b' d' Q; discriminate|].
  set (s := Section h (Encapsulation subs b false) d) in *.
  assert (EX : exists bytes, (extractor s = Ok bytes \/ (extractor s = Err FUnsupported /\ bytes = [])) /\
     match extractor s with Err FUnsupported => Ok [] | r => r end = Ok bytes).
  { destruct (extractor s) as [y|e|]; [exists y; auto| |discriminate]. destruct e; try discriminate. exists []. auto. }
  destruct EX as (bytes & E1 & E2). rewrite E2 in H.
  destruct (sections_of dbg fuel bytes) as [[l|e|]|] eqn:SO; try discriminate.
  match type of H with match ?e with _ => _ end = _ => destruct e as [[l'|e0|]|] eqn:G; try discriminate end. injection H as <-.
  pose proof (collected_clean _ _ _ _ _ SO) as CL.
  assert (P : Forall2 same_section l' l /\ existsb dirty l' = false).
  { clear - IH G CL. revert l' G. induction CL as [|y l D CL IHl]; intros l' G.
    - injection G as <-. split; [constructor|reflexivity].
    - destruct (extract dbg extractor fuel y) as [[y'|e|]|] eqn:EY; try discriminate.
      match type of G with match ?e with _ => _ end = _ => destruct e as [[r|e0|]|] eqn:GR; try discriminate end. injection G as <-.
      destruct (IH _ _ EY) as (S1 & S2 & _). destruct (IHl r eq_refl) as (S3 & S4). split; [constructor; assumption|]. cbn [existsb]. rewrite (S2 D). exact S4. }
  destruct P as (P1 & P2). split; [split; reflexivity|]. split.
  - cbn [dirty]. intros D. unfold s in D. cbn [dirty] in D. rewrite D. exact P2.
  - intros h' b' d' Q. exists bytes, l. cbn [pred]. split; [exact E1|]. split; [exact SO|exact P1].
Qed.

(** Sections written one after the other are read back in order. *)
Theorem C31_stream : forall dbg l, Forall writable l ->
  exists b, file_content dbg [] l = Ok b /\ blen b = body_len 0 l /\
    forall fuel, (length l < fuel)%nat -> exists l', sections_of dbg fuel b = Some (Ok l') /\ Forall2 same_section l' l.
Proof.
  intros dbg l F. exists (joined l). split; [apply (file_content_ok dbg l [] eq_refl F)|]. split; [apply (joined_len l 0 eq_refl F)|].
  intros fuel L. eexists. split; [now apply sections_of_joined|]. clear. induction l as [|s l IH]; constructor; [|exact IH].
  split; [apply unread_header|apply unread_bytes].
Qed.

(** The one length that is written but cannot be read: 0xFFFFFF in the short
    size field means "see the extended header". *)
Lemma limit_section : forall m, N.of_nat m = 0xFFFFFB ->
  exists s, (dirty s = false /\ size_of (s_header s) = blen (s_bytes s) /\ bytes_ok (s_bytes s) /\ fields_ok 4 (s_header s) /\ disk_len (s_header s) (s_bytes s) < 2 ^ 32) /\
  exists b, serialize_section false s = Ok b /\ forall dbg s', new_from_buffer dbg b <> Ok s'.
Proof.
  intros m M. set (s := Section (HStandard 0x19 0xFFFFFB) (Leaf (repeat 0 m)) false). exists s.
  assert (BL : blen (repeat 0 m) = 0xFFFFFB) by (unfold blen; rewrite repeat_length; exact M).
  assert (BO : bytes_ok (repeat 0 m)) by (apply Forall_forall; intros x I; apply repeat_spec in I; subst; reflexivity).
  split.
  - split; [reflexivity|]. split; [symmetry; exact BL|]. split; [exact BO|]. split.
    + split; [reflexivity|]. intros I. cbn in I. intuition discriminate.
    + unfold s. cbn [s_header s_bytes]. unfold disk_len, common_len, short_len. cbn [own_header_len]. rewrite BL. reflexivity.
  - eexists. split; [unfold s, serialize_section; cbn [dirty s_header s_bytes]; reflexivity|].
    change (blen (header_data (HStandard 25 16777211))) with 0. cbn [content_size bind].
    intros dbg s' H.
    match type of H with new_from_buffer _ ?x = _ => assert (E : x = [255; 255; 255; 25] ++ repeat 0 m) by reflexivity; rewrite E in H; clear E end.
    assert (B : bytes_ok ([255; 255; 255; 25] ++ repeat 0 m)) by (apply bytes_ok_app; split; [repeat constructor|exact BO]).
    destruct (parse_inv dbg _ s' B H) as (h & c & size & off & _ & _ & R & _ & _ & _ & _ & _ & SE).
    destruct m as [|[|[|[|m]]]]; try (cbn in M; lia).
    unfold read_size in R. cbn [repeat app] in R.
    change (bytes_at (255 :: 255 :: 255 :: 25 :: 0 :: 0 :: 0 :: 0 :: repeat 0 m) 0 3) with [255; 255; 255] in R.
    change (forallb (N.eqb 255) [255; 255; 255]) with true in R. cbv iota in R.
    destruct (_ <? 8) in R; [discriminate|].
    change (rd (255 :: 255 :: 255 :: 25 :: 0 :: 0 :: 0 :: 0 :: repeat 0 m) 4 4) with 0 in R. injection R as <- <-. lia.
Qed.
Theorem C31_length_0xFFFFFF_refuted : exists s,
  (dirty s = false /\ size_of (s_header s) = blen (s_bytes s) /\ bytes_ok (s_bytes s) /\ fields_ok 4 (s_header s) /\ disk_len (s_header s) (s_bytes s) < 2 ^ 32) /\
  exists b, serialize_section false s = Ok b /\ forall dbg s', new_from_buffer dbg b <> Ok s'.
Proof. exact (limit_section (N.to_nat 0xFFFFFB) (N2Nat.id 0xFFFFFB)). Qed.

(** A section whose small size is in the extended field is read with one
    length and written with another, and the reader goes on inside it. *)
Definition extended_small : list N := [0xff; 0xff; 0xff; 0x19; 0x0c; 0; 0; 0; 1; 2; 3; 4].
Theorem C31_extended_small_refuted :
  exists s, new_from_buffer true extended_small = Ok s /\ s_bytes s = [1; 2; 3; 4] /\ section_size true s = Ok 8 /\
    serialize_section true s = Ok [8; 0; 0; 0x19; 1; 2; 3; 4] /\ sections_of true 9 extended_small = Some (Err FInvalidHeader).
Proof. eexists. parts. { vm_compute; reflexivity. } { vm_compute; reflexivity. } { vm_compute; reflexivity. } { vm_compute; reflexivity. } { vm_compute; reflexivity. }Qed.

(** ** C32: files *)

(** Every file of writable sections is written, at its length. *)
Theorem C32_serializes : forall dbg f, file_ok f -> exists b, serialize_file dbg f = Ok b /\ blen b = file_len f.
Proof.
  intros dbg f FO. eexists. split; [now apply serialize_file_ok|]. pose proof FO as (NL & _). rewrite blen_app, (header_of_len f _ NL). now apply file_len_ok.
Qed.

(** A written file without data checksum is read back: name, type,
    attributes, polarity, length and sections. *)
Theorem C32_round_trip : forall dbg f b, file_ok f -> bit (f_attr f) 6 = false -> serialize_file dbg f = Ok b -> blen b < 2 ^ 63 ->
  forall rest, exists r, file_ref_new (b ++ rest) = Ok r /\ fr_data r = b /\ fr_size r = blen b /\ reads_as r f /\
    forall fuel, (length (f_sections f) < fuel)%nat ->
      exists l, fr_sections dbg fuel r = Some (Ok l) /\ Forall2 same_section l (f_sections f) /\
        file_of_ref dbg fuel r = Some (Ok (File (f_name f) (f_type f) (fh_attr (fr_header r)) (f_polarity f) l)).
Proof.
  intros dbg f b FO C6 S L rest. pose proof FO as (NL & _ & _ & AT & W). rewrite (serialize_file_ok dbg f FO) in S. injection S as <-.
  set (c := joined (f_sections f)) in *. pose proof (header_of_len f c NL) as HL.
  assert (BL : blen (header_of f c ++ c) = hlen f c + blen c) by (rewrite blen_app, HL; reflexivity).
  pose proof (file_read_back f c rest NL ltac:(lia) (or_introl (checksum_clear _ AT C6))) as R. rewrite <- app_assoc. eexists. split; [exact R|].
  cbn [fr_data fr_size fr_header]. split; [reflexivity|]. split; [symmetry; exact BL|]. pose proof (head_of_fields f c) as (H1 & H2 & H3). split.
  - unfold reads_as. cbn [fr_header fr_polarity fr_size]. auto.
  - intros fuel FU. pose proof (sections_read_back dbg f fuel (f_sections f) c (head_of f c) (f_polarity f) (hlen f c + blen c) (hlen f c) eq_refl HL W FU) as SR.
    eexists. split; [exact SR|]. split.
    + clear. induction (f_sections f) as [|s l IH]; constructor; [|exact IH]. split; [apply unread_header|apply unread_bytes].
    + unfold file_of_ref. rewrite SR. cbn [fr_header fr_polarity]. rewrite H1, H2. reflexivity.
Qed.

(** The header of a written file: its bytes, without the state and the file
    check, sum to zero; the check of a file without data checksum is 0xAA. *)
Theorem C32_header_checksum : forall dbg f b, file_ok f -> serialize_file dbg f = Ok b -> blen b < 2 ^ 63 -> bit (f_attr f) 6 = false ->
  byte_sum (firstn (N.to_nat (header_size b)) b) = (nth 17 b 0 + nth 23 b 0) mod 256 /\ nth 17 b 0 = 0xAA /\ stored_size b = blen b.
Proof.
  intros dbg f b FO S L C6. destruct (C32_round_trip dbg f b FO C6 S L []) as (r & R & _ & SZ & _). rewrite app_nil_r in R.
  destruct (file_sizes b r R) as (S1 & S2). destruct (file_ref_inv b r R) as (L24 & HD & _ & _ & C & _ & SUM & CHK).
  assert (R17 : rd b 17 1 = nth 17 b 0) by (apply (rd_nth b 17); unfold blen in *; lia).
  assert (R23 : rd b 23 1 = nth 23 b 0) by (apply (rd_nth b 23); unfold blen in *; lia).
  rewrite S2, R17, R23 in SUM. rewrite R17 in CHK. split; [|split; [|congruence]].
  - unfold bytes_at in SUM. cbn [N.to_nat skipn] in SUM.
    assert (B17 : nth 17 b 0 < 256). { destruct CHK as [(_ & ->)|X]; [reflexivity|]. destruct X as (X & _).
      exfalso. apply X. assert (R19 : rd b 19 1 = fh_attr (fr_header r)) by (rewrite HD; reflexivity). rewrite R19.
      pose proof FO as (NL & _ & _ & AT & _). rewrite (serialize_file_ok dbg f FO) in S. injection S as <-.
      pose proof (file_read_back f (joined (f_sections f)) [] NL) as Q. rewrite app_nil_r in Q. rewrite blen_app in L.
      rewrite Q in R; [|lia|left; now apply checksum_clear]. injection R as <-. cbn [fr_header].
      pose proof (head_of_fields f (joined (f_sections f))) as (_ & _ & [->|(-> & _)]); [now apply checksum_clear|]. rewrite checksum_bit. now apply checksum_clear. }
    assert (B23 : nth 23 b 0 < 256).
    { pose proof FO as (NL & _ & _ & AT & _). rewrite (serialize_file_ok dbg f FO) in S. injection S as <-.
      pose proof (file_read_back f (joined (f_sections f)) [] NL) as Q. rewrite app_nil_r in Q. rewrite blen_app in L.
      rewrite Q in R; [|lia|left; now apply checksum_clear]. injection R as <-. cbn [fr_header] in HD.
      rewrite <- R23. change (rd _ 23 1) with (fh_state (read_fheader (header_of f (joined (f_sections f)) ++ joined (f_sections f)))). rewrite <- HD.
      unfold head_of. destruct (large _ _); cbn [fh_state]; destruct (f_polarity f); reflexivity. }
    set (x := byte_sum _) in *. assert (X : x < 256) by (apply N.mod_lt; lia). clearbody x. unfold sub8 in SUM. clear - SUM X B17 B23.
    set (p := nth 17 b 0) in *. set (q := nth 23 b 0) in *. clearbody p q.
    pose proof (N.div_mod (x + 256 - q) 256 ltac:(lia)) as D1. pose proof (N.mod_lt (x + 256 - q) 256 ltac:(lia)) as M1.
    set (y := (x + 256 - q) mod 256) in *. clearbody y.
    pose proof (N.div_mod (y + 256 - p) 256 ltac:(lia)) as D2. rewrite SUM in D2. rewrite (N.add_comm p q).
    symmetry. assert (y = p) by lia. subst y. destruct (N.lt_ge_cases (q + p) 256).
    + rewrite N.mod_small by lia. lia.
    + replace (q + p) with (x + 1 * 256) by lia. rewrite N.mod_add by lia. apply N.mod_small. lia.
  - destruct CHK as [(_ & X)|(X & _)]; [exact X|]. exfalso. apply X.
    assert (R19 : rd b 19 1 = fh_attr (fr_header r)) by (rewrite HD; reflexivity). rewrite R19.
    pose proof FO as (NL & _ & _ & AT & _). rewrite (serialize_file_ok dbg f FO) in S. injection S as <-.
    pose proof (file_read_back f (joined (f_sections f)) [] NL) as Q. rewrite app_nil_r in Q. rewrite blen_app in L.
    rewrite Q in R; [|lia|left; now apply checksum_clear]. injection R as <-. cbn [fr_header].
    pose proof (head_of_fields f (joined (f_sections f))) as (_ & _ & [->|(-> & _)]); [now apply checksum_clear|]. rewrite checksum_bit. now apply checksum_clear.
Qed.

(** One changed byte in the header of an accepted file is noticed, except in
    the state byte, in the file check of a file with data checksum, and where
    it turns the large-file bit. *)
Theorem C32_header_damage_is_noticed : forall b r i v, bytes_ok b -> file_ref_new b = Ok r -> N.of_nat i < header_size b -> v < 256 -> v <> nth i b 0 ->
  i <> 23%nat -> (i = 17%nat -> bit (nth 19 b 0) 6 = false) -> (i = 19%nat -> bit v 0 = bit (nth 19 b 0) 0) ->
  exists e, file_ref_new (set_byte b i v) = Err e.
Proof. exact header_damage. Qed.

(** One changed byte in the content of a file with data checksum is noticed. *)
Theorem C32_content_damage_is_noticed : forall b r i v, bytes_ok b -> file_ref_new b = Ok r -> bit (nth 19 b 0) 6 = true ->
  header_size b <= N.of_nat i -> N.of_nat i < stored_size b -> v < 256 -> v <> nth i b 0 ->
  exists e, file_ref_new (set_byte b i v) = Err e.
Proof. exact content_damage. Qed.

Definition raw (l : list N) : section := Section (HStandard 0x19 (blen l)) (Leaf l) false.
Definition checked_file : file := File (repeat 7 16) 2 0x40 true [raw [1; 2; 3]].
Definition bytes_of (r : res ferr (list N)) : list N := match r with Ok b => b | _ => [] end.

Lemma raw_writable : forall l, blen l < 2 ^ 20 -> bytes_ok l -> writable (raw l).
Proof.
  intros l L B. unfold writable, raw. cbn [s_header s_bytes dirty]. unfold disk_len, common_len, short_len. cbn [own_header_len].
  rewrite (proj2 (N.ltb_lt _ _)) by lia. split; [reflexivity|]. split; [reflexivity|]. split; [exact B|]. split; [|lia].
  split; [reflexivity|]. intros I. cbn in I. intuition discriminate.
Qed.

(** A file with data checksum is written with a check that makes the sum of
    check and content zero, but the reader wants the sum of the content alone
    to be zero: a file that was just written is refused. *)
Theorem C32_data_checksum_refuted : file_ok checked_file /\ exists b, serialize_file false checked_file = Ok b /\
  byte_sum (nth 17 b 0 :: skipn 24 b) = 0 /\ file_ref_new b = Err FDataCorrupt.
Proof.
  split.
  - split; [reflexivity|]. split; [apply Forall_forall; intros x I; apply repeat_spec in I; subst; reflexivity|].
    split; [reflexivity|]. split; [reflexivity|]. constructor; [|constructor]. apply raw_writable; [reflexivity|]. repeat constructor.
  - eexists. parts. { vm_compute; reflexivity. } { vm_compute; reflexivity. } { vm_compute; reflexivity. } 
Qed.

(** The large-file bit: one changed bit, and the same bytes are a file of a
    different length with a different header. *)
Definition double_file : list N := bytes_of (serialize_file false (File (repeat 7 16) 2 0 true [raw (repeat 0 300)])).
Definition patched : list N := firstn 24 double_file ++ [255; 0; 0; 0; 0; 0; 0; 0] ++ skipn 32 double_file.
Theorem C32_large_bit_damage_refuted : exists r r', file_ref_new patched = Ok r /\ file_ref_new (set_byte patched 19 1) = Ok r' /\ fr_size r = 328 /\ fr_size r' = 255.
Proof. eexists. eexists. parts. { vm_compute; reflexivity. } { vm_compute; reflexivity. } { vm_compute; reflexivity. } { vm_compute; reflexivity. }Qed.

(** The state byte and, with data checksum, the file check can change
    unnoticed. *)
Theorem C32_state_damage_refuted : exists r r', file_ref_new double_file = Ok r /\ file_ref_new (set_byte double_file 23 0xFB) = Ok r'.
Proof. eexists. eexists. parts. { vm_compute; reflexivity. } { vm_compute; reflexivity. }Qed.
Definition balanced_file : list N := bytes_of (serialize_file false (File (repeat 7 16) 2 0x40 true [raw [256 - 8 - 25; 0; 0; 0]])).
Theorem C32_file_check_damage_refuted : exists r r', file_ref_new balanced_file = Ok r /\ file_ref_new (set_byte balanced_file 17 0x55) = Ok r'.
Proof. eexists. eexists. parts. { vm_compute; reflexivity. } { vm_compute; reflexivity. }Qed.

(** ** C33: volumes *)

(** The file read from [r] again as a file. *)
Definition same_file (a b : file) : Prop :=
  f_name a = f_name b /\ f_type a = f_type b /\ f_polarity a = f_polarity b /\ (f_attr a = f_attr b \/ f_attr a = N.lor (f_attr b) 1) /\
  Forall2 same_section (f_sections a) (f_sections b).

Lemma files_of_stored : forall dbg whole fuel fs ps, Forall2 (stored dbg whole) fs ps -> (forall f, In f fs -> (length (f_sections f) < fuel)%nat) ->
  exists fs', files_of_refs dbg fuel (map snd ps) = Some (Ok fs') /\ Forall2 same_file fs' fs.
Proof.
  intros dbg whole fuel fs ps F. induction F as [|f [o r] fs ps S F IH]; intros FU; [exists []; split; [reflexivity|constructor]|].
  destruct IH as (fs' & I1 & I2). { intros g I. apply FU. now right. }
  destruct S as (_ & _ & _ & _ & (R1 & R2 & R3 & R4) & S). destruct (S fuel (FU f (or_introl eq_refl))) as (l & L1 & L2).
  cbn [map snd files_of_refs]. unfold file_of_ref. rewrite L1, I1. eexists. split; [reflexivity|]. constructor; [|exact I2].
  unfold same_file. cbn [f_name f_type f_polarity f_attr f_sections]. split; [exact R1|]. split; [exact R2|]. split; [exact R3|]. split; [|exact L2].
  destruct R4 as [R4|(R4 & _)]; auto.
Qed.

(** A volume that fits is written; what is written has the right length and
    header checksum, holds every file at its place, and is read back as the
    same volume: type, attributes, block map, extended header, and the files
    with their sections in order. *)
Theorem C33_round_trip : forall dbg v, volume_ok v -> volume_fits v ->
  exists out, serialize_volume dbg v = Ok out /\ (forall size, v_capacity v = Some size -> size <= blen out) /\
    (blen out < 2 ^ 63 ->
     exists r, volume_ref_new out = Ok r /\
       vh_guid (vr_header r) = v_guid v /\ vh_attr (vr_header r) = v_attr v /\ vh_length (vr_header r) = blen out /\
       vh_header_length (vr_header r) = 56 + 8 * (blen (v_blocks v) + 1) /\ word_sum (firstn (N.to_nat (vh_header_length (vr_header r))) out) = 0 /\
       vr_blocks r = v_blocks v /\ vr_ext_header r = Ok (v_ext v) /\
       exists ps, Forall2 (stored dbg out) (v_files v) ps /\ in_order (vr_content_offset r) ps /\
         (forall fuel, (2 * length (v_files v) < fuel)%nat -> vr_files fuel r = Some (Ok (map snd ps))) /\
         (forall fuel, (2 * length (v_files v) < fuel)%nat -> (forall f, In f (v_files v) -> (length (f_sections f) < fuel)%nat) ->
            exists fs, volume_of_ref dbg fuel r = Some (Ok (Volume (v_guid v) (v_attr v) (v_ext v) (v_blocks v) fs (Some (blen out)))) /\
              Forall2 same_file fs (v_files v))).
Proof.
  intros dbg v VO VF. destruct (serialize_shape dbg v VO VF) as (ext & ps & n & SH). cbv zeta in SH. destruct SH as ((ck & CK & S & WS) & ST & IO & CAP & COL).
  set (hl := 56 + 8 * (blen (v_blocks v) + 1)) in *. set (pb := erase_byte (v_attr v)) in *.
  set (E := ext_part v ++ repeat pb (N.to_nat (pad_of 8 (blen (ext_part v))))) in *. set (len := hl + blen E + blen ext + N.of_nat n) in *.
  eexists. split; [exact S|].
  assert (OL : blen (vheader_bytes (vhead v len hl ck (ext_at v)) ++ vmap v ++ E ++ ext ++ repeat pb n) = len).
  { rewrite !blen_app, vhead_len, vmap_len by exact VO. unfold blen at 4. rewrite repeat_length. unfold len, hl. lia. }
  split. { intros size CE. rewrite CE in CAP. rewrite OL. lia. }
  intros L63. rewrite OL in L63.
  destruct (volume_read v len ck E ext n pb VO VF CK eq_refl eq_refl L63 WS) as (_ & R & RE & SL). fold hl in R, RE, SL.
  eexists. split; [exact R|]. cbn [vr_header vr_blocks vr_content_offset vhead vh_guid vh_attr vh_length vh_header_length]. rewrite OL.
  split; [reflexivity|]. split; [reflexivity|]. split; [reflexivity|]. split; [reflexivity|]. split; [exact WS|]. split; [reflexivity|]. split; [exact RE|].
  exists ps. split; [apply ST|]. split; [exact IO|].
  assert (FILES : forall fuel, (2 * length (v_files v) < fuel)%nat ->
     vr_files fuel (VolumeRef (vheader_bytes (vhead v len hl ck (ext_at v)) ++ vmap v ++ E ++ ext ++ repeat pb n) (vhead v len hl ck (ext_at v))
                              (option_map fst (v_ext v)) (v_blocks v) (hl + blen E)) = Some (Ok (map snd ps))).
  { intros fuel FU. unfold vr_files. cbn [vr_data vr_content_offset vr_header]. rewrite SL. cbn [vhead vh_attr]. fold pb.
    destruct COL as (l & C1 & C2); [unfold len in L63; lia|]. assert (LE : (2 * length (v_files v) + 1 <= fuel)%nat) by lia. rewrite (collect_more _ _ _ fuel _ _ LE C2). unfold is_pad in C1. rewrite C1. reflexivity. }
  split; [exact FILES|]. intros fuel FU FS. unfold volume_of_ref. cbn [vr_header vhead vh_revision]. change (FFS_REVISION <? FFS_REVISION) with false. cbv iota.
  fold (vhead v len hl ck (ext_at v)). rewrite FILES by exact FU. destruct (files_of_stored dbg _ fuel (v_files v) ps (ST ck) FS) as (fs & F1 & F2).
  rewrite F1. rewrite RE. cbn [vhead vh_guid vh_attr vh_length vr_blocks]. exists fs. split; [reflexivity|exact F2].
Qed.

(** What is refused or goes wrong. *)
Definition blocks1 : list block := [(1, 0x1000)].
Definition with_files (l : list file) : volume := Volume FFS3_GUID 0 None blocks1 l None.
Definition far_file : file := File (repeat 7 16) 2 0x3A true [raw [1]].
(** Asking for an alignment of 16 MiB, the largest there is, panics. *)
Theorem C33_alignment_16M_refuted : file_ok far_file /\ asked_alignment (f_attr far_file) = 24 /\ serialize_volume false (with_files [far_file]) = Panic.
Proof.
  split; [|split; reflexivity]. split; [reflexivity|]. split; [apply Forall_forall; intros x I; apply repeat_spec in I; subst; reflexivity|].
  split; [reflexivity|]. split; [reflexivity|]. constructor; [|constructor]. apply raw_writable; [reflexivity|]. repeat constructor.
Qed.
(** The byte of free space: 0xFF if the erase polarity attribute (bit 11) is set, otherwise 0. *)
Definition free_byte (attr : N) : N := if N.testbit attr 11 then 0xff else 0.
Lemma erase_free : forall attr, erase_byte attr = free_byte attr.
Proof.
  intros attr. unfold erase_byte, free_byte. change ERASE_POLARITY with (2 ^ 11). assert (X : N.land attr (2 ^ 11) = if N.testbit attr 11 then 2 ^ 11 else 0).
  { apply N.bits_inj. intros i. rewrite N.land_spec, N.pow2_bits_eqb. destruct (N.eqb_spec 11 i) as [<-|Ne].
    - destruct (N.testbit attr 11); reflexivity.
    - rewrite andb_false_r. destruct (N.testbit attr 11); [|now rewrite N.bits_0]. rewrite N.pow2_bits_eqb. symmetry. now apply N.eqb_neq. }
  rewrite X. destruct (N.testbit attr 11); reflexivity.
Qed.
(** Free space holds no files. *)
Theorem C33_free_space : forall v n fuel, vr_content_offset v <= blen (vr_data v) ->
  skipn (N.to_nat (vr_content_offset v)) (vr_data v) = repeat (free_byte (vh_attr (vr_header v))) n ->
  vr_files (S fuel) v = Some (Ok []).
Proof.
  intros v n fuel L E. unfold vr_files, slice. rewrite (proj2 (N.leb_le _ _) L), (proj2 (N.leb_le _ _) (N.le_refl _)). cbn [andb].
  assert (X : firstn (N.to_nat (blen (vr_data v) - vr_content_offset v)) (skipn (N.to_nat (vr_content_offset v)) (vr_data v)) = repeat (erase_byte (vh_attr (vr_header v))) n).
  { rewrite E, erase_free. apply firstn_all2. apply (f_equal (@length N)) in E. rewrite skipn_length in E. rewrite repeat_length in *. unfold blen in *. lia. }
  rewrite X. pose proof (blank_stops [] n (erase_byte (vh_attr (vr_header v))) fuel) as B. cbn [app blen length] in B. change (blen []) with 0 in B.
  rewrite B. reflexivity.
Qed.
(** A file with data checksum cannot be stored (see C32). *)
Theorem C33_data_checksum_refuted : serialize_volume false (with_files [checked_file]) = Err FDataCorrupt.
Proof. vm_compute. reflexivity. Qed.
(** A volume without blocks is written, and cannot be read. *)
Theorem C33_empty_block_map_refuted : exists out, serialize_volume false (volume_new []) = Ok out /\ volume_ref_new out = Err FInvalidBlockMap.
Proof. eexists. parts. { vm_compute; reflexivity. } { vm_compute; reflexivity. }Qed.
(** Bytes after the end of the volume are read as its files. *)
Theorem C33_trailing_bytes_refuted : exists out b r, serialize_volume false (with_files []) = Ok out /\
  serialize_file false (File (repeat 7 16) 2 0 true [raw [1]]) = Ok b /\ volume_ref_new (out ++ b) = Ok r /\ vh_length (vr_header r) = blen out /\
  match vr_files 9 r with Some (Ok [f]) => fr_data f = b | _ => False end.
Proof. eexists. eexists. eexists. parts. { vm_compute; reflexivity. } { vm_compute; reflexivity. } { vm_compute; reflexivity. } { vm_compute; reflexivity. } { vm_compute; reflexivity. }Qed.

(** Where block [lba] starts, by the block map: the blocks before it. *)
Fixpoint block_start (blocks : list block) (lba : N) : N :=
  match blocks with
  | [] => 0
  | (n, len) :: l => if lba <? n then lba * len else n * len + block_start l (lba - n)
  end.
(** Right in the first region of the block map. *)
Theorem C33_lba_first_region : forall dbg v lba n len l, vr_blocks v = (n, len) :: l -> lba < n -> n * len < 2 ^ 32 -> n < 2 ^ 32 ->
  lba_info dbg v lba = Ok (block_start (vr_blocks v) lba, len, n - lba).
Proof.
  intros dbg v lba n len l E L M N. unfold lba_info. rewrite E. cbn [lba_loop block_start]. unfold op32, two32.
  rewrite N.add_0_l. rewrite (proj2 (N.ltb_lt n (2 ^ 32)) N). cbn [bind]. rewrite (proj2 (N.ltb_lt lba n) L). cbn [bind].
  rewrite (proj2 (N.leb_gt n lba) L). assert (X : lba * len < 2 ^ 32) by (clear - L M; nia). rewrite (proj2 (N.ltb_lt _ _) X). cbn [bind].
  rewrite N.add_0_l, (proj2 (N.ltb_lt _ _) X). reflexivity.
Qed.
(** Wrong in the second: the blocks of the first are counted twice. *)
Definition two_regions : volume_ref := VolumeRef [] (read_vheader []) None [(2, 0x1000); (2, 0x200)] 0.
Theorem C33_lba_second_region_refuted : lba_info true two_regions 2 = Ok (0x2400, 0x200, 2) /\ block_start (vr_blocks two_regions) 2 = 0x2000.
Proof. split; vm_compute; reflexivity. Qed.

(** ** C34: bytes from anywhere *)

(** Reading a section never reads outside the bytes and panics only for a
    GUID-defined section that puts its content inside its own header. *)
Theorem C34_section_is_safe : forall b, bytes_ok b ->
  (new_from_buffer false b = Panic -> overlapping_guid_header b) /\
  (forall dbg s, new_from_buffer dbg b = Ok s -> piece (s_bytes s) b /\ blen (s_bytes s) <= blen b).
Proof.
  intros b B. split; [now apply new_from_buffer_panic|]. intros dbg s H. destruct (parse_inv dbg b s B H) as (h & c & size & off & -> & _ & _ & SB & _ & _ & _ & E & _).
  rewrite unread_bytes. assert (P : piece c b).
  { exists (bytes_at b 0 off ++ header_data h), (skipn (N.to_nat size) b). pose proof (firstn_skipn (N.to_nat size) b) as X. unfold bytes_at at 1 in E. cbn [N.to_nat skipn] in E.
    rewrite <- X at 1. rewrite E. rewrite <- !app_assoc. reflexivity. }
  split; [exact P|]. destruct P as (x & y & ->). rewrite !blen_app. lia.
Qed.

(** Iterating over sections ends, for every input; every section is a piece
    of the input. *)
Theorem C34_sections_end : forall data, bytes_ok data -> blen data < 2 ^ 63 -> forall fuel, (length data < fuel)%nat ->
  exists r, sections_of false fuel data = Some r /\
    match r with
    | Ok l => Forall (fun s => piece (s_bytes s) data) l
    | Err _ => True
    | Panic => exists k, overlapping_guid_header (skipn k data)
    end.
Proof.
  intros data B L fuel F. apply (collect_sections_total data B L fuel 0). unfold blen. lia.
Qed.

(** Reading a file panics only if its size is below its header's; so does
    asking for its content, and then always. *)
Theorem C34_file_is_safe : forall b,
  (file_ref_new b = Panic -> stored_size b < header_size b /\ bit (nth 19 b 0) 6 = true) /\
  (forall r, file_ref_new b = Ok r -> (fr_content r = Panic <-> stored_size b < header_size b) /\ fr_size r <= blen b /\ fr_data r = firstn (N.to_nat (fr_size r)) b).
Proof.
  intros b. split; [apply file_panic_short|]. intros r H. split; [now apply content_panic|]. destruct (file_ref_inv b r H) as (_ & _ & S & _ & _ & D & _). split; [exact S|exact D].
Qed.

(** Reading a volume's header never panics. *)
Theorem C34_volume_header_is_safe : forall b, volume_ref_new b <> Panic.
Proof. exact volume_ref_total. Qed.

(** Iterating over the files of a volume ends, unless a file says it is zero
    bytes long; it panics only for a file shorter than its header, or if the
    files would start after the end. *)
Theorem C34_files_end_partial : forall b v, blen b < 2 ^ 63 -> volume_ref_new b = Ok v -> forall fuel, (length b + 8 < fuel)%nat ->
  (exists r, vr_files fuel v = Some r /\
     match r with
     | Ok l => Forall (fun f => piece (fr_data f) b) l
     | Err _ => True
     | Panic => blen b < vr_content_offset v \/ exists k, stored_size (skipn k b) < header_size (skipn k b)
     end) \/
  exists k r, file_ref_new (skipn k b) = Ok r /\ fr_size r = 0.
Proof.
  intros b v L H fuel F. assert (D : vr_data v = b).
  { clear F. unfold volume_ref_new in H.
    repeat match type of H with (if ?c then Err _ else _) = Ok _ => destruct c; [discriminate|] end. cbv zeta in H.
    repeat match type of H with (if ?c then Err _ else _) = Ok _ => destruct c; [discriminate|] end.
    match type of H with bind ?e _ = Ok _ => destruct e as [ext|e0|] end; cbn [bind] in H; try discriminate.
    match type of H with bind ?e _ = Ok _ => destruct e as [mb|e0|] end; cbn [bind] in H; try discriminate.
    match type of H with (if ?c then Err _ else _) = Ok _ => destruct c; [discriminate|] end.
    match type of H with match ?l with [] => _ | _ :: _ => _ end = Ok _ => destruct l as [|z r]; [discriminate|] end.
    match type of H with (if ?c then Err _ else _) = Ok _ => destruct c; [discriminate|] end.
    match type of H with match ?l with [] => _ | _ :: _ => _ end = Ok _ => destruct l as [|y q]; [discriminate|] end.
    match type of H with (if ?c then Err _ else _) = Ok _ => destruct c; [discriminate|] end.
    match type of H with match ?l with Ok _ => _ | _ => _ end = Ok _ => destruct l; try discriminate end. injection H as <-. reflexivity. }
  unfold vr_files. rewrite D. unfold slice. rewrite N.leb_refl, andb_true_r.
  destruct (N.leb_spec (vr_content_offset v) (blen b)) as [C|C]; [|left; eexists; split; [reflexivity|left; exact C]].
  set (o := vr_content_offset v) in *. change (firstn (N.to_nat (blen b - o)) (skipn (N.to_nat o) b)) with (bytes_at b o (blen b - o)).
  assert (DE : bytes_at b o (blen b - o) = skipn (N.to_nat o) b) by (unfold bytes_at; apply firstn_all2; rewrite skipn_length; unfold blen; lia).
  rewrite DE. set (d := skipn (N.to_nat o) b).
  assert (DL : blen d = blen b - o) by (unfold d, blen; rewrite skipn_length; lia).
  destruct (collect_files_total d (erase_byte (vh_attr (vr_header v))) ltac:(lia) fuel 0 ltac:(lia) ltac:(unfold blen in *; lia)) as [(r & R1 & R2)|(k & r & _ & R1 & R2)].
  - left. rewrite R1. destruct r as [l|e|]; eexists; (split; [reflexivity|]).
    + rewrite Forall_forall in *. intros f I. apply filter_In in I. destruct I as (I & _). apply (piece_skipn _ (N.to_nat o)). now apply R2.
    + exact I.
    + right. destruct R2 as (k & R2). exists (k + N.to_nat o)%nat. unfold d in R2. rewrite skipn_skipn in R2. exact R2.
  - right. exists (k + N.to_nat o)%nat, r. unfold d in R1. rewrite skipn_skipn in R1. auto.
Qed.

(** A file of size zero: its volume is accepted and the iteration never ends. *)
Definition zero_header : fheader := FHeader (repeat 0 16) 0xFF 0xAA 1 0 0 0xF8.
Definition zero_volume : list N := firstn 72 (bytes_of (serialize_volume false (Volume FFS3_GUID 0 None blocks1 [] (Some 96)))) ++ fheader_bytes zero_header.
Theorem C34_zero_size_file_refuted : exists r, volume_ref_new zero_volume = Ok r /\ vh_length (vr_header r) = blen zero_volume /\ forall fuel, vr_files fuel r = None.
Proof.
  eexists. split; [vm_compute; reflexivity|]. split; [vm_compute; reflexivity|]. intros fuel. unfold vr_files.
  match goal with |- match ?s with _ => _ end = None => let s' := eval vm_compute in s in change s with s' end. cbv iota.
  match goal with |- match collect ?n ?f ?o with _ => _ end = None => assert (X : collect n f o = None) end; [|rewrite X; reflexivity].
  match goal with |- collect ?n _ _ = None => set (next := n) end.
  assert (CK : match next 0 with Yield (Ok _) (Some o) => o =? 0 | _ => false end = true) by (vm_compute; reflexivity).
  assert (ST : exists f, next 0 = Yield (Ok f) (Some 0)).
  { destruct (next 0) as [|[f| |] [o|]|]; try discriminate CK. apply N.eqb_eq in CK. subst o. exists f. reflexivity. } destruct ST as (f & ST). clearbody next.
  induction fuel as [|fuel IH]; [reflexivity|]. cbn [collect]. rewrite ST, IH. reflexivity.
Qed.

(** A file shorter than its header: with data checksum reading it panics,
    without, asking for its content does. *)
Theorem C34_short_file_refuted : exists b, length b = 24%nat /\ bytes_ok b /\ file_ref_new b = Panic.
Proof.
  exists (fheader_bytes (FHeader (repeat 0 16) 0xBF 0 1 0x40 0 0xF8)). split; [reflexivity|]. split; [|vm_compute; reflexivity].
  apply Forall_forall. intros x I. apply N.ltb_lt. revert x I.
  match goal with |- forall x, In x ?l -> _ => apply (proj1 (forallb_forall (fun x => x <? 256) l)) end. vm_compute. reflexivity.
Qed.
Theorem C34_short_content_refuted : exists r, file_ref_new (fheader_bytes zero_header) = Ok r /\ fr_content r = Panic.
Proof. eexists. parts. { vm_compute; reflexivity. } { vm_compute; reflexivity. }Qed.

(** A GUID-defined section that overlaps its header, and, in a debug build,
    any section shorter than its header. *)
Theorem C34_overlapping_section_refuted : exists b, length b = 24%nat /\ bytes_ok b /\ new_from_buffer false b = Panic.
Proof. exists ([24; 0; 0; 2] ++ repeat 0 20). split; [reflexivity|]. split; [repeat constructor|vm_compute; reflexivity]. Qed.
Theorem C34_short_section_refuted : new_from_buffer true [3; 0; 0; 0x19] = Panic /\ new_from_buffer false [3; 0; 0; 0x19] = Err FInvalidHeader.
Proof. vm_compute. split; reflexivity. Qed.

(** An extended header that says it is shorter than it is. *)
Definition short_ext : list N :=
  bytes_of (serialize_volume false (Volume FFS3_GUID 0 (Some (ExtHeader (repeat 9 16) 19, [1; 2])) blocks1 [] None)).
Theorem C34_short_ext_header_refuted : exists r, volume_ref_new short_ext = Ok r /\ vr_ext_header r = Panic.
Proof. eexists. parts. { vm_compute; reflexivity. } { vm_compute; reflexivity. }Qed.

(** Files that would start after the end of the buffer. *)
Definition cut_volume : list N :=
  let out := bytes_of (serialize_volume false (Volume FFS3_GUID 0 (Some (ExtHeader (repeat 9 16) 21, [1])) blocks1 [] None)) in
  vheader_bytes (VHeader (repeat 0 16) FFS3_GUID 117 FVH 0 72 (1 + vh_checksum (read_vheader out) + (vh_length (read_vheader out) - 118)) 96 0 FFS_REVISION) ++ bytes_at out 56 61.
Theorem C34_files_after_the_end_refuted : exists r, volume_ref_new cut_volume = Ok r /\ vh_length (vr_header r) = blen cut_volume /\ vr_files 9 r = Some Panic.
Proof. eexists. parts. { vm_compute; reflexivity. } { vm_compute; reflexivity. } { vm_compute; reflexivity. }Qed.

(** ** Examples *)
Definition sample_file : file := File (repeat 7 16) 2 0x08 true [raw [1; 2; 3]; Section (HGuidDefined (GuidDefined (repeat 3 16) 25 1) [9] 2) (Encapsulation [] [5; 6] false) false; raw []].
Definition sample_volume : volume :=
  Volume FFS2_GUID 0x800 (Some (ExtHeader (repeat 9 16) 22, [1; 2])) [(2, 0x1000); (1, 0x200)] [sample_file; file_new (repeat 8 16) 9; sample_file] (Some 0x1000).

Example sample_file_ok : file_ok sample_file.
Proof.
  split; [reflexivity|]. split; [apply Forall_forall; intros x I; apply repeat_spec in I; subst; reflexivity|]. split; [reflexivity|]. split; [reflexivity|].
  constructor; [apply raw_writable; [reflexivity|repeat constructor]|]. constructor; [|constructor; [apply raw_writable; [reflexivity|constructor]|constructor]].
  split; [reflexivity|]. split; [reflexivity|]. split; [repeat constructor|]. split; [|split; [reflexivity|discriminate]].
  split; [reflexivity|]. split; [apply Forall_forall; intros x I; apply repeat_spec in I; subst; reflexivity|]. split; [repeat constructor|]. split; [reflexivity|]. split; reflexivity.
Qed.
Example sample_volume_ok : volume_ok sample_volume /\ volume_fits sample_volume.
Proof.
  assert (E : file_ok (file_new (repeat 8 16) 9)).
  { split; [reflexivity|]. split; [apply Forall_forall; intros x I; apply repeat_spec in I; subst; reflexivity|]. split; [reflexivity|]. split; [reflexivity|constructor]. }
  split.
  - split; [left; reflexivity|]. split; [reflexivity|]. split; [discriminate|]. split.
    { constructor; [|constructor; [|constructor]]; (split; [reflexivity|split; [reflexivity|discriminate]]). }
    split. { constructor; [split; [exact sample_file_ok|discriminate]|]. constructor; [split; [exact E|discriminate]|]. constructor; [split; [exact sample_file_ok|discriminate]|constructor]. }
    split; [split; [reflexivity|apply Forall_forall; intros x I; apply repeat_spec in I; subst; reflexivity]|]. split; [reflexivity|]. split; [reflexivity|repeat constructor].
  - split; [reflexivity|]. exists false. split; [split; discriminate|]. repeat constructor.
Qed.
Example sample_volume_runs :
  match serialize_volume true sample_volume with
  | Ok out =>
      blen out = 0x1000 /\
      match volume_ref_new out with
      | Ok r => match volume_of_ref true 40 r with
                | Some (Ok v) => map f_name (v_files v) = [repeat 7 16; repeat 8 16; repeat 7 16] /\ map (fun f => map s_bytes (f_sections f)) (v_files v) = [[[1; 2; 3]; [5; 6]; []]; []; [[1; 2; 3]; [5; 6]; []]]
                | _ => False end
      | _ => False end
  | _ => False end.
Proof. vm_compute. repeat split. Qed.

Print Assumptions C31_round_trip.
Print Assumptions C31_read_then_write.
Print Assumptions C31_new_from_header.
Print Assumptions C31_dirty_is_refused.
Print Assumptions C31_set_data.
Print Assumptions C31_composed_is_clean.
Print Assumptions C31_extract.
Print Assumptions C31_stream.
Print Assumptions C31_length_0xFFFFFF_refuted.
Print Assumptions C31_extended_small_refuted.
Print Assumptions C32_serializes.
Print Assumptions C32_round_trip.
Print Assumptions C32_header_checksum.
Print Assumptions C32_header_damage_is_noticed.
Print Assumptions C32_content_damage_is_noticed.
Print Assumptions C32_data_checksum_refuted.
Print Assumptions C32_large_bit_damage_refuted.
Print Assumptions C32_state_damage_refuted.
Print Assumptions C32_file_check_damage_refuted.
Print Assumptions C33_round_trip.
Print Assumptions C33_free_space.
Print Assumptions C33_alignment_16M_refuted.
Print Assumptions C33_data_checksum_refuted.
Print Assumptions C33_empty_block_map_refuted.
Print Assumptions C33_trailing_bytes_refuted.
Print Assumptions C33_lba_first_region.
Print Assumptions C33_lba_second_region_refuted.
Print Assumptions C34_section_is_safe.
Print Assumptions C34_sections_end.
Print Assumptions C34_file_is_safe.
Print Assumptions C34_volume_header_is_safe.
Print Assumptions C34_files_end_partial.
Print Assumptions C34_zero_size_file_refuted.
Print Assumptions C34_short_file_refuted.
Print Assumptions C34_short_content_refuted.
Print Assumptions C34_overlapping_section_refuted.
Print Assumptions C34_short_section_refuted.
Print Assumptions C34_short_ext_header_refuted.
Print Assumptions C34_files_after_the_end_refuted.
