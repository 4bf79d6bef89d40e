(** C83: the PI crate's reader of firmware volumes gives back what a volume
    holds; and where it does not. *)
From Verif Require Import Base.Prelude Base.Bytes Align.Proofs PiFs.Model PiFs.Spec PiFs.Proofs PiFs.SectionProofs.
Local Open Scope N_scope.
Local Ltac Zify.zify_post_hook ::= Z.div_mod_to_equations.

(** ** Reading back *)

(** A volume, opened: its attributes, block map and name are those written,
    and its files are those written, in order and no others, each with its
    name, type, attributes, bytes and content.  Partial: the sum of a summed
    file's content must be zero ([pi_checksum_refuted]). *)
Theorem pi_volume_read_partial : forall v, volume_fits v ->
  (forall f, In f (v_files v) -> summed f = true -> total (f_content f) mod 256 = 0) ->
  exists r rs, volume_new (volume_bytes v) = Ok r /\
    pv_attributes r = v_attributes v /\ pv_blocks r = v_blocks v /\
    volume_name r = match v_ext v with Some (_, name, _) => Some name | None => None end /\
    Forall2 reads_as (v_files v) rs /\
    forall fuel, (length (v_files v) < fuel)%nat -> volume_files fuel r = (map Got rs, Done).
Proof.
  intros v V S. exists (PV (volume_bytes v) (v_attributes v) (v_blocks v) (the_ext v) (start v) (erased v)), (map the_file (v_files v)).
  split; [now apply volume_new_read|]. split; [reflexivity|]. split; [reflexivity|]. split.
  { unfold volume_name, the_ext. cbn [pv_ext]. destruct (v_ext v) as [[[? ?] ?]|]; reflexivity. }
  pose proof V as (_ & _ & _ & _ & _ & _ & _ & _ & _ & _ & _ & _ & FF & _). split.
  - clear S V. induction (v_files v) as [|f fs IH]; cbn [map]; [constructor|]. inversion FF; subst. constructor; [|now apply IH].
    now apply file_read_as.
  - intros fuel FU. rewrite map_map. apply volume_files_read; [assumption| |assumption].
    apply forallb_forall. intros f I. unfold check_passes. destruct (summed f) eqn:E; [|reflexivity]. cbn [negb orb].
    apply N.eqb_eq. now apply S.
Qed.

(** The sections of a file: those its content is laid out as, and after each
    encapsulation section those the extractor finds in it, to any depth. *)
Theorem pi_sections_read : forall x f r l, reads_as f r -> laid_out x (f_content f) l ->
  exists n, forall fuel, (n <= fuel)%nat -> file_sections fuel x r = (map Got l, Done).
Proof.
  intros x f r l (_ & _ & _ & _ & _ & C) H. destruct (sections_read x _ l H) as (n & R). exists n. intros fuel FU.
  unfold file_sections. rewrite C. apply (R fuel [] FU).
Qed.

(** Files followed by one with a changed header byte: those before it are
    given, then the error, and nothing after it. *)
Theorem pi_bad_file_reported : forall fs e f i x rest fuel, e = 0 \/ e = 0xff -> Forall file_fits (f :: fs) ->
  (forall g, In g (f :: fs) -> summed g = true -> total (f_content g) mod 256 = 0) ->
  x < 256 -> x <> nth i (file_bytes f) 0 ->
  (i < 24)%nat \/ (large f = true /\ (i < 32)%nat) -> i <> 17%nat -> i <> 19%nat -> i <> 23%nat -> bytes_ok rest ->
  (length fs < fuel)%nat ->
  exists rs, Forall2 reads_as fs rs /\
    files_from fuel (area e fs (altered (file_bytes f) i x ++ rest)) e 0 = (map Got rs ++ [Failed VolumeCorrupted], Done).
Proof.
  intros fs e f i x rest fuel E FF S X NE I N17 N19 N23 OKR FU. exists (map the_file fs). inversion FF as [|? ? F1 F2]; subst. split.
  - clear - F2. induction fs as [|g fs IH]; cbn [map]; [constructor|]. inversion F2; subst. constructor; [now apply file_read_as|now apply IH].
  - rewrite map_map. assert (CP : forall g, In g (f :: fs) -> check_passes g = true).
    { intros g G. unfold check_passes. destruct (summed g) eqn:SG; [|reflexivity]. cbn [negb orb]. apply N.eqb_eq. now apply S. }
    apply bad_file_reported; try assumption; [apply forallb_forall; intros g G; apply CP; now right|apply CP; now left].
Qed.

(** A section that the extractor refuses, or that is cut off, at any depth:
    all before it are given, then the error, and nothing more. *)
Theorem pi_section_errors : forall x f r l e, reads_as f r -> laid_until x (f_content f) l e ->
  exists n, forall fuel, (n <= fuel)%nat -> file_sections fuel x r = (map Got l ++ [Failed e], Done).
Proof.
  intros x f r l e (_ & _ & _ & _ & _ & C) H. destruct (until_read x _ l e H) as (n & R). exists n. intros fuel FU.
  unfold file_sections. rewrite C. apply (R fuel [] FU).
Qed.

(** ** Any bytes *)

(** Bytes opened as a volume: everything said of it is so, and inside them. *)
Theorem pi_accepted_volume : forall b r, bytes_ok b -> volume_new b = Ok r -> volume_at b r.
Proof. exact volume_new_at. Qed.

(** Of any bytes whatever: the files reported, up to an error or a panic, lie
    one after the other inside them, each complete and with a right header
    sum. *)
Theorem pi_files_reported_are_there : forall fuel b e l en, bytes_ok b -> files_from fuel b e 0 = (l, en) ->
  one_after_the_other b 0 (found l).
Proof. intros. eapply files_placed; eassumption. Qed.

(** Any one byte of a file's header changed, but for the attributes, the
    content check and the state: the file is refused. *)
Theorem pi_header_change_caught : forall b f i x, file_new b = Ok f -> bytes_ok b -> x < 256 -> x <> nth i b 0 ->
  (i < 24)%nat \/ (pf_header f = 32 /\ (i < 32)%nat) -> i <> 17%nat -> i <> 19%nat -> i <> 23%nat ->
  file_new (altered b i x) = Err VolumeCorrupted.
Proof. exact altered_caught. Qed.

(** Opening bytes never panics. *)
Theorem pi_volume_never_panics : forall b, volume_new b <> Panic.
Proof.
  intros b. unfold volume_new. destruct (blen b <? 56); [discriminate|].
  repeat match goal with
  | |- (if ?c then _ else _) <> _ => destruct c eqn:?; try discriminate
  | |- bind (cut ?l ?a ?e) _ <> _ => let C := fresh "C" in
      destruct (cut l a e) eqn:C; cbn [bind]; [|discriminate|exfalso; unfold cut in C; destruct (_ && _) eqn:Q in C; [discriminate|lia]]
  | |- bind (ext_header ?b ?o) _ <> _ => let C := fresh "C" in
      destruct (ext_header b o) as [[[? ?]|]| |] eqn:C; cbn [bind]; [| |discriminate|exfalso; unfold ext_header in C]
  | |- match ?l with [] => _ | _ :: _ => _ end <> _ => destruct l; try discriminate
  | |- _ => progress cbn [bind]
  end.
  destruct (_ =? 0) in C0; [discriminate|]. destruct (_ <? _) in C0; [discriminate|].
  destruct (blen b <? _ + _) eqn:E in C0; [discriminate|].
  destruct (cut _ _ _) eqn:Q in C0; cbn [bind] in C0; try discriminate. unfold cut in Q. destruct (_ && _) eqn:Q2 in Q; [discriminate|lia].
Qed.

(** ** Blocks *)

(** In the first region of the block map a block is where it should be, and
    no arithmetic overflows. *)
Theorem pi_first_region_blocks : forall dbg v n len r lba, pv_blocks v = (n, len) :: r -> lba < n -> n < 2 ^ 32 -> n * len < 2 ^ 32 ->
  exists o s k, block_at (pv_blocks v) lba = Some (o, s, k) /\ lba_info dbg v lba = Ok (o, s, k).
Proof.
  intros dbg v n len r lba E L B1 B2. exists (lba * len), len, (n - lba). rewrite E. cbn [block_at]. replace (lba <? n) with true by lia.
  split; [reflexivity|]. unfold lba_info. rewrite E. cbn [lba_loop]. unfold w32. rewrite N.add_0_l.
  assert (lba * len < 2 ^ 32) by (apply N.le_lt_trans with (n * len); [apply N.mul_le_mono_r; lia|assumption]).
  replace (dbg && (two32 <=? n)) with false by (unfold two32; destruct dbg; cbn; lia). cbn [bind].
  rewrite (N.mod_small n) by (unfold two32; lia). replace (lba <? n) with true by lia. cbn [bind].
  replace (n <=? lba) with false by lia.
  replace (dbg && (two32 <=? lba * len)) with false by (unfold two32; destruct dbg; cbn; lia). cbn [bind].
  rewrite (N.mod_small (lba * len)) by (unfold two32; lia). rewrite N.add_0_l.
  replace (dbg && (two32 <=? lba * len)) with false by (unfold two32; destruct dbg; cbn; lia). cbn [bind].
  rewrite N.mod_small by (unfold two32; lia). reflexivity.
Qed.

(** In every region the size of a block and the blocks that remain are right,
    and a block past the last is refused (a release build). *)
Theorem pi_block_sizes_partial : forall v lba, count (pv_blocks v) < 2 ^ 32 ->
  match block_at (pv_blocks v) lba with
  | Some (_, s, k) => exists o, lba_info false v lba = Ok (o, s, k)
  | None => lba_info false v lba = Err InvalidParam
  end.
Proof.
  intros v lba C. pose proof (lba_loop_read (pv_blocks v) lba 0 0 0 ltac:(lia) ltac:(lia) ltac:(lia)) as H. rewrite N.sub_0_r in H.
  unfold lba_info. destruct (block_at (pv_blocks v) lba) as [[[o s] k]|].
  - destruct H as (o2 & _ & -> & K). cbn [bind]. replace (lba + k <=? lba) with false by lia. cbn [w32 andb bind].
    unfold w32. cbn [andb bind]. eexists. replace (lba + k - lba) with k by lia. reflexivity.
  - destruct H as (t & o & s & -> & K). cbn [bind]. replace (t <=? lba) with true by lia. reflexivity.
Qed.

(** Past the first region the offset is wrong: four blocks of 16 bytes, then
    blocks of 32; the first of those is at 64, and is said to be at 192. *)
Theorem pi_second_region_refuted : exists v lba,
  block_at (pv_blocks v) lba = Some (64, 32, 2) /\ lba_info true v lba = Ok (192, 32, 2).
Proof. exists (PV [] 0 [(4, 16); (2, 32)] None 0 0), 4. split; reflexivity. Qed.

(** ** Where reading goes wrong *)

(** A file with the checksum attribute, as the PI specification has it: the
    content check makes the sum of the content and itself zero.  The reader
    leaves the check out of the sum, and refuses the file unless the content
    alone sums to zero. *)
Theorem pi_checksum_refuted : forall f rest, file_fits f -> summed f = true -> total (f_content f) mod 256 <> 0 ->
  (total (f_content f) + content_check f) mod 256 = 0 /\
  file_new (file_bytes f ++ rest) = Err VolumeCorrupted.
Proof.
  intros f rest F S T. split.
  - unfold content_check, complement8. rewrite S. lia.
  - rewrite file_read by assumption. unfold check_passes. rewrite S. cbn [negb orb]. replace (_ =? 0) with false by lia. reflexivity.
Qed.

(** A section that says it is longer than what is there, or shorter than its
    header: the reader panics. *)
Theorem pi_section_length_refuted : forall x size ty rest fuel, ty < 0xC0 -> ~ In ty [0x01; 0x02; 0x14; 0x18] -> size < 2 ^ 24 - 1 ->
  size < 4 \/ 4 + blen rest < size ->
  sections_from (S fuel) x (le_bytes 3 size ++ [ty] ++ rest) 0 = ([], Crash).
Proof.
  intros x size ty rest fuel T NI SZ BAD. cbn [sections_from]. rewrite from_0.
  destruct (common_read false (Sec ty MNone [] size) rest SZ) as (F3 & SS & _). unfold common_header in *. cbn [sec_type sec_size] in *.
  rewrite <- app_assoc in F3, SS. rewrite !blen_app, blen_le, blen_cons.
  change (blen []) with 0. replace (_ <? 0) with false by lia. replace (_ <? 4) with false by lia.
  assert (P : section_new (le_bytes 3 size ++ [ty] ++ rest) = Panic).
  { unfold section_new. rewrite F3, SS. cbn [bind]. rewrite !blen_app, blen_le, blen_cons. change (blen []) with 0. cbn [In] in NI.
    replace (_ <? 4) with false by lia. replace (ty =? 1) with false by lia. replace (ty =? 2) with false by lia.
    replace (ty =? 20) with false by lia. replace (ty =? 24) with false by lia. replace (192 <=? ty) with false by lia.
    unfold cut. rewrite !blen_app, blen_le, blen_cons. change (blen []) with 0. cbn [common_len].
    replace (_ && _) with false by lia. reflexivity. }
  rewrite P. reflexivity.
Qed.

(** A section of a type from 0xC0 on (vendor's own, padding): its data is
    given as its own header, its content and everything after it. *)
Theorem pi_vendor_section_refuted : forall long s rest, section_fits long s -> 0xC0 <= sec_type s ->
  section_new (section_bytes long s ++ rest) = Ok (Sec (sec_type s) MNone (section_bytes long s ++ rest) (sec_size s)).
Proof.
  intros long s rest (M & SZ & LIM) T. unfold section_bytes. rewrite <- !app_assoc.
  destruct (common_read long s (own_header (sec_meta s) ++ sec_data s ++ rest) LIM) as (F3 & SS & _).
  unfold section_new. rewrite F3, SS. cbn [bind]. rewrite !blen_app, common_len_is.
  assert (4 <= common_len long) by (destruct long; cbn; lia). replace (_ <? 4) with false by lia.
  replace (sec_type s =? 1) with false by lia. replace (sec_type s =? 2) with false by lia.
  replace (sec_type s =? 20) with false by lia. replace (sec_type s =? 24) with false by lia.
  replace (192 <=? sec_type s) with true by lia. reflexivity.
Qed.

(** Such a section of size zero: reading never ends. *)
Theorem pi_vendor_section_loop_refuted : forall x ty rest fuel, 0xC0 <= ty ->
  snd (sections_from fuel x ([0; 0; 0; ty] ++ rest) 0) = Running.
Proof.
  intros x ty rest fuel T. induction fuel as [|k IH]; [reflexivity|]. cbn [sections_from]. rewrite from_0.
  rewrite blen_app. change (blen [0; 0; 0; ty]) with 4. replace (_ <? 0) with false by lia. replace (_ <? 4) with false by lia.
  assert (E : section_new ([0; 0; 0; ty] ++ rest) = Ok (Sec ty MNone ([0; 0; 0; ty] ++ rest) 0)).
  { unfold section_new. rewrite blen_app. change (blen [0; 0; 0; ty]) with 4. replace (_ <? 4) with false by lia.
    assert (F3 : fld ([0; 0; 0; ty] ++ rest) 3 1 = ty) by (cbn; lia). rewrite F3.
    replace (section_size ([0; 0; 0; ty] ++ rest)) with (@Ok perr _ (0, 4)) by reflexivity. cbn [bind].
    replace (ty =? 1) with false by lia. replace (ty =? 2) with false by lia.
    replace (ty =? 20) with false by lia. replace (ty =? 24) with false by lia. replace (192 <=? ty) with true by lia. reflexivity. }
  rewrite E. unfold is_encapsulation. cbn [sec_type sec_size]. replace (ty =? 1) with false by lia. replace (ty =? 2) with false by lia.
  cbn [orb]. change (0 + up 0 4) with 0. destruct (sections_from k x _ 0). cbn [snd] in *. exact IH.
Qed.

(** A file header whose size is zero and whose sum is right. *)
Definition empty_file : list N := [1;2;3;4;5;6;7;8;9;10;11;12;13;14;15;16; 118; 0xAA; 2; 0; 0; 0; 0; 0x07].
Definition empty_read : pfile := PF [] [1;2;3;4;5;6;7;8;9;10;11;12;13;14;15;16] 2 0 24 0.

(** A file that says it is shorter than its header is accepted; asking for its
    content or its sections panics. *)
Theorem pi_short_file_refuted : exists b f, file_new b = Ok f /\ file_content f = Panic /\
  forall fuel, file_sections fuel null_extractor f = ([], Crash).
Proof. exists empty_file, empty_read. split; [vm_compute; reflexivity|]. split; reflexivity. Qed.

(** And one of size zero is reported for ever. *)
Theorem pi_empty_file_loop_refuted : exists b, forall fuel, snd (files_from fuel b 0xff 0) = Running /\ length (fst (files_from fuel b 0xff 0)) = fuel.
Proof.
  exists empty_file. induction fuel as [|k [IH1 IH2]]; [split; reflexivity|]. cbn [files_from].
  change (blen empty_file <? 0) with false. change (blen empty_file - 0 <? 24) with false. rewrite from_0.
  change (forallb (fun x => x =? 0xff) (firstn 24 empty_file)) with false.
  replace (file_new empty_file) with (@Ok perr _ empty_read) by (vm_compute; reflexivity).
  change (up (0 + pf_size empty_read) 8) with 0. destruct (files_from k empty_file 255 0). cbn [fst snd length] in *. split; [assumption|lia].
Qed.

(** ** Cases that meet the hypotheses *)

Definition demo_file (n : N) (inv : bool) : file := File (repeat n 16) 7 0x00 [n; 1; 2; 3; n] inv.
Definition demo_large : file := File [0xA0;1;2;3;4;5;6;7;8;9;10;11;12;13;14;15] 2 0x41 [250; 1; 5; 200; 56] true.
Definition demo_volume : volume :=
  Volume (repeat 0 16) true 0x800 0 2 [(4, 64); (1, 128)] (Some ([9; 9; 9], repeat 0x33 16, [1; 2])) (repeat 0xff 7)
         [demo_file 1 true; demo_large; demo_file 3 true] (repeat 0xff 100).

Example demo_volume_fits : volume_fits demo_volume /\
  (forall f, In f (v_files demo_volume) -> summed f = true -> total (f_content f) mod 256 = 0).
Proof.
  split.
  - assert (FF : forall n inv, n < 256 -> file_fits (demo_file n inv)).
    { intros n inv B. unfold file_fits, bytes_ok. split; [reflexivity|]. split; [apply Forall_forall; intros y I; apply repeat_spec in I; lia|].
      split; [reflexivity|]. split; [reflexivity|]. split; [repeat (constructor; [lia|]); constructor|vm_compute; reflexivity]. }
    unfold volume_fits. split; [reflexivity|]. split; [unfold bytes_ok; repeat constructor|]. split; [vm_compute; reflexivity|].
    split; [vm_compute; reflexivity|]. split; [split; [vm_compute; discriminate|vm_compute; reflexivity]|]. split; [discriminate|].
    split; [repeat constructor; discriminate|]. split; [vm_compute; reflexivity|]. split; [vm_compute; reflexivity|].
    split; [vm_compute; reflexivity|]. split; [intros gap name d Q; injection Q as <- <- <-; split; vm_compute; reflexivity|].
    split; [vm_compute; reflexivity|]. split; [|right; reflexivity].
    constructor; [apply FF; reflexivity|]. constructor; [|constructor; [apply FF; reflexivity|constructor]].
    unfold file_fits, bytes_ok. split; [reflexivity|]. split; [repeat constructor|]. split; [reflexivity|]. split; [reflexivity|].
    split; [repeat constructor|vm_compute; reflexivity].
  - intros f [<-|[<-|[<-|[]]]] S; try discriminate. reflexivity.
Qed.
Example demo_volume_read : match volume_new (volume_bytes demo_volume) with
  | Ok r => map (fun i => match i with Got f => Some (pf_type f, pf_size f) | Failed _ => None end) (fst (volume_files 9 r))
  | _ => [] end = [Some (7, 29); Some (2, 37); Some (7, 29)].
Proof. vm_compute. reflexivity. Qed.

(** A volume longer than the bytes of it that the header counts: the files
    after its end are reported as its own. *)
Definition counted : volume := Volume (repeat 0 16) false 0x800 0 2 [(1, 72)] None [] [] [].
Theorem pi_files_past_the_end_refuted : exists r f, volume_new (volume_bytes counted ++ file_bytes (demo_file 5 true)) = Ok r /\
  fld (volume_bytes counted) 32 8 = blen (volume_bytes counted) /\
  volume_files 5 r = ([Got f], Done) /\ pf_name f = repeat 5 16.
Proof. do 2 eexists. split; [vm_compute; reflexivity|]. split; [reflexivity|]. split; [vm_compute; reflexivity|reflexivity]. Qed.

(** A volume that ends with its extended header, not at a multiple of eight:
    it is opened, and asking for its files panics. *)
Definition ends_early : volume := Volume (repeat 0 16) false 0x800 0 2 [(1, 93)] (Some ([], repeat 7 16, [1])) [] [] [].
Theorem pi_volume_end_refuted : exists r, volume_new (volume_bytes ends_early) = Ok r /\
  forall fuel, volume_files fuel r = ([], Crash).
Proof. eexists. split; [vm_compute; reflexivity|]. intros fuel. reflexivity. Qed.

(** Sections: a compressed one holding two, then a version and a raw one. *)
Definition raw (d : list N) : section := Sec 0x19 MNone d (4 + blen d).
Definition packed : section := Sec 0x01 (MCompression 40 0) (section_bytes false (raw [1; 2]) ++ [0; 0] ++ section_bytes false (raw [3])) (9 + 8 + 5).
Definition version : section := Sec 0x14 (MVersion 7) [0x31; 0; 0; 0] 10.
Definition unpack : extractor := fun s => Ok (sec_data s).

Example demo_laid_out : laid_out unpack
  (section_bytes false packed ++ [0; 0] ++ section_bytes false version ++ [0; 0] ++ section_bytes true (Sec 0x19 MNone [8; 9] 10) ++ [])
  [packed; raw [1; 2]; raw [3]; version; Sec 0x19 MNone [8; 9] 10].
Proof.
  assert (NI : ~ In 0x19 [0x01; 0x02; 0x14; 0x18]) by (cbn; intros [Q|[Q|[Q|[Q|[]]]]]; discriminate).
  apply (laid_encapsulation unpack false packed [0; 0] _ (sec_data packed) [raw [1; 2]; raw [3]]
    [version; Sec 0x19 MNone [8; 9] 10]).
  - repeat split; reflexivity.
  - left. reflexivity.
  - left. reflexivity.
  - reflexivity.
  - apply (laid_plain unpack false (raw [1; 2]) [0; 0] (section_bytes false (raw [3]) ++ [] ++ []) [raw [3]]); try discriminate; try reflexivity.
    + repeat split; try reflexivity. exact NI.
    + left. reflexivity.
    + apply (laid_plain unpack false (raw [3]) [] [] []); try discriminate; try reflexivity.
      * repeat split; try reflexivity. exact NI.
      * right. split; [reflexivity|]. discriminate.
      * apply laid_end. reflexivity.
  - apply (laid_plain unpack false version [0; 0] (section_bytes true (Sec 0x19 MNone [8; 9] 10) ++ [] ++ []) [Sec 0x19 MNone [8; 9] 10]); try discriminate; try reflexivity.
    + repeat split; reflexivity.
    + left. reflexivity.
    + apply (laid_plain unpack true (Sec 0x19 MNone [8; 9] 10) [] [] []); try discriminate; try reflexivity.
      * repeat split; try reflexivity. exact NI.
      * right. split; [reflexivity|]. discriminate.
      * apply laid_end. reflexivity.
Qed.

(** Without an extractor the same bytes are three sections. *)
Example demo_laid_flat : laid_out null_extractor
  (section_bytes false packed ++ [0; 0] ++ section_bytes false version ++ [])
  [packed; version].
Proof.
  apply (laid_encapsulation null_extractor false packed [0; 0] _ [] [] [version]).
  - repeat split; reflexivity.
  - left. reflexivity.
  - left. reflexivity.
  - reflexivity.
  - apply laid_end. reflexivity.
  - apply (laid_plain null_extractor false version [] [] []); try discriminate; try reflexivity.
    + repeat split; reflexivity.
    + right. split; [reflexivity|]. discriminate.
    + apply laid_end. reflexivity.
Qed.

(** An extractor that refuses what it does not know. *)
Definition picky : extractor := fun s => if sec_size s =? 22 then Ok (sec_data s) else Err (Other 3).
Definition outer : section := Sec 0x01 (MCompression 40 0) (section_bytes false packed) 31.
Example demo_laid_until : laid_until picky (section_bytes false packed ++ [0; 0] ++ section_bytes false outer ++ [1; 2; 3])
  [packed; raw [1; 2]; raw [3]; outer] (Other 3).
Proof.
  assert (NI : ~ In 0x19 [0x01; 0x02; 0x14; 0x18]) by (cbn; intros [Q|[Q|[Q|[Q|[]]]]]; discriminate).
  apply (until_encapsulation picky false packed [0; 0] _ (sec_data packed) [raw [1; 2]; raw [3]] [outer]).
  - repeat split; reflexivity.
  - left. reflexivity.
  - reflexivity.
  - reflexivity.
  - apply (laid_plain picky false (raw [1; 2]) [0; 0] (section_bytes false (raw [3]) ++ [] ++ []) [raw [3]]); try discriminate; try reflexivity.
    + repeat split; try reflexivity. exact NI.
    + left. reflexivity.
    + apply (laid_plain picky false (raw [3]) [] [] []); try discriminate; try reflexivity.
      * repeat split; try reflexivity. exact NI.
      * right. split; [reflexivity|]. discriminate.
      * apply laid_end. reflexivity.
  - apply until_refused; [repeat split; reflexivity|left; reflexivity|reflexivity].
Qed.

Example demo_header_change : exists f, file_new (file_bytes demo_large) = Ok f /\ pf_header f = 32 /\
  file_new (altered (file_bytes demo_large) 26 1) = Err VolumeCorrupted.
Proof. eexists. split; [vm_compute; reflexivity|]. split; [reflexivity|vm_compute; reflexivity]. Qed.

Print Assumptions pi_volume_read_partial.
Print Assumptions pi_sections_read.
Print Assumptions pi_bad_file_reported.
Print Assumptions pi_section_errors.
Print Assumptions pi_accepted_volume.
Print Assumptions pi_files_reported_are_there.
Print Assumptions pi_header_change_caught.
Print Assumptions pi_volume_never_panics.
Print Assumptions pi_first_region_blocks.
Print Assumptions pi_block_sizes_partial.
Print Assumptions pi_second_region_refuted.
Print Assumptions pi_checksum_refuted.
Print Assumptions pi_section_length_refuted.
Print Assumptions pi_vendor_section_refuted.
Print Assumptions pi_vendor_section_loop_refuted.
Print Assumptions pi_short_file_refuted.
Print Assumptions pi_empty_file_loop_refuted.
Print Assumptions pi_files_past_the_end_refuted.
Print Assumptions pi_volume_end_refuted.
