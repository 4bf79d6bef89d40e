(** Sections: writing then reading, reading then writing. *)
From Verif Require Import Base.Prelude Base.Bytes Align.Model Align.Proofs Ffs.Model Ffs.Spec.
Local Open Scope N_scope.

(** ** Byte lists *)
Lemma blen_app : forall (a b : list N), blen (a ++ b) = blen a + blen b.
Proof. intros. unfold blen. rewrite app_length. lia. Qed.
Lemma blen_cons : forall x (a : list N), blen (x :: a) = 1 + blen a.
Proof. intros. unfold blen. cbn [length]. lia. Qed.
Lemma blen_nil : blen (@nil N) = 0.
Proof. reflexivity. Qed.
Lemma blen_le : forall w v, blen (le_bytes w v) = N.of_nat w.
Proof. intros. unfold blen. now rewrite le_bytes_length. Qed.
Lemma blen_repeat : forall (x : N) n, blen (repeat x (N.to_nat n)) = n.
Proof. intros. unfold blen. rewrite repeat_length. lia. Qed.
Ltac bl := repeat (rewrite ?blen_app, ?blen_cons, ?blen_nil, ?blen_le, ?blen_repeat in * ).

Lemma skipn_skipn : forall (x y : nat) (l : list N), skipn x (skipn y l) = skipn (x + y) l.
Proof.
  intros x y. revert x. induction y as [|y IH]; intros x l; [now rewrite Nat.add_0_r|].
  destruct l; [now rewrite !skipn_nil|]. rewrite Nat.add_succ_r. cbn [skipn]. apply IH.
Qed.
Lemma skipn_pre : forall (a b : list N) o, blen a = o -> skipn (N.to_nat o) (a ++ b) = b.
Proof. intros a b o <-. unfold blen. rewrite Nat2N.id. apply skipn_app_exact. Qed.
Lemma skipn_pre' : forall (a b : list N) o k, blen a = o -> skipn (N.to_nat (o + k)) (a ++ b) = skipn (N.to_nat k) b.
Proof.
  intros a b o k H. replace (N.to_nat (o + k)) with (N.to_nat k + N.to_nat o)%nat by lia.
  rewrite <- skipn_skipn. now rewrite (skipn_pre a b o H).
Qed.
Lemma firstn_here : forall (a b : list N) n, blen a = n -> firstn (N.to_nat n) (a ++ b) = a.
Proof. intros a b n <-. unfold blen. rewrite Nat2N.id. apply firstn_app_exact. Qed.
Lemma bytes_at_pre : forall a b o k n, blen a = o -> bytes_at (a ++ b) (o + k) n = bytes_at b k n.
Proof. intros a b o k n H. unfold bytes_at. now rewrite skipn_pre'. Qed.
Lemma bytes_at_pre0 : forall a b o n, blen a = o -> bytes_at (a ++ b) o n = bytes_at b 0 n.
Proof. intros a b o n H. rewrite <- (N.add_0_r o) at 1. now apply bytes_at_pre. Qed.
Lemma bytes_at_here : forall a b n, blen a = n -> bytes_at (a ++ b) 0 n = a.
Proof. intros a b n H. unfold bytes_at. cbn [N.to_nat skipn]. now apply firstn_here. Qed.
Lemma rd_bytes : forall l o w, rd l o w = le_val (bytes_at l o (N.of_nat w)).
Proof. intros. unfold rd, le_at, bytes_at. now rewrite Nat2N.id. Qed.
Lemma rd_pre : forall a b o k w, blen a = o -> rd (a ++ b) (o + k) w = rd b k w.
Proof. intros. rewrite !rd_bytes. now rewrite (bytes_at_pre a b o k). Qed.
Lemma rd_pre0 : forall a b o w, blen a = o -> rd (a ++ b) o w = rd b 0 w.
Proof. intros a b o w H. rewrite <- (N.add_0_r o) at 1. now apply rd_pre. Qed.
Lemma rd_here : forall w v b, v < 256 ^ N.of_nat w -> rd (le_bytes w v ++ b) 0 w = v.
Proof. intros w v b H. rewrite rd_bytes. rewrite bytes_at_here by apply blen_le. now apply le_val_bytes. Qed.
Lemma rd_byte : forall x b, rd (x :: b) 0 1 = x.
Proof. intros. rewrite rd_bytes. change (bytes_at (x :: b) 0 (N.of_nat 1)) with [x]. cbn [le_val]. rewrite N.mul_0_r. apply N.add_0_r. Qed.

Lemma slice_mid : forall a b c o e, blen a = o -> blen a + blen b = e -> slice (a ++ b ++ c) o e = Ok b.
Proof.
  intros a b c o e <- <-. unfold slice. bl. rewrite (proj2 (N.leb_le _ _)) by lia. rewrite (proj2 (N.leb_le _ _)) by lia. cbn [andb].
  rewrite skipn_pre by reflexivity. replace (blen a + blen b - blen a) with (blen b) by lia. now rewrite firstn_here.
Qed.
Lemma bytes_at_len : forall l o n, o + n <= blen l -> blen (bytes_at l o n) = n.
Proof. intros l o n H. unfold bytes_at, blen in *. rewrite firstn_length, skipn_length. lia. Qed.
Lemma bytes_at_ok : forall l o n, bytes_ok l -> bytes_ok (bytes_at l o n).
Proof.
  intros l o n H. unfold bytes_at, bytes_ok in *. rewrite Forall_forall in *. intros x I. apply H.
  assert (I2 : In x (skipn (N.to_nat o) l)) by (rewrite <- (firstn_skipn (N.to_nat n)); apply in_or_app; now left).
  rewrite <- (firstn_skipn (N.to_nat o)). apply in_or_app. now right.
Qed.
Lemma bytes_split : forall l o n, o + n <= blen l -> skipn (N.to_nat o) l = bytes_at l o n ++ skipn (N.to_nat (o + n)) l.
Proof.
  intros l o n H. unfold bytes_at. replace (N.to_nat (o + n)) with (N.to_nat n + N.to_nat o)%nat by lia. rewrite <- skipn_skipn.
  symmetry. apply firstn_skipn.
Qed.
Lemma slice_inv : forall l a b d, slice l a b = Ok d -> a <= b /\ b <= blen l /\ d = bytes_at l a (b - a).
Proof.
  intros l a b d H. unfold slice in H. destruct (N.leb_spec a b); [|discriminate]. destruct (N.leb_spec b (blen l)); [|discriminate].
  injection H as <-. auto.
Qed.
Lemma rd_lt : forall l o w, bytes_ok l -> rd l o w < 256 ^ N.of_nat w.
Proof.
  intros l o w H. rewrite rd_bytes. eapply N.lt_le_trans; [apply le_val_bound; now apply bytes_at_ok|].
  apply N.pow_le_mono_r; [lia|]. unfold bytes_at. rewrite firstn_length. lia.
Qed.
Lemma rd_le : forall l o w, bytes_ok l -> o + N.of_nat w <= blen l -> le_bytes w (rd l o w) = bytes_at l o (N.of_nat w).
Proof.
  intros l o w H L. rewrite rd_bytes. pose proof (bytes_at_len l o (N.of_nat w) L) as E. unfold blen in E. apply Nat2N.inj in E.
  rewrite <- E at 1. apply le_bytes_val. now apply bytes_at_ok.
Qed.

(** ** One section, written then read *)
Lemma own_header_data : forall off h, fields_ok off h -> blen (header_data h) = own_header_len h.
Proof.
  intros off h H. destruct h as [n|ty n|z n|g items n|v n|gu n]; cbn [header_data own_header_len fields_ok] in *; bl; try reflexivity.
  - destruct H as (H & _). unfold blen at 1. rewrite H. lia.
  - destruct H as (H & _). unfold blen. now rewrite H.
Qed.

Lemma content_from_ok : forall dbg size x n, size = x + n -> n < 2 ^ 32 -> content_from dbg size x = Ok n.
Proof.
  intros dbg size x n -> H. unfold content_from, usub, to_u32. rewrite (proj2 (N.leb_le _ _)) by lia. cbn [bind].
  replace (x + n - x) with n by lia. change two32 with (2 ^ 32). now rewrite (proj2 (N.ltb_lt _ _) H).
Qed.

Lemma finish_ok : forall a c rest h o e, blen a = o -> e = o + blen c -> finish_section (a ++ c ++ rest) h o e = Ok (unread h c).
Proof. intros a c rest h o e H ->. unfold finish_section. rewrite (slice_mid a c rest o) by lia. reflexivity. Qed.

Lemma size_content : forall h, size_of h = content_size h.
Proof. destruct h; reflexivity. Qed.

Lemma parse_typed_ok : forall dbg pre h c rest off, blen pre = off -> fields_ok off h -> size_of h = blen c -> blen c < 2 ^ 32 ->
  parse_typed dbg (pre ++ header_data h ++ c ++ rest) (section_type_raw h) (off + own_header_len h + blen c) off = Ok (unread h c).
Proof.
  intros dbg pre h c rest off P F S C. unfold parse_typed.
  destruct h as [n|ty n|z n|g items n|v n|gu n]; cbn [fields_ok size_of section_type_raw own_header_len] in *; subst n.
  - contradiction.
  - cbn [header_data app]. destruct F as (F1 & F2). unfold special_types in F2. cbn [In] in F2.
    unfold COMPRESSION, GUID_DEFINED, VERSION, FREEFORM_SUBTYPE_GUID.
    destruct (N.eqb_spec ty 1); [exfalso; apply F2; auto|]. destruct (N.eqb_spec ty 2); [exfalso; apply F2; auto|].
    destruct (N.eqb_spec ty 0x14); [exfalso; apply F2; auto|]. destruct (N.eqb_spec ty 0x18); [exfalso; apply F2; auto|].
    rewrite (content_from_ok dbg _ off (blen c)) by lia. cbn [bind]. rewrite (finish_ok pre c rest _ off) by lia. reflexivity.
  - change (COMPRESSION =? COMPRESSION) with true. cbn [header_data]. cbv iota. destruct z as [u t]. cbn [uncompressed_length compression_type] in *.
    rewrite <- !app_assoc. bl. rewrite (proj2 (N.ltb_ge _ _)) by lia.
    rewrite (content_from_ok dbg _ (off + 5) (blen c)) by lia. cbn [bind].
    rewrite (rd_pre0 pre) by exact P. rewrite (rd_pre pre _ off 4) by exact P. rewrite rd_here by lia.
    rewrite (rd_pre0 (le_bytes 4 u)) by apply blen_le. cbn [app]. rewrite rd_byte.
    change (t :: c ++ rest) with ([t] ++ c ++ rest). rewrite (app_assoc (le_bytes 4 u)), (app_assoc pre).
    rewrite (finish_ok _ c rest _ (off + 5)); [reflexivity|bl; lia|lia].
  - change (GUID_DEFINED =? COMPRESSION) with false. change (GUID_DEFINED =? GUID_DEFINED) with true. cbv iota.
    destruct g as [gu dof ga]. cbn [section_definition_guid data_offset gd_attributes header_data] in *.
    destruct F as (F1 & F2 & F3 & F4 & F5 & F6). assert (G : blen gu = 16) by (unfold blen; now rewrite F1).
    rewrite <- !app_assoc. rewrite (proj2 (N.ltb_ge _ _)) by (bl; lia).
    rewrite (bytes_at_pre0 pre) by exact P. rewrite bytes_at_here by exact G.
    rewrite (rd_pre pre _ off 16), (rd_pre pre _ off 18) by exact P. rewrite (rd_pre0 gu) by exact G.
    rewrite rd_here by lia. change 18 with (16 + 2) at 1. rewrite (rd_pre gu) by exact G.
    rewrite (rd_pre0 (le_bytes 2 dof)) by apply blen_le. rewrite rd_here by lia.
    rewrite (proj2 (N.ltb_ge _ _)) by (bl; lia).
    rewrite (app_assoc (le_bytes 2 dof)), (app_assoc gu), (app_assoc pre).
    rewrite (slice_mid _ items (c ++ rest)); [|bl; lia|bl; lia]. cbn [bind].
    rewrite (content_from_ok dbg _ dof (blen c)) by lia. cbn [bind].
    rewrite (app_assoc _ items). rewrite (finish_ok _ c rest _ dof); [reflexivity|bl; lia|lia].
  - change (VERSION =? COMPRESSION) with false. change (VERSION =? GUID_DEFINED) with false. change (VERSION =? VERSION) with true. cbv iota.
    cbn [header_data]. bl. rewrite (proj2 (N.ltb_ge _ _)) by lia.
    rewrite (content_from_ok dbg _ (off + 2) (blen c)) by lia. cbn [bind].
    rewrite (rd_pre0 pre) by exact P. rewrite rd_here by lia.
    rewrite (app_assoc pre). rewrite (finish_ok _ c rest _ (off + 2)); [reflexivity|bl; lia|lia].
  - change (FREEFORM_SUBTYPE_GUID =? COMPRESSION) with false. change (FREEFORM_SUBTYPE_GUID =? GUID_DEFINED) with false.
    change (FREEFORM_SUBTYPE_GUID =? VERSION) with false. change (FREEFORM_SUBTYPE_GUID =? FREEFORM_SUBTYPE_GUID) with true. cbv iota.
    cbn [header_data]. destruct F as (F1 & F2). assert (G : blen gu = 16) by (unfold blen; now rewrite F1).
    rewrite (proj2 (N.ltb_ge _ _)) by (bl; lia).
    rewrite (content_from_ok dbg _ (off + 16) (blen c)) by lia. cbn [bind].
    rewrite (bytes_at_pre0 pre) by exact P. rewrite bytes_at_here by exact G.
    rewrite (app_assoc pre). rewrite (finish_ok _ c rest _ (off + 16)); [reflexivity|bl; lia|lia].
Qed.

Lemma all_ff_size : forall x, x < 2 ^ 24 -> x <> 0xFFFFFF -> forallb (N.eqb 0xff) (le_bytes 3 x) = false.
Proof.
  intros x H N. apply not_true_iff_false. intros E. rewrite forallb_forall in E. apply N.
  assert (L : le_val (le_bytes 3 x) = x) by (apply le_val_bytes; exact H). rewrite <- L. cbn [le_bytes le_val] in *.
  assert (A : 0xff = x mod 256) by (apply N.eqb_eq, E; left; reflexivity).
  assert (B : 0xff = x / 256 mod 256) by (apply N.eqb_eq, E; right; left; reflexivity).
  assert (C : 0xff = x / 256 / 256 mod 256) by (apply N.eqb_eq, E; right; right; left; reflexivity).
  rewrite <- A, <- B, <- C. reflexivity.
Qed.

(** The common header of a written section, and what the reader makes of it. *)
Definition common (h : sheader) (c : list N) : list N :=
  if short_len h c <? 2 ^ 24 then le_bytes 3 (short_len h c) ++ [section_type_raw h]
  else [0xff; 0xff; 0xff] ++ [section_type_raw h] ++ le_bytes 4 (disk_len h c).

Lemma common_blen : forall h c, blen (common h c) = common_len h c.
Proof. intros h c. unfold common, common_len. destruct (_ <? _); bl; reflexivity. Qed.

Lemma serialize_header_ok : forall dbg h c, fields_ok (common_len h c) h -> size_of h = blen c -> disk_len h c < 2 ^ 32 ->
  serialize_header dbg h = Ok (common h c ++ header_data h).
Proof.
  intros dbg h c F S D. pose proof (own_header_data _ _ F) as O. unfold serialize_header, common.
  destruct h; [destruct F|..]; rewrite O, <- size_content, S; fold (short_len (HStandard 0 0) c);
  match goal with |- context [4 + own_header_len ?h + blen c] => change (4 + own_header_len h + blen c) with (short_len h c) end;
  change MAX_STANDARD_SECTION_SIZE with (2 ^ 24);
  match goal with |- context [short_len ?h c <? 2 ^ 24] =>
    assert (DL : (short_len h c <? 2 ^ 24) = false -> disk_len h c = short_len h c + 4)
      by (intros E; unfold disk_len, common_len, short_len in *; rewrite E; lia);
    destruct (short_len h c <? 2 ^ 24) end;
  try (f_equal; rewrite <- ?app_assoc; reflexivity);
  specialize (DL eq_refl); rewrite (N.mod_small (short_len _ c) two32) by (unfold two32; lia); rewrite <- DL;
  (rewrite (proj2 (N.leb_gt two32 (disk_len _ c))) by (unfold two32; lia)); rewrite andb_false_r;
  rewrite N.mod_small by (unfold two32; lia); f_equal; rewrite <- ?app_assoc; reflexivity.
Qed.

Lemma read_size_ok : forall h c rest, disk_len h c < 2 ^ 32 -> short_len h c <> 0xFFFFFF ->
  read_size (common h c ++ rest) = Ok (disk_len h c, common_len h c).
Proof.
  intros h c rest D N. unfold read_size, common. 
  destruct (N.ltb_spec (short_len h c) (2 ^ 24)) as [L|L].
  - rewrite <- app_assoc. rewrite bytes_at_here by apply blen_le. rewrite all_ff_size by assumption.
    rewrite le_val_bytes by exact L. unfold disk_len, common_len. rewrite (proj2 (N.ltb_lt _ _) L). reflexivity.
  - rewrite <- !app_assoc. change (bytes_at ([255; 255; 255] ++ _) 0 3) with [255; 255; 255].
    change (forallb (N.eqb 255) [255; 255; 255]) with true. cbv iota. bl.
    rewrite (proj2 (N.ltb_ge _ _)) by lia. 
    rewrite (app_assoc [255; 255; 255]). change ([255; 255; 255] ++ [section_type_raw h]) with [255; 255; 255; section_type_raw h].
    rewrite (rd_pre0 [255; 255; 255; section_type_raw h]) by reflexivity. rewrite rd_here by exact D.
    unfold common_len. rewrite (proj2 (N.ltb_ge _ _) L). reflexivity.
Qed.

Lemma type_at_3 : forall h c rest, rd (common h c ++ rest) 3 1 = section_type_raw h.
Proof.
  intros h c rest. unfold common. destruct (_ <? _); rewrite <- ?app_assoc.
  - rewrite (rd_pre0 (le_bytes 3 _)) by apply blen_le. apply rd_byte.
  - rewrite (rd_pre0 [255; 255; 255]) by reflexivity. apply rd_byte.
Qed.

Lemma unread_header : forall h c, s_header (unread h c) = h.
Proof. reflexivity. Qed.
Lemma unread_bytes : forall h c, s_bytes (unread h c) = c.
Proof. intros h c; destruct h; reflexivity. Qed.
Lemma unread_clean : forall h c, dirty (unread h c) = false.
Proof. intros h c; destruct h; reflexivity. Qed.
Lemma unread_subs : forall h c, s_subs (unread h c) = [].
Proof. intros h c; destruct h; reflexivity. Qed.

Definition image (s : section) : list N := common (s_header s) (s_bytes s) ++ header_data (s_header s) ++ s_bytes s.

Lemma image_len : forall s, writable s -> blen (image s) = disk_len (s_header s) (s_bytes s).
Proof.
  intros s (_ & _ & _ & F & _). unfold image. bl. rewrite common_blen, (own_header_data _ _ F). unfold disk_len. lia.
Qed.

Lemma serialize_ok : forall dbg s, writable s -> serialize_section dbg s = Ok (image s).
Proof.
  intros dbg s (D & S & B & F & L & _). unfold serialize_section. rewrite D.
  rewrite (serialize_header_ok dbg _ (s_bytes s)) by assumption. cbn [bind]. unfold image. now rewrite app_assoc.
Qed.

Lemma disk_len_parts : forall h c, disk_len h c = common_len h c + own_header_len h + blen c.
Proof. reflexivity. Qed.
Lemma common_len_4 : forall h c, 4 <= common_len h c.
Proof. intros. unfold common_len. destruct (_ <? _); lia. Qed.

Lemma parse_image : forall dbg s rest, writable s -> new_from_buffer dbg (image s ++ rest) = Ok (unread (s_header s) (s_bytes s)).
Proof.
  intros dbg s rest W. pose proof (image_len s W) as IL. destruct W as (D & S & B & F & L & N).
  pose proof (common_len_4 (s_header s) (s_bytes s)) as C4. pose proof (disk_len_parts (s_header s) (s_bytes s)) as DP.
  unfold new_from_buffer. rewrite (proj2 (N.ltb_ge (blen (image s ++ rest)) 4)) by (rewrite blen_app, IL; lia).
  unfold image. rewrite <- !app_assoc. rewrite read_size_ok by assumption. cbn [bind].
  rewrite (proj2 (N.ltb_ge _ _)).
  2: { bl. rewrite common_blen, (own_header_data _ _ F). lia. }
  rewrite type_at_3. rewrite DP. apply parse_typed_ok; [apply common_blen|assumption|assumption|]. 
  unfold disk_len in L. lia.
Qed.

Lemma size_unread : forall dbg s, writable s -> section_size dbg (unread (s_header s) (s_bytes s)) = Ok (blen (image s)).
Proof.
  intros dbg s W. rewrite (image_len s W). destruct W as (D & S & B & F & L & N). unfold section_size. rewrite unread_clean, unread_header.
  unfold total_section_size. rewrite (serialize_header_ok dbg _ (s_bytes s)) by assumption. cbn [bind]. bl.
  rewrite common_blen, (own_header_data _ _ F), <- size_content, S. reflexivity.
Qed.

(** ** Lists of sections *)
Definition pad_of (m n : N) : N := if n mod m =? 0 then 0 else m - n mod m.

Lemma align_up_pad : forall n k, 0 < k -> n + 2 ^ k <= two64 -> align_up 64 n (2 ^ k) = Ok (n + pad_of (2 ^ k) n).
Proof.
  intros n k K H. assert (P : 2 ^ k <> 0) by (apply N.pow_nonzero; lia).
  rewrite align_up_eq. unfold pad_of. pose proof (N.div_mod n (2 ^ k) P). pose proof (N.mod_lt n (2 ^ k) P).
  destruct (N.eqb_spec (n mod 2 ^ k) 0); [f_equal; lia|].
  replace (n / 2 ^ k * 2 ^ k + 2 ^ k) with (n + (2 ^ k - n mod 2 ^ k)) by lia.
  change (2 ^ 64) with two64. destruct (N.ltb_spec (n + (2 ^ k - n mod 2 ^ k)) two64); [reflexivity|]. exfalso. lia.
Qed.

Lemma pad4_pad : forall l, pad4 l = l ++ repeat 0 (N.to_nat (pad_of 4 (blen l))).
Proof. reflexivity. Qed.
Lemma pad_of_mod : forall m n, 0 < m -> (n + pad_of m n) mod m = 0.
Proof.
  intros m n H. unfold pad_of. destruct (N.eqb_spec (n mod m) 0) as [E|E]; [now rewrite N.add_0_r|].
  pose proof (N.div_mod n m ltac:(lia)). pose proof (N.mod_lt n m ltac:(lia)).
  replace (n + (m - n mod m)) with ((n / m + 1) * m) by lia. apply N.mod_mul. lia.
Qed.
Lemma pad_of_lt : forall m n, 0 < m -> pad_of m n < m.
Proof. intros m n H. unfold pad_of. destruct (N.eqb_spec (n mod m) 0); [lia|]. pose proof (N.mod_lt n m ltac:(lia)). lia. Qed.
Lemma pad_of_add : forall m a b, 0 < m -> a mod m = 0 -> pad_of m (a + b) = pad_of m b.
Proof.
  intros m a b H E. unfold pad_of. replace ((a + b) mod m) with (b mod m); [reflexivity|].
  rewrite N.add_mod by lia. rewrite E, N.add_0_l, N.mod_mod by lia. reflexivity.
Qed.

(** The sections one after the other, each but the last padded. *)
Fixpoint joined (l : list section) : list N :=
  match l with
  | [] => []
  | [s] => image s
  | s :: l' => image s ++ repeat 0 (N.to_nat (pad_of 4 (blen (image s)))) ++ joined l'
  end.

Lemma file_content_ok : forall dbg l acc, blen acc mod 4 = 0 -> Forall writable l -> file_content dbg acc l = Ok (acc ++ joined l).
Proof.
  intros dbg. induction l as [|s l IH]; intros acc A F; cbn [file_content joined]; [now rewrite app_nil_r|].
  inversion F as [|? ? W F']; subst. rewrite (serialize_ok dbg s W). cbn [bind]. destruct l as [|s' l].
  - reflexivity.
  - rewrite IH; [|rewrite pad4_pad; bl; apply pad_of_mod; lia|exact F']. rewrite pad4_pad. rewrite <- !app_assoc. rewrite blen_app.
    rewrite pad_of_add by (auto; lia). reflexivity.
Qed.

Lemma image_ge : forall s, writable s -> 4 <= blen (image s) < 2 ^ 32.
Proof.
  intros s W. rewrite (image_len s W). destruct W as (_ & _ & _ & _ & L & _). split; [|exact L]. unfold disk_len.
  pose proof (common_len_4 (s_header s) (s_bytes s)). lia.
Qed.

Lemma collect_joined : forall dbg l pre fuel, Forall writable l -> blen pre mod 4 = 0 -> (length l < fuel)%nat ->
  collect (section_next dbg (pre ++ joined l)) fuel (blen pre) = Some (Ok (map (fun s => unread (s_header s) (s_bytes s)) l)).
Proof.
  intros dbg. induction l as [|s l IH]; intros pre fuel F A L; (destruct fuel as [|fuel]; [cbn in L; lia|]); cbn [collect].
  - unfold section_next. cbn [joined]. rewrite app_nil_r. rewrite (proj2 (N.leb_le _ _)) by lia. reflexivity.
  - inversion F as [|? ? W F']; subst. pose proof (image_ge s W) as G.
    assert (J : exists rest, joined (s :: l) = image s ++ rest).
    { cbn [joined]. destruct l; eexists; [symmetry; apply app_nil_r|reflexivity]. }
    destruct J as (rest & J).
    assert (E : section_next dbg (pre ++ joined (s :: l)) (blen pre) =
                Yield (Ok (unread (s_header s) (s_bytes s))) (Some (blen pre + (blen (image s) + pad_of 4 (blen (image s)))))).
    { unfold section_next. rewrite (proj2 (N.leb_gt _ _)) by (rewrite blen_app, J, blen_app; lia).
      rewrite skipn_pre by reflexivity. rewrite J at 1. rewrite (parse_image dbg s rest W), (size_unread dbg s W).
      change 4 with (2 ^ 2). rewrite align_up_pad by (unfold two64; lia). reflexivity. }
    rewrite E. destruct l as [|s' l].
    + destruct fuel as [|fuel]; [cbn in L; lia|]. cbn [collect joined]. unfold section_next.
      rewrite (proj2 (N.leb_le _ _)) by (rewrite blen_app; lia). reflexivity.
    + change (joined (s :: s' :: l)) with (image s ++ repeat 0 (N.to_nat (pad_of 4 (blen (image s)))) ++ joined (s' :: l)).
      rewrite (app_assoc pre), (app_assoc (pre ++ image s)).
      assert (B : blen pre + (blen (image s) + pad_of 4 (blen (image s))) =
                  blen ((pre ++ image s) ++ repeat 0 (N.to_nat (pad_of 4 (blen (image s)))))) by (bl; lia).
      rewrite B. rewrite IH; [reflexivity|exact F'| |cbn in L |- *; lia].
      rewrite <- B. rewrite N.add_mod, A, pad_of_mod by lia. reflexivity.
Qed.

Lemma sections_of_joined : forall dbg l fuel, Forall writable l -> (length l < fuel)%nat ->
  sections_of dbg fuel (joined l) = Some (Ok (map (fun s => unread (s_header s) (s_bytes s)) l)).
Proof. intros dbg l fuel F L. apply (collect_joined dbg l [] fuel F eq_refl L). Qed.
