(** What extractors give. *)
From Verif Require Import Base.Prelude Base.Bytes Extract.Model Extract.Spec.
From Coq Require Import Lia ZifyBool ZifyNat ZifyN.
Local Open Scope N_scope.

(** C93: a section with a checksum is extracted exactly if the four bytes of its header are the checksum of its content; the result is the content. *)
Theorem c93_crc : forall crc s d, crc_extract crc s = Ok d <-> s_guid s = Some CRC32 /\ length (s_extra s) = 4%nat /\ s_content s = Ok d /\ le_val (s_extra s) = crc d.
Proof.
  intros crc s d. unfold crc_extract, is_guid. destruct (s_guid s) as [g|]; [|split; [discriminate | intros (X & _); discriminate]]. destruct (g =? CRC32) eqn:G; [apply N.eqb_eq in G; subst g | split; [discriminate | intros (X & _); exfalso; assert (g = CRC32) by congruence; subst; rewrite N.eqb_refl in G; discriminate]].
  destruct (Nat.ltb (length (s_extra s)) 4) eqn:L; [split; [discriminate | intros (_ & X & _); lia]|]. destruct (Nat.eqb (length (s_extra s)) 4) eqn:L4; cbn [negb]; [|split; [discriminate | intros (_ & X & _); lia]].
  destruct (s_content s) as [c|e|]; cbn [bind]; [| split; [discriminate | intros (_ & _ & X & _); discriminate] | split; [discriminate | intros (_ & _ & X & _); discriminate]].
  destruct (le_val (s_extra s) =? crc c) eqn:E; cbn [negb].
  - split; [intros H; assert (c = d) by congruence; subst; repeat split; lia | intros (_ & _ & X & _); congruence].
  - split; [discriminate|]. intros (_ & _ & X & Y). assert (c = d) by congruence. subst. lia.
Qed.
(** C93: content that was changed is refused if the checksum shows it. *)
Theorem c93_crc_detects : forall crc s c, s_guid s = Some CRC32 -> length (s_extra s) = 4%nat -> s_content s = Ok c -> le_val (s_extra s) <> crc c -> crc_extract crc s = Err DataCorrupt.
Proof.
  intros crc s c G L C N. unfold crc_extract, is_guid. rewrite G, L, C, N.eqb_refl. change (Nat.ltb 4 4) with false. change (Nat.eqb 4 4) with true. cbn [negb bind]. destruct (_ =? crc c) eqn:E; [lia|]. reflexivity.
Qed.
(** Not so: that a malformed section is an error.  With a longer header it is a panic. *)
Theorem c93_crc_refuted : forall crc s, s_guid s = Some CRC32 -> (4 < length (s_extra s))%nat -> crc_extract crc s = Panic.
Proof.
  intros crc s G L. unfold crc_extract, is_guid. rewrite G, N.eqb_refl. destruct (Nat.ltb _ 4) eqn:A; [lia|]. destruct (Nat.eqb _ 4) eqn:B; [lia|]. reflexivity.
Qed.
(** C93: a Brotli section whose size is that of the stream's output gives the output. *)
Theorem c93_brotli : forall mem decode s scratch stream data out, s_guid s = Some BROTLI -> s_content s = Ok data -> brotli_section (N.of_nat (length out)) scratch stream data -> decode stream = Some out ->
  N.of_nat (length out) <= mem -> brotli_extract mem decode s = Ok out.
Proof.
  intros mem decode s scratch stream data out G C (SZ & SC & ->) D M. unfold brotli_extract, is_guid. rewrite G, N.eqb_refl, C. cbn [bind].
  assert (L8 : forall x, length (le_bytes 8 x) = 8%nat) by (intros; apply le_bytes_length). destruct (Nat.ltb _ 16) eqn:L; [rewrite !app_length, L8, SC in L; lia|].
  assert (F : firstn 8 (le_bytes 8 (N.of_nat (length out)) ++ scratch ++ stream) = le_bytes 8 (N.of_nat (length out))) by (rewrite firstn_app, L8, Nat.sub_diag, firstn_O, app_nil_r; apply firstn_all2; rewrite L8; lia).
  assert (K : skipn 16 (le_bytes 8 (N.of_nat (length out)) ++ scratch ++ stream) = stream).
  { rewrite app_assoc, skipn_app, skipn_all2 by (rewrite app_length, L8, SC; lia). rewrite app_length, L8, SC. reflexivity. }
  rewrite F, K, le_val_bytes by exact SZ. rewrite D. destruct (mem <? _) eqn:MM; [lia|]. rewrite N.leb_refl. rewrite Nnat.Nat2N.id, Nat.sub_diag. cbn [repeat]. rewrite app_nil_r. reflexivity.
Qed.
(** C93: what a Brotli section gives has the size it claims, and begins with the stream's output. *)
Theorem c93_brotli_size : forall mem decode s d, brotli_extract mem decode s = Ok d -> exists data out rest, s_guid s = Some BROTLI /\ s_content s = Ok data /\ decode (skipn 16 data) = Some out /\ d = out ++ rest /\ zeros rest /\ N.of_nat (length d) = le_val (firstn 8 data).
Proof.
  intros mem decode s d H. unfold brotli_extract, is_guid in H. destruct (s_guid s) as [g|] eqn:G; [|discriminate]. destruct (g =? BROTLI) eqn:E; [|discriminate]. apply N.eqb_eq in E. subst g. destruct (s_content s) as [data|e|] eqn:C; try discriminate. cbn [bind] in H.
  destruct (Nat.ltb _ 16); [discriminate|]. cbv zeta in H. destruct (mem <? _); [discriminate|]. destruct (decode (skipn 16 data)) as [out|] eqn:D; [|discriminate]. destruct (_ <=? _) eqn:L; [|discriminate].
  exists data, out, (repeat 0 (N.to_nat (le_val (firstn 8 data)) - length out)). assert (DD : d = out ++ repeat 0 (N.to_nat (le_val (firstn 8 data)) - length out)) by congruence.
  repeat split; try assumption; try reflexivity; [unfold zeros; apply Forall_forall; intros x X; apply repeat_spec in X; exact X|]. rewrite DD, app_length, repeat_length. lia.
Qed.
(** Not so: that a section that claims more than its stream gives is refused.  The rest is zeros. *)
Theorem c93_brotli_padding_refuted : forall mem decode s scratch stream data out n, (0 < n)%nat -> s_guid s = Some BROTLI -> s_content s = Ok data -> brotli_section (N.of_nat (length out + n)) scratch stream data -> decode stream = Some out ->
  N.of_nat (length out + n) <= mem -> brotli_extract mem decode s = Ok (out ++ repeat 0 n).
Proof.
  intros mem decode s scratch stream data out n N G C (SZ & SC & ->) D M. unfold brotli_extract, is_guid. rewrite G, N.eqb_refl, C. cbn [bind].
  assert (L8 : forall x, length (le_bytes 8 x) = 8%nat) by (intros; apply le_bytes_length). destruct (Nat.ltb _ 16) eqn:L; [rewrite !app_length, L8, SC in L; lia|].
  assert (F : firstn 8 (le_bytes 8 (N.of_nat (length out + n)) ++ scratch ++ stream) = le_bytes 8 (N.of_nat (length out + n))) by (rewrite firstn_app, L8, Nat.sub_diag, firstn_O, app_nil_r; apply firstn_all2; rewrite L8; lia).
  assert (K : skipn 16 (le_bytes 8 (N.of_nat (length out + n)) ++ scratch ++ stream) = stream).
  { rewrite app_assoc, skipn_app, skipn_all2 by (rewrite app_length, L8, SC; lia). rewrite app_length, L8, SC. reflexivity. }
  rewrite F, K, le_val_bytes by exact SZ. rewrite D. destruct (mem <? _) eqn:MM; [lia|]. destruct (_ <=? _) eqn:LE; [|lia]. rewrite Nnat.Nat2N.id. do 2 f_equal. f_equal. lia.
Qed.
(** C93: an LZMA section gives what the decompressor does. *)
Theorem c93_lzma : forall mem decode s d, lzma_extract mem decode s = Ok d -> exists data, s_guid s = Some LZMA /\ s_content s = Ok data /\ decode data = Some d.
Proof.
  intros mem decode s d H. unfold lzma_extract, is_guid in H. destruct (s_guid s) as [g|] eqn:G; [|discriminate]. destruct (g =? LZMA) eqn:E; [|discriminate]. apply N.eqb_eq in E. subst g. destruct (s_content s) as [data|e|] eqn:C; try discriminate. cbn [bind] in H.
  destruct (Nat.ltb _ 13); [discriminate|]. cbv zeta in H. destruct (negb _ && _); [discriminate|]. destruct (decode data) as [out|] eqn:D; [|discriminate]. exists data. repeat split; try assumption. congruence.
Qed.
(** … whenever the section has a header, and there is memory for the size it claims, if it claims one. *)
Theorem c93_lzma_all : forall mem decode s data, s_guid s = Some LZMA -> s_content s = Ok data -> (13 <= length data)%nat -> (le_val (firstn 8 (skipn 5 data)) = 2 ^ 64 - 1 \/ le_val (firstn 8 (skipn 5 data)) <= mem) ->
  lzma_extract mem decode s = match decode data with Some d => Ok d | None => Err DataCorrupt end.
Proof.
  intros mem decode s data G C L M. unfold lzma_extract, is_guid. rewrite G, N.eqb_refl, C. cbn [bind]. destruct (Nat.ltb _ 13) eqn:A; [lia|]. cbv zeta. destruct (negb _ && _) eqn:B; [lia|]. reflexivity.
Qed.
(** Not so: that a section too short for its header, or that claims more than there is memory for, is an error: panics. *)
Theorem c93_short_refuted : forall mem decode s data, s_content s = Ok data ->
  (s_guid s = Some BROTLI -> (length data < 16)%nat \/ mem < le_val (firstn 8 data) -> brotli_extract mem decode s = Panic)
  /\ (s_guid s = Some LZMA -> (length data < 13)%nat \/ (mem < le_val (firstn 8 (skipn 5 data)) /\ le_val (firstn 8 (skipn 5 data)) <> 2 ^ 64 - 1) -> lzma_extract mem decode s = Panic).
Proof.
  intros mem decode s data C. split; intros G H.
  - unfold brotli_extract, is_guid. rewrite G, N.eqb_refl, C. cbn [bind]. destruct (Nat.ltb _ 16) eqn:A; [reflexivity|]. cbv zeta. destruct (mem <? _) eqn:B; [reflexivity | lia].
  - unfold lzma_extract, is_guid. rewrite G, N.eqb_refl, C. cbn [bind]. destruct (Nat.ltb _ 13) eqn:A; [reflexivity|]. cbv zeta. destruct (negb _ && _) eqn:B; [reflexivity | lia].
Qed.
(** C93: the composite extractor does what the extractor for the section's GUID does, whatever the others would say; other sections are not supported. *)
Theorem c93_composite : forall mem crc brotli lzma s, s_content s <> Err Unsupported -> composite mem crc brotli lzma s =
  match s_guid s with
  | Some g => if g =? BROTLI then brotli_extract mem brotli s else if g =? CRC32 then crc_extract crc s else if g =? LZMA then lzma_extract mem lzma s else Err Unsupported
  | None => Err Unsupported
  end.
Proof.
  intros mem crc brotli lzma s C. unfold composite, brotli_extract, crc_extract, lzma_extract, is_guid. destruct (s_guid s) as [g|]; [|reflexivity].
  destruct (g =? BROTLI) eqn:B; [apply N.eqb_eq in B; subst g | destruct (g =? CRC32) eqn:R; [apply N.eqb_eq in R; subst g | destruct (g =? LZMA) eqn:Z; [apply N.eqb_eq in Z; subst g | reflexivity]]].
  - change (BROTLI =? CRC32) with false. change (BROTLI =? LZMA) with false. cbv iota. destruct (s_content s) as [d|e|]; cbn [bind or_else]; [|destruct e; [contradiction| |]; reflexivity | reflexivity].
    destruct (Nat.ltb _ 16); [reflexivity|]. cbv zeta. destruct (mem <? _); [reflexivity|]. destruct (brotli _); [destruct (_ <=? _); reflexivity | reflexivity].
  - change (CRC32 =? LZMA) with false. cbv iota. cbn [or_else]. destruct (Nat.ltb _ 4); [reflexivity|]. destruct (negb (Nat.eqb _ 4)); [reflexivity|]. destruct (s_content s) as [d|e|]; cbn [bind or_else]; [|destruct e; [contradiction| |]; reflexivity | reflexivity].
    destruct (negb _); reflexivity.
  - cbn [or_else]. destruct (s_content s) as [d|e|]; cbn [bind or_else]; [|destruct e; [contradiction| |]; reflexivity | reflexivity]. destruct (Nat.ltb _ 13); [reflexivity|]. cbv zeta. destruct (negb _ && _); [reflexivity|]. destruct (lzma d); reflexivity.
Qed.

(** ** Cases *)

Example demo_crc : crc_extract (fun l => N.of_nat (length l)) (Sect (Some CRC32) [3; 0; 0; 0] (Ok [7; 8; 9])) = Ok [7; 8; 9] /\ crc_extract (fun l => N.of_nat (length l)) (Sect (Some CRC32) [2; 0; 0; 0] (Ok [7; 8; 9])) = Err DataCorrupt.
Proof. split; reflexivity. Qed.
Example demo_composite : composite 100 (fun _ => 0) (fun _ => Some [5; 6]) (fun _ => None) (Sect (Some BROTLI) [] (Ok (le_bytes 8 2 ++ le_bytes 8 0 ++ [1]))) = Ok [5; 6].
Proof. reflexivity. Qed.

Print Assumptions c93_crc.
Print Assumptions c93_crc_detects.
Print Assumptions c93_crc_refuted.
Print Assumptions c93_brotli.
Print Assumptions c93_brotli_size.
Print Assumptions c93_brotli_padding_refuted.
Print Assumptions c93_lzma.
Print Assumptions c93_lzma_all.
Print Assumptions c93_short_refuted.
Print Assumptions c93_composite.
