(** Files, written and read. *)
From Verif Require Import Base.Prelude Base.Bytes Align.Model Align.Proofs Ffs.Model Ffs.Spec Ffs.SectionProofs Ffs.SectionRead.
Local Open Scope N_scope.
Local Ltac Zify.zify_post_hook ::= Z.div_mod_to_equations.

(** ** Byte sums *)
Definition total (l : list N) : N := fold_right N.add 0 l.

Lemma sum8_fold : forall l s, fold_left (fun s v => (s + v) mod 256) l (s mod 256) = (s + total l) mod 256.
Proof.
  induction l as [|x l IH]; intros s; cbn [fold_left total fold_right]; [now rewrite N.add_0_r|].
  rewrite N.add_mod_idemp_l by lia. rewrite IH. f_equal. unfold total. lia.
Qed.
Lemma sum8_total : forall l, sum8 l = total l mod 256.
Proof. intros l. apply (sum8_fold l 0). Qed.
Lemma sum8_byte_sum : forall l, sum8 l = byte_sum l.
Proof. exact sum8_total. Qed.
Lemma total_app : forall a b, total (a ++ b) = total a + total b.
Proof. induction a as [|x a IH]; intros b; cbn [app total fold_right]; [reflexivity|]. unfold total in *. rewrite IH. lia. Qed.
Lemma total_cons : forall x a, total (x :: a) = x + total a.
Proof. reflexivity. Qed.

Lemma fheader_total : forall h, total (fheader_bytes h) =
  total (fh_name h) + fh_check_header h + fh_check_file h + fh_type h + fh_attr h + total (le_bytes 3 (fh_size h)) + fh_state h.
Proof.
  intros h. unfold fheader_bytes. rewrite !total_app, !total_cons. change (total []) with 0. lia.
Qed.

Lemma sub8_zero : forall x, sub8 0 (x mod 256) < 256.
Proof. intros x. unfold sub8. apply N.mod_lt. lia. Qed.

(** A written header sums to zero without the state and the file check. *)
Lemma header_balance : forall x cf st, cf < 256 -> st < 256 ->
  sub8 (sub8 ((x + sub8 0 (x mod 256) + cf + st) mod 256) st) cf = 0.
Proof. intros x cf st H1 H2. unfold sub8. lia. Qed.

Lemma fheader_len : forall h, length (fh_name h) = 16%nat -> blen (fheader_bytes h) = 24.
Proof. intros h H. unfold fheader_bytes. bl. unfold blen. rewrite H. reflexivity. Qed.

Lemma rd_byte_pre : forall a x b o, blen a = o -> rd (a ++ x :: b) o 1 = x.
Proof. intros a x b o H. rewrite (rd_pre0 a _ o 1 H). apply rd_byte. Qed.

Lemma read_fheader_bytes : forall h rest, length (fh_name h) = 16%nat -> fh_size h < 2 ^ 24 -> read_fheader (fheader_bytes h ++ rest) = h.
Proof.
  intros [nm ck cf ty at_ sz st] rest H S. cbn [fh_name fh_size] in *. unfold read_fheader, fheader_bytes.
  cbn [fh_name fh_check_header fh_check_file fh_type fh_attr fh_size fh_state].
  assert (NL : blen nm = 16) by (unfold blen; rewrite H; reflexivity).
  rewrite <- !app_assoc. cbn [app]. f_equal.
  - now apply bytes_at_here.
  - now apply rd_byte_pre.
  - change (nm ++ ck :: cf :: ty :: at_ :: le_bytes 3 sz ++ st :: rest) with (nm ++ [ck] ++ cf :: ty :: at_ :: le_bytes 3 sz ++ st :: rest).
    rewrite app_assoc. apply rd_byte_pre. bl. lia.
  - change (nm ++ ck :: cf :: ty :: at_ :: le_bytes 3 sz ++ st :: rest) with (nm ++ [ck; cf] ++ ty :: at_ :: le_bytes 3 sz ++ st :: rest).
    rewrite app_assoc. apply rd_byte_pre. bl. lia.
  - change (nm ++ ck :: cf :: ty :: at_ :: le_bytes 3 sz ++ st :: rest) with (nm ++ [ck; cf; ty] ++ at_ :: le_bytes 3 sz ++ st :: rest).
    rewrite app_assoc. apply rd_byte_pre. bl. lia.
  - change (nm ++ ck :: cf :: ty :: at_ :: le_bytes 3 sz ++ st :: rest) with (nm ++ [ck; cf; ty; at_] ++ le_bytes 3 sz ++ st :: rest).
    rewrite app_assoc. rewrite (rd_pre0 _ _ 20) by (bl; lia). now apply rd_here.
  - change (nm ++ ck :: cf :: ty :: at_ :: le_bytes 3 sz ++ st :: rest) with (nm ++ [ck; cf; ty; at_] ++ le_bytes 3 sz ++ st :: rest).
    rewrite !app_assoc. apply rd_byte_pre. bl. lia.
Qed.

Lemma large_bit : forall a, N.land (N.lor a LARGE_FILE) LARGE_FILE = 1.
Proof. intros a. unfold LARGE_FILE. rewrite N.land_lor_distr_l. change (N.land 1 1) with 1. apply N.bits_inj. intros i. rewrite N.lor_spec, N.land_spec.
  change 1 with (2 ^ 0). rewrite N.pow2_bits_eqb. destruct (0 =? i); [now rewrite orb_true_r|]. now rewrite andb_false_r. Qed.
Lemma checksum_bit : forall a, N.land (N.lor a LARGE_FILE) CHECKSUM = N.land a CHECKSUM.
Proof. intros a. unfold LARGE_FILE, CHECKSUM. rewrite N.land_lor_distr_l. change (N.land 1 64) with 0. apply N.lor_0_r. Qed.

(** ** Reading back *)
Definition header_of (f : file) (c : list N) : list N :=
  if negb (N.land (f_attr f) LARGE_FILE =? 0) || (0xffffff - 24 <? blen c) then serialize_file_header2 f c else serialize_file_header f c.

Lemma serialize_file_ok : forall dbg f, file_ok f -> serialize_file dbg f = Ok (header_of f (joined (f_sections f)) ++ joined (f_sections f)).
Proof.
  intros dbg f (_ & _ & _ & _ & F). unfold serialize_file. rewrite (file_content_ok dbg (f_sections f) [] eq_refl F). reflexivity.
Qed.

Definition large (f : file) (c : list N) : bool := negb (N.land (f_attr f) LARGE_FILE =? 0) || (0xffffff - 24 <? blen c).
Definition hlen (f : file) (c : list N) : N := if large f c then 32 else 24.

(** The checks of [file_ref_new] on a header that was written. *)
Lemma file_check_lt : forall f c, file_check f c < 256.
Proof. intros f c. unfold file_check. destruct (negb _); [|reflexivity]. unfold sub8. apply N.mod_lt. lia. Qed.
Lemma file_state_facts : forall p, file_state p < 256 /\ negb (N.land (file_state p) 128 =? 0) = p /\
  negb (N.land (if p then 255 - file_state p else file_state p) 252 =? DATA_VALID) = false.
Proof. intros [|]; repeat split; reflexivity. Qed.

Lemma data_check : forall f c, (N.land (f_attr f) CHECKSUM = 0 \/ byte_sum c = 0) ->
  (if N.land (f_attr f) CHECKSUM =? 0 then if file_check f c =? 0xAA then Ok tt else Err FInvalidHeader
   else let* d := Ok c in if sum8 d =? 0 then Ok tt else Err FDataCorrupt) = Ok tt.
Proof.
  intros f c H. unfold file_check. destruct (N.eqb_spec (N.land (f_attr f) CHECKSUM) 0) as [E|E]; [reflexivity|].
  destruct H as [H|H]; [contradiction|]. cbn [bind]. rewrite sum8_byte_sum, H. reflexivity.
Qed.

Definition head_of (f : file) (c : list N) : fheader :=
  if large f c then
    FHeader (f_name f) (sub8 0 (sum8 (fheader_bytes (FHeader (f_name f) 0 0 (f_type f) (N.lor (f_attr f) LARGE_FILE) 0 0) ++ le_bytes 8 (32 + blen c))))
            (file_check f c) (f_type f) (N.lor (f_attr f) LARGE_FILE) 0 (file_state (f_polarity f))
  else FHeader (f_name f) (sub8 0 (sum8 (fheader_bytes (FHeader (f_name f) 0 0 (f_type f) (f_attr f) (24 + blen c) 0)))) (file_check f c) (f_type f)
               (f_attr f) (24 + blen c) (file_state (f_polarity f)).

Lemma header_of_head : forall f c, header_of f c = fheader_bytes (head_of f c) ++ (if large f c then le_bytes 8 (32 + blen c) else []).
Proof. intros f c. unfold header_of, head_of, large. destruct (_ || _); [reflexivity|]. rewrite app_nil_r. reflexivity. Qed.
Lemma header_of_len : forall f c, length (f_name f) = 16%nat -> blen (header_of f c) = hlen f c.
Proof.
  intros f c H. rewrite header_of_head. bl. rewrite fheader_len by (unfold head_of; destruct (large f c); exact H).
  unfold hlen. destruct (large f c); reflexivity.
Qed.

Lemma file_read_back : forall f c rest, length (f_name f) = 16%nat -> blen c < 2 ^ 63 ->
  (N.land (f_attr f) CHECKSUM = 0 \/ byte_sum c = 0) ->
  file_ref_new (header_of f c ++ c ++ rest) =
    Ok (FileRef (header_of f c ++ c) (head_of f c) (f_polarity f) (hlen f c + blen c) (hlen f c)).
Proof.
  intros f c rest NL BC CK. pose proof (header_of_len f c NL) as HL.
  assert (TL : blen (header_of f c ++ c ++ rest) = hlen f c + blen c + blen rest) by (bl; lia).
  assert (H24 : 24 <= hlen f c) by (unfold hlen; destruct (large f c); lia).
  unfold file_ref_new. rewrite (proj2 (N.ltb_ge _ _)) by lia.
  assert (RH : read_fheader (header_of f c ++ c ++ rest) = head_of f c).
  { rewrite header_of_head, <- app_assoc. apply read_fheader_bytes; unfold head_of; destruct (large f c) eqn:L; try exact NL; cbn [fh_size]; [lia|].
    unfold large in L. apply orb_false_iff in L. destruct L as (_ & L). apply N.ltb_ge in L. lia. }
  rewrite RH.
  assert (SC : (if N.land (fh_attr (head_of f c)) LARGE_FILE =? 0 then Ok (fh_size (head_of f c), 24)
                else if blen (header_of f c ++ c ++ rest) <? 32 then Err FInvalidHeader else Ok (rd (header_of f c ++ c ++ rest) 24 8, 32))
               = Ok (hlen f c + blen c, hlen f c) :> res ferr (N * N)).
  { unfold head_of, hlen in *. destruct (large f c) eqn:L; cbn [fh_attr fh_size].
    - rewrite large_bit. change (1 =? 0) with false. cbv iota. rewrite (proj2 (N.ltb_ge _ _)) by lia. rewrite header_of_head, L, <- !app_assoc.
      rewrite (rd_pre0 _ _ 24) by (apply fheader_len; unfold head_of; rewrite L; exact NL). rewrite rd_here; [reflexivity|].
      change (256 ^ N.of_nat 8) with (2 ^ 64). lia.
    - unfold large in L. apply orb_false_iff in L. destruct L as (L & _). apply negb_false_iff in L. rewrite L. reflexivity. }
  rewrite SC. cbn [bind]. rewrite (proj2 (N.ltb_ge _ _)) by lia.
  destruct (file_state_facts (f_polarity f)) as (ST1 & ST2 & ST3).
  assert (SE : fh_state (head_of f c) = file_state (f_polarity f)) by (unfold head_of; destruct (large f c); reflexivity).
  assert (CE : fh_check_file (head_of f c) = file_check f c) by (unfold head_of; destruct (large f c); reflexivity).
  rewrite SE, ST2, ST3, CE.
  rewrite (bytes_at_here (header_of f c)) by exact HL.
  assert (BAL : sub8 (sub8 (sum8 (header_of f c)) (file_state (f_polarity f))) (file_check f c) = 0).
  { rewrite sum8_total, header_of_head, total_app, fheader_total. unfold head_of. destruct (large f c);
      cbn [fh_name fh_check_header fh_check_file fh_type fh_attr fh_size fh_state]; rewrite sum8_total.
    - rewrite total_app, fheader_total. cbn [fh_name fh_check_header fh_check_file fh_type fh_attr fh_size fh_state].
      set (x := total (f_name f) + 0 + 0 + f_type f + N.lor (f_attr f) LARGE_FILE + total (le_bytes 3 0) + 0 + total (le_bytes 8 (32 + blen c))).
      etransitivity; [|exact (header_balance x (file_check f c) (file_state (f_polarity f)) (file_check_lt f c) ST1)]. do 3 f_equal. unfold x. lia.
    - rewrite fheader_total. cbn [fh_name fh_check_header fh_check_file fh_type fh_attr fh_size fh_state].
      set (x := total (f_name f) + 0 + 0 + f_type f + f_attr f + total (le_bytes 3 (24 + blen c)) + 0).
      etransitivity; [|exact (header_balance x (file_check f c) (file_state (f_polarity f)) (file_check_lt f c) ST1)]. do 3 f_equal. unfold x.
      change (total []) with 0. lia. }
  rewrite BAL. change (negb (0 =? 0)) with false. cbv iota.
  assert (AE : N.land (fh_attr (head_of f c)) CHECKSUM = N.land (f_attr f) CHECKSUM).
  { unfold head_of. destruct (large f c); cbn [fh_attr]; [apply checksum_bit|reflexivity]. }
  rewrite AE. rewrite (slice_mid (header_of f c) c rest) by lia. rewrite (data_check f c CK). cbn [bind]. do 2 f_equal.
  rewrite app_assoc. apply bytes_at_here. bl. lia.
Qed.

Lemma head_of_fields : forall f c, fh_name (head_of f c) = f_name f /\ fh_type (head_of f c) = f_type f /\
  (fh_attr (head_of f c) = f_attr f \/ (fh_attr (head_of f c) = N.lor (f_attr f) 1 /\ 2 ^ 24 <= hlen f c + blen c)).
Proof.
  intros f c. unfold head_of, hlen. destruct (large f c) eqn:L; cbn [fh_name fh_type fh_attr]; [|auto].
  split; [reflexivity|]. split; [reflexivity|]. unfold large in L.
  destruct (N.eqb_spec (N.land (f_attr f) LARGE_FILE) 0) as [E|E]; cbn [negb orb] in L.
  - right. split; [reflexivity|]. apply N.ltb_lt in L. lia.
  - left. apply N.bits_inj. intros i. unfold LARGE_FILE in *. rewrite N.lor_spec. change 1 with (2 ^ 0). rewrite N.pow2_bits_eqb.
    destruct (N.eqb_spec 0 i) as [<-|]; [|now rewrite orb_false_r]. rewrite orb_true_r. symmetry.
    destruct (N.testbit (f_attr f) 0) eqn:T; [reflexivity|]. exfalso. apply E. apply N.bits_inj_0. intros i. rewrite N.land_spec.
    change 1 with (2 ^ 0). rewrite N.pow2_bits_eqb. destruct (N.eqb_spec 0 i) as [<-|]; [now rewrite T|]. apply andb_false_r.
Qed.

Lemma flat_unread : forall l, flat_map with_subs (map (fun s => unread (s_header s) (s_bytes s)) l) = map (fun s => unread (s_header s) (s_bytes s)) l.
Proof.
  induction l as [|s l IH]; [reflexivity|]. cbn [map flat_map]. unfold with_subs at 1. rewrite unread_subs. cbn [app]. now rewrite IH.
Qed.

Lemma slice_end : forall a b o, blen a = o -> slice (a ++ b) o (blen (a ++ b)) = Ok b.
Proof. intros a b o H. rewrite <- (app_nil_r b) at 1. apply slice_mid; [exact H|]. bl. lia. Qed.

Lemma sections_read_back : forall dbg f fuel l c hd p s o, joined l = c -> blen (header_of f c) = o -> Forall writable l -> (length l < fuel)%nat ->
  fr_sections dbg fuel (FileRef (header_of f c ++ c) hd p s o) = Some (Ok (map (fun s => unread (s_header s) (s_bytes s)) l)).
Proof.
  intros dbg f fuel l c hd p s o J HL F L. unfold fr_sections, fr_content. cbn [fr_data fr_content_offset].
  rewrite (slice_end _ _ o HL). rewrite <- J. rewrite (sections_of_joined dbg l fuel F L). now rewrite flat_unread.
Qed.

(** ** Corruption *)
Lemma set_byte_len : forall l i v, (i < length l)%nat -> length (set_byte l i v) = length l.
Proof. intros l i v H. unfold set_byte. rewrite app_length. cbn [length]. rewrite firstn_length, skipn_length. lia. Qed.
Lemma nth_split_at : forall (l : list N) i, (i < length l)%nat -> l = firstn i l ++ nth i l 0 :: skipn (S i) l.
Proof.
  induction l as [|x l IH]; intros i H; [cbn [length] in H; lia|]. destruct i as [|i]; [reflexivity|].
  cbn [firstn nth skipn app]. f_equal. apply IH. cbn [length] in H. lia.
Qed.
Lemma set_byte_total : forall l i v, (i < length l)%nat -> total (set_byte l i v) + nth i l 0 = total l + v.
Proof.
  intros l i v H. unfold set_byte. rewrite (nth_split_at l i H) at 4. rewrite !total_app, !total_cons. lia.
Qed.
Lemma set_byte_ok : forall l i v, bytes_ok l -> v < 256 -> bytes_ok (set_byte l i v).
Proof.
  intros l i v B V. unfold set_byte, bytes_ok in *. apply Forall_app. split.
  - rewrite <- (firstn_skipn i l) in B. now apply Forall_app in B.
  - constructor; [exact V|]. rewrite <- (firstn_skipn (S i) l) in B. now apply Forall_app in B.
Qed.
Lemma firstn_skipn_swap : forall (l : list N) a b, firstn (b - a) (skipn a l) = skipn a (firstn b l).
Proof.
  intros l. induction l as [|x l IH]; intros a b; [now rewrite !skipn_nil, !firstn_nil, skipn_nil|].
  destruct a as [|a]; [now rewrite Nat.sub_0_r|]. destruct b as [|b]; [reflexivity|]. cbn [skipn firstn Nat.sub]. apply IH.
Qed.
Lemma firstn_set_byte : forall l i v n, (i < n)%nat -> (n <= length l)%nat -> firstn n (set_byte l i v) = set_byte (firstn n l) i v.
Proof.
  intros l i v n I H. unfold set_byte. rewrite firstn_app, firstn_length_le, firstn_firstn by lia.
  replace (Nat.min n i) with i by lia. rewrite firstn_firstn. replace (Nat.min i n) with i by lia. f_equal.
  replace (n - i)%nat with (S (n - S i)) by lia. cbn [firstn]. f_equal. apply firstn_skipn_swap.
Qed.
Lemma firstn_set_byte_after : forall l i v n, (n <= i)%nat -> (i < length l)%nat -> firstn n (set_byte l i v) = firstn n l.
Proof.
  intros l i v n I H. unfold set_byte. rewrite firstn_app, firstn_length_le, firstn_firstn by lia.
  replace (Nat.min n i) with n by lia. replace (n - i)%nat with 0%nat by lia. now rewrite app_nil_r.
Qed.
Lemma skipn_set_byte : forall l i v n, (n <= i)%nat -> (i < length l)%nat -> skipn n (set_byte l i v) = set_byte (skipn n l) (i - n) v.
Proof.
  intros l i v n I H. unfold set_byte. rewrite skipn_app, firstn_length_le by lia. replace (n - i)%nat with 0%nat by lia. change (skipn 0 (v :: skipn (S i) l)) with (v :: skipn (S i) l).
  rewrite <- firstn_skipn_swap, skipn_skipn. do 3 f_equal. lia.
Qed.
Lemma skipn_set_byte_after : forall l i v n, (i < n)%nat -> (i < length l)%nat -> skipn n (set_byte l i v) = skipn n l.
Proof.
  intros l i v n I H. unfold set_byte. rewrite skipn_app, firstn_length_le by lia. rewrite skipn_all2 by (rewrite firstn_length_le; lia).
  replace (n - i)%nat with (S (n - S i)) by lia. change (skipn (S (n - S i)) (v :: skipn (S i) l)) with (skipn (n - S i) (skipn (S i) l)).
  rewrite skipn_skipn. cbn [app]. f_equal. lia.
Qed.
Lemma nth_set_byte : forall l i v, (i < length l)%nat -> nth i (set_byte l i v) 0 = v.
Proof. intros l i v H. unfold set_byte. rewrite app_nth2; rewrite firstn_length_le by lia; [|lia]. now rewrite Nat.sub_diag. Qed.
Lemma nth_set_byte_other : forall l i j v, (i < length l)%nat -> i <> j -> nth j (set_byte l i v) 0 = nth j l 0.
Proof.
  intros l i j v H N. unfold set_byte. rewrite (nth_split_at l i H) at 3.
  destruct (Nat.lt_ge_cases j i) as [L|L].
  - rewrite !app_nth1; [reflexivity| |]; rewrite firstn_length_le; lia.
  - rewrite !app_nth2; rewrite ?firstn_length_le by lia; try lia. destruct (j - i)%nat as [|k] eqn:E; [lia|]. reflexivity.
Qed.

Lemma rd_nth : forall l i, (i < length l)%nat -> rd l (N.of_nat i) 1 = nth i l 0.
Proof.
  intros l i H. rewrite (nth_split_at l i H) at 1. apply rd_byte_pre. unfold blen. rewrite firstn_length_le; lia.
Qed.

(** What a successful read has checked. *)
Lemma file_ref_inv : forall b r, file_ref_new b = Ok r ->
  24 <= blen b /\ fr_header r = read_fheader b /\ fr_size r <= blen b /\ fr_content_offset r <= blen b /\
  (fr_content_offset r = 24 /\ N.land (rd b 19 1) LARGE_FILE = 0 /\ fr_size r = rd b 20 3 \/
   fr_content_offset r = 32 /\ N.land (rd b 19 1) LARGE_FILE <> 0 /\ fr_size r = rd b 24 8) /\
  fr_data r = bytes_at b 0 (fr_size r) /\
  sub8 (sub8 (byte_sum (bytes_at b 0 (fr_content_offset r))) (rd b 23 1)) (rd b 17 1) = 0 /\
  (N.land (rd b 19 1) CHECKSUM = 0 /\ rd b 17 1 = 0xAA \/
   N.land (rd b 19 1) CHECKSUM <> 0 /\ fr_content_offset r <= fr_size r /\ byte_sum (bytes_at b (fr_content_offset r) (fr_size r - fr_content_offset r)) = 0).
Proof.
  intros b r H. unfold file_ref_new in H. destruct (N.ltb_spec (blen b) 24) as [L|L]; [discriminate|]. cbv zeta in H.
  change (fh_attr (read_fheader b)) with (rd b 19 1) in H. change (fh_size (read_fheader b)) with (rd b 20 3) in H.
  change (fh_state (read_fheader b)) with (rd b 23 1) in H. change (fh_check_file (read_fheader b)) with (rd b 17 1) in H.
  set (sc := if N.land (rd b 19 1) LARGE_FILE =? 0 then _ else _) in H.
  assert (SC : forall size co, sc = Ok (size, co) -> co <= blen b /\
    (co = 24 /\ N.land (rd b 19 1) LARGE_FILE = 0 /\ size = rd b 20 3 \/ co = 32 /\ N.land (rd b 19 1) LARGE_FILE <> 0 /\ size = rd b 24 8)).
  { intros size co E. unfold sc in E. destruct (N.eqb_spec (N.land (rd b 19 1) LARGE_FILE) 0).
    - injection E as <- <-. auto.
    - destruct (N.ltb_spec (blen b) 32); [discriminate|]. injection E as <- <-. auto. }
  destruct sc as [[size co]|e|]; cbn [bind] in H; try discriminate. destruct (SC size co eq_refl) as (CO & CASE).
  destruct (N.ltb_spec (blen b) size) as [L2|L2]; [discriminate|].
  destruct (negb (N.land (if negb (N.land (rd b 23 1) 128 =? 0) then 255 - rd b 23 1 else rd b 23 1) 252 =? DATA_VALID)); [discriminate|].
  destruct (N.eqb_spec (sub8 (sub8 (sum8 (bytes_at b 0 co)) (rd b 23 1)) (rd b 17 1)) 0) as [S0|S0]; cbn [negb] in H; [|discriminate].
  rewrite sum8_byte_sum in S0.
  assert (D : forall x, (if N.land (rd b 19 1) CHECKSUM =? 0 then if rd b 17 1 =? 170 then Ok tt else Err FInvalidHeader
       else let* d := slice b co size in if sum8 d =? 0 then Ok tt else Err FDataCorrupt) = Ok x :> res ferr unit ->
     (N.land (rd b 19 1) CHECKSUM = 0 /\ rd b 17 1 = 0xAA \/
      N.land (rd b 19 1) CHECKSUM <> 0 /\ co <= size /\ byte_sum (bytes_at b co (size - co)) = 0)).
  { intros x E. destruct (N.eqb_spec (N.land (rd b 19 1) CHECKSUM) 0).
    - destruct (N.eqb_spec (rd b 17 1) 170); [|discriminate]. auto.
    - destruct (slice b co size) as [d|e|] eqn:SL; cbn [bind] in E; try discriminate. apply slice_inv in SL. destruct SL as (A1 & A2 & ->).
      rewrite sum8_byte_sum in E. destruct (N.eqb_spec (byte_sum (bytes_at b co (size - co))) 0); [|discriminate]. auto. }
  match type of H with bind ?e _ = _ => destruct e as [u|e0|] eqn:DE end; cbn [bind] in H; try discriminate.
  specialize (D u eq_refl). injection H as <-. cbn [fr_header fr_size fr_content_offset fr_data]. auto 12.
Qed.

Lemma file_ref_panic : forall b, file_ref_new b = Panic -> 24 <= blen b /\ N.land (rd b 19 1) CHECKSUM <> 0 /\
  (N.land (rd b 19 1) LARGE_FILE = 0 /\ rd b 20 3 < 24 \/ N.land (rd b 19 1) LARGE_FILE <> 0 /\ 32 <= blen b /\ rd b 24 8 < 32) /\
  sub8 (sub8 (byte_sum (bytes_at b 0 (if N.land (rd b 19 1) LARGE_FILE =? 0 then 24 else 32))) (rd b 23 1)) (rd b 17 1) = 0.
Proof.
  intros b H. unfold file_ref_new in H. destruct (N.ltb_spec (blen b) 24) as [L|L]; [discriminate|]. cbv zeta in H.
  change (fh_attr (read_fheader b)) with (rd b 19 1) in H. change (fh_size (read_fheader b)) with (rd b 20 3) in H.
  change (fh_state (read_fheader b)) with (rd b 23 1) in H. change (fh_check_file (read_fheader b)) with (rd b 17 1) in H.
  split; [exact L|].
  assert (G : forall size co, co = (if N.land (rd b 19 1) LARGE_FILE =? 0 then 24 else 32) ->
     (if blen b <? size then Err FInvalidHeader
      else if negb (N.land (if negb (N.land (rd b 23 1) 128 =? 0) then 255 - rd b 23 1 else rd b 23 1) 252 =? DATA_VALID) then Err FInvalidState
      else if negb (sub8 (sub8 (sum8 (bytes_at b 0 co)) (rd b 23 1)) (rd b 17 1) =? 0) then Err FInvalidHeader
      else let* _ := if N.land (rd b 19 1) CHECKSUM =? 0 then if rd b 17 1 =? 170 then Ok tt else Err FInvalidHeader
                     else let* d := slice b co size in if sum8 d =? 0 then Ok tt else Err FDataCorrupt in
           Ok (FileRef (bytes_at b 0 size) (read_fheader b) (negb (N.land (rd b 23 1) 128 =? 0)) size co)) = Panic :> res ferr file_ref ->
     N.land (rd b 19 1) CHECKSUM <> 0 /\ size < co /\
     sub8 (sub8 (byte_sum (bytes_at b 0 (if N.land (rd b 19 1) LARGE_FILE =? 0 then 24 else 32))) (rd b 23 1)) (rd b 17 1) = 0).
  { intros size co CE E. destruct (N.ltb_spec (blen b) size) as [L2|L2]; [discriminate|].
    destruct (negb (N.land _ 252 =? DATA_VALID)); [discriminate|]. rewrite <- CE.
    destruct (N.eqb_spec (sub8 (sub8 (sum8 (bytes_at b 0 co)) (rd b 23 1)) (rd b 17 1)) 0) as [S0|S0]; cbn [negb] in E; [|discriminate].
    rewrite sum8_byte_sum in S0. destruct (N.eqb_spec (N.land (rd b 19 1) CHECKSUM) 0) as [|NC].
    - destruct (rd b 17 1 =? 170); discriminate.
    - split; [exact NC|]. split; [|exact S0]. unfold slice in E. rewrite (proj2 (N.leb_le _ _) L2), andb_true_r in E.
      destruct (N.leb_spec co size) as [L3|L3]; [|exact L3]. cbn [bind] in E. match type of E with context [sum8 ?d =? 0] => destruct (sum8 d =? 0) end; discriminate. }
  destruct (N.eqb_spec (N.land (rd b 19 1) LARGE_FILE) 0) as [NL|NL]; cbn [bind] in H.
  - apply G in H; [|reflexivity]. destruct H as (H1 & H2 & H3). auto.
  - destruct (N.ltb_spec (blen b) 32) as [L3|L3]; cbn [bind] in H; [discriminate|]. apply G in H; [|reflexivity]. destruct H as (H1 & H2 & H3). auto 8.
Qed.

Lemma sub8_shift : forall x y a b, a < 256 -> b < 256 -> sub8 (sub8 (x mod 256) a) b = 0 -> sub8 (sub8 (y mod 256) a) b = 0 -> x mod 256 = y mod 256.
Proof. intros x y a b A B. unfold sub8. lia. Qed.

Lemma bytes_at_nat : forall l n, bytes_at l 0 (N.of_nat n) = firstn n l.
Proof. intros. unfold bytes_at. now rewrite Nat2N.id. Qed.
