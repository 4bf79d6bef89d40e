(** Files and volumes read from arbitrary bytes, and single-byte damage. *)
From Verif Require Import Base.Prelude Base.Bytes Align.Model Align.Proofs Ffs.Model Ffs.Spec Ffs.SectionProofs Ffs.SectionRead Ffs.FileProofs.
Local Open Scope N_scope.

Lemma land_1_bit : forall a, N.land a LARGE_FILE = 0 <-> bit a 0 = false.
Proof.
  intros a. unfold LARGE_FILE, bit. split; intros H.
  - assert (X : N.testbit (N.land a 1) 0 = false) by now rewrite H. rewrite N.land_spec in X. now rewrite andb_true_r in X.
  - apply N.bits_inj_0. intros i. rewrite N.land_spec. change 1 with (2 ^ 0). rewrite N.pow2_bits_eqb.
    destruct (N.eqb_spec 0 i) as [<-|]; [now rewrite H|apply andb_false_r].
Qed.
Lemma nth_firstn_lt : forall (l : list N) n i, (i < n)%nat -> nth i (firstn n l) 0 = nth i l 0.
Proof.
  induction l as [|x l IH]; intros n i H; [now rewrite firstn_nil|]. destruct n as [|n]; [lia|]. destruct i as [|i]; [reflexivity|]. cbn [firstn nth]. apply IH. lia.
Qed.
Lemma nth_skipn : forall n (l : list N) i, nth i (skipn n l) 0 = nth (n + i) l 0.
Proof. induction n as [|n IH]; intros l i; [reflexivity|]. destruct l as [|x l]; [now destruct i|]. cbn [skipn nth Nat.add]. apply IH. Qed.

Lemma file_sizes : forall b r, file_ref_new b = Ok r -> fr_size r = stored_size b /\ fr_content_offset r = header_size b.
Proof.
  intros b r H. destruct (file_ref_inv b r H) as (L & _ & _ & _ & C & _). unfold stored_size, header_size.
  assert (R : rd b 19 1 = nth 19 b 0) by (apply (rd_nth b 19); unfold blen in L; lia). rewrite R in C.
  destruct C as [(C1 & C2 & C3)|(C1 & C2 & C3)].
  - apply land_1_bit in C2. rewrite C2. split; [exact C3|exact C1].
  - destruct (bit (nth 19 b 0) 0) eqn:E; [split; [exact C3|exact C1]|]. exfalso. apply C2. now apply land_1_bit.
Qed.

Lemma file_panic_short : forall b, file_ref_new b = Panic -> stored_size b < header_size b /\ bit (nth 19 b 0) 6 = true.
Proof.
  intros b H. destruct (file_ref_panic b H) as (L & C & S & _). unfold stored_size, header_size.
  assert (R : rd b 19 1 = nth 19 b 0) by (apply (rd_nth b 19); unfold blen in L; lia). rewrite R in *. split.
  - destruct S as [(S1 & S2)|(S1 & _ & S2)].
    + apply land_1_bit in S1. rewrite S1. exact S2.
    + destruct (bit (nth 19 b 0) 0) eqn:E; [exact S2|]. exfalso. apply S1. now apply land_1_bit.
  - unfold bit. destruct (N.testbit (nth 19 b 0) 6) eqn:E; [reflexivity|]. exfalso. apply C. apply N.bits_inj_0. intros i. rewrite N.land_spec.
    unfold CHECKSUM. change 64 with (2 ^ 6). rewrite N.pow2_bits_eqb. destruct (N.eqb_spec 6 i) as [<-|]; [now rewrite E|apply andb_false_r].
Qed.

Lemma content_panic : forall b r, file_ref_new b = Ok r -> (fr_content r = Panic <-> stored_size b < header_size b).
Proof.
  intros b r H. destruct (file_sizes b r H) as (S1 & S2). destruct (file_ref_inv b r H) as (L & _ & SZ & _ & _ & D & _).
  assert (DL : blen (fr_data r) = fr_size r) by (rewrite D; apply bytes_at_len; lia).
  unfold fr_content, slice. rewrite DL, N.leb_refl, andb_true_r, <- S1, <- S2.
  destruct (N.leb_spec (fr_content_offset r) (fr_size r)); split; intros; try discriminate; try lia; reflexivity.
Qed.

(** ** Iteration *)
Lemma collect_files_total : forall data erase, blen data < 2 ^ 63 -> forall fuel o, o <= blen data + 8 -> blen data + 8 - o < N.of_nat fuel ->
  (exists r, collect (file_next data erase) fuel o = Some r /\
    match r with
    | Ok l => Forall (fun f => piece (fr_data f) data) l
    | Err _ => True
    | Panic => exists k, stored_size (skipn k data) < header_size (skipn k data)
    end) \/
  exists k r, (k <= length data)%nat /\ file_ref_new (skipn k data) = Ok r /\ fr_size r = 0.
Proof.
  intros data erase LD. induction fuel as [|fuel IH]; intros o O F; [lia|]. cbn [collect]. unfold file_next at 1.
  destruct (N.ltb_spec (blen data) o) as [L|L]; [left; eexists; split; [reflexivity|constructor]|].
  destruct (N.ltb_spec (blen (skipn (N.to_nat o) data)) 24) as [L2|L2]; [left; eexists; split; [reflexivity|constructor]|].
  destruct (forallb (N.eqb erase) (bytes_at (skipn (N.to_nat o) data) 0 24)); [left; eexists; split; [reflexivity|constructor]|].
  destruct (file_ref_new (skipn (N.to_nat o) data)) as [f|e|] eqn:P.
  - destruct (file_ref_inv _ _ P) as (_ & _ & SZ & _ & _ & D & _).
    assert (SL : blen (skipn (N.to_nat o) data) = blen data - o) by (unfold blen; rewrite skipn_length; lia).
    destruct (N.eq_dec (fr_size f) 0) as [Z|Z].
    { right. exists (N.to_nat o), f. split; [unfold blen in *; lia|auto]. }
    change 8 with (2 ^ 3). rewrite align_up_pad by (unfold two64; lia). change (2 ^ 3) with 8.
    pose proof (pad_of_lt 8 (o + fr_size f) ltac:(lia)) as PL.
    destruct (IH (o + fr_size f + pad_of 8 (o + fr_size f)) ltac:(lia) ltac:(lia)) as [(r & R1 & R2)|BAD]; [left|right; exact BAD].
    rewrite R1. destruct r as [l|e|]; eexists; (split; [reflexivity|]); try exact R2. constructor; [|exact R2].
    rewrite D. apply (piece_skipn _ (N.to_nat o)). exists [], (skipn (N.to_nat (fr_size f)) (skipn (N.to_nat o) data)). cbn [app].
    symmetry. apply (firstn_skipn (N.to_nat (fr_size f)) (skipn (N.to_nat o) data)).
  - left. eexists. split; [reflexivity|exact I].
  - left. eexists. split; [reflexivity|]. exists (N.to_nat o). now apply file_panic_short.
Qed.

Lemma volume_ref_total : forall b, volume_ref_new b <> Panic.
Proof.
  intros b H. unfold volume_ref_new in H.
  repeat match type of H with (if ?c then Err _ else _) = Panic => destruct c eqn:?; [discriminate|] end. cbv zeta in H.
  repeat match type of H with (if ?c then Err _ else _) = Panic => destruct c eqn:?; [discriminate|] end.
  match type of H with bind ?e _ = Panic => destruct e as [ext|e0|] eqn:EX end; cbn [bind] in H; try discriminate.
  - unfold slice in H. apply N.ltb_ge in Heqb2, Heqb3. rewrite (proj2 (N.leb_le 56 _) Heqb2), (proj2 (N.leb_le _ _) Heqb3) in H. cbn [andb bind] in H.
    match type of H with (if ?c then Err _ else _) = Panic => destruct c; [discriminate|] end.
    match type of H with match ?l with [] => _ | _ :: _ => _ end = Panic => destruct l as [|z r]; [discriminate|] end.
    match type of H with (if ?c then Err _ else _) = Panic => destruct c; [discriminate|] end.
    match type of H with match ?l with [] => _ | _ :: _ => _ end = Panic => destruct l as [|y q]; [discriminate|] end.
    match type of H with (if ?c then Err _ else _) = Panic => destruct c; [discriminate|] end.
    match type of H with match ?l with Ok _ => _ | _ => _ end = Panic => destruct l; discriminate end.
  - match type of EX with (if ?c then _ else _) = Panic => destruct c; [|discriminate] end.
    match type of EX with (if ?c then Err _ else _) = Panic => destruct c; [discriminate|] end.
    match type of EX with (if ?c then Err _ else _) = Panic => destruct c; discriminate end.
Qed.

(** ** One byte changed *)
Lemma bytes_at_set_after : forall l i v o n, (i < length l)%nat -> o + n <= N.of_nat i -> bytes_at (set_byte l i v) o n = bytes_at l o n.
Proof.
  intros l i v o n H L. unfold bytes_at. replace (N.to_nat n) with ((N.to_nat o + N.to_nat n) - N.to_nat o)%nat by lia.
  rewrite !firstn_skipn_swap. now rewrite firstn_set_byte_after by lia.
Qed.
Lemma rd_set_after : forall l i v o w, (i < length l)%nat -> o + N.of_nat w <= N.of_nat i -> rd (set_byte l i v) o w = rd l o w.
Proof. intros. rewrite !rd_bytes. now rewrite bytes_at_set_after. Qed.
Lemma rd1_set_other : forall l i v j, (i < length l)%nat -> (j < length l)%nat -> i <> j -> rd (set_byte l i v) (N.of_nat j) 1 = rd l (N.of_nat j) 1.
Proof. intros l i v j H J N. rewrite !rd_nth by (rewrite ?set_byte_len; lia). now apply nth_set_byte_other. Qed.
Lemma rd1_set : forall l i v, (i < length l)%nat -> rd (set_byte l i v) (N.of_nat i) 1 = v.
Proof. intros l i v H. rewrite rd_nth by (rewrite set_byte_len; lia). now apply nth_set_byte. Qed.

Lemma checksum_change : forall x y v w a b a' b', a < 256 -> b < 256 -> v < 256 -> w < 256 -> v <> w -> y + w = x + v -> a' = a -> b' = b ->
  sub8 (sub8 (x mod 256) a) b = 0 -> sub8 (sub8 (y mod 256) a') b' = 0 -> False.
Proof.
  intros x y v w a b a' b' A B V W N E -> -> H1 H2. pose proof (sub8_shift x y a b A B H1 H2) as X. clear H1 H2 A B.
  assert (Z : (y + w) mod 256 = (x + v) mod 256) by now rewrite E.
  rewrite <- (N.add_mod_idemp_l y), <- (N.add_mod_idemp_l x), X in Z by lia. clear E X.
  pose proof (N.mod_lt y 256 ltac:(lia)) as Y. set (m := y mod 256) in *. clearbody m. clear x y.
  assert (D : forall p q, p < 512 -> q < 512 -> p mod 256 = q mod 256 -> p = q \/ p + 256 = q \/ q + 256 = p).
  { intros p q P Q M. pose proof (N.div_mod p 256 ltac:(lia)). pose proof (N.div_mod q 256 ltac:(lia)).
    assert (p / 256 < 2) by (apply N.div_lt_upper_bound; lia). assert (q / 256 < 2) by (apply N.div_lt_upper_bound; lia). lia. }
  destruct (D (m + w) (m + v) ltac:(lia) ltac:(lia) Z) as [|[|]]; lia.
Qed.

Lemma header_damage : forall b r i v, bytes_ok b -> file_ref_new b = Ok r -> N.of_nat i < header_size b -> v < 256 -> v <> nth i b 0 ->
  i <> 23%nat -> (i = 17%nat -> bit (nth 19 b 0) 6 = false) -> (i = 19%nat -> bit v 0 = bit (nth 19 b 0) 0) ->
  exists e, file_ref_new (set_byte b i v) = Err e.
Proof.
  intros b r i v B H I V NE N23 C17 C19. destruct (file_sizes b r H) as (S1 & S2).
  destruct (file_ref_inv b r H) as (L & _ & SZ & CO & C & D & SUM & CHK).
  assert (LL : (24 <= length b)%nat) by (unfold blen in L; lia).
  assert (IL : (i < length b)%nat) by (rewrite <- S2 in I; unfold blen in *; lia).
  assert (R19 : rd b 19 1 = nth 19 b 0) by (apply (rd_nth b 19); lia).
  assert (B19 : bit (nth 19 (set_byte b i v) 0) 0 = bit (nth 19 b 0) 0).
  { destruct (Nat.eq_dec i 19) as [->|N]; [rewrite nth_set_byte by lia; auto|]. now rewrite nth_set_byte_other. }
  assert (HS : header_size (set_byte b i v) = header_size b) by (unfold header_size; now rewrite B19).
  assert (NB : nth i b 0 < 256) by (unfold bytes_ok in B; rewrite Forall_forall in B; apply B, nth_In; lia).
  assert (ST : rd (set_byte b i v) 23 1 = rd b 23 1) by (apply (rd1_set_other b i v 23); lia).
  assert (TOT : forall n, N.of_nat i < n -> n <= blen b -> total (bytes_at (set_byte b i v) 0 n) + nth i b 0 = total (bytes_at b 0 n) + v).
  { intros n In Ln. unfold bytes_at. cbn [N.to_nat skipn]. rewrite firstn_set_byte by (unfold blen in *; lia).
    pose proof (set_byte_total (firstn (N.to_nat n) b) i v ltac:(rewrite firstn_length_le; unfold blen in *; lia)) as X.
    rewrite (nth_firstn_lt b) in X by (unfold blen in *; lia). exact X. }
  assert (KEY : sub8 (sub8 (byte_sum (bytes_at (set_byte b i v) 0 (header_size b))) (rd (set_byte b i v) 23 1)) (rd (set_byte b i v) 17 1) = 0 -> i = 17%nat).
  { intros K. destruct (Nat.eq_dec i 17) as [|N17]; [assumption|exfalso].
    rewrite S2 in SUM. specialize (TOT (header_size b) I ltac:(rewrite <- S2; exact CO)).
    apply (checksum_change (total (bytes_at b 0 (header_size b))) (total (bytes_at (set_byte b i v) 0 (header_size b))) v (nth i b 0)
             (rd b 23 1) (rd b 17 1) (rd (set_byte b i v) 23 1) (rd (set_byte b i v) 17 1)); auto.
    - apply (rd_lt b 23 1 B).
    - apply (rd_lt b 17 1 B).
    - apply (rd1_set_other b i v 17); lia. }
  destruct (file_ref_new (set_byte b i v)) as [r'|e|] eqn:E; [exfalso|eauto|exfalso].
  - destruct (file_sizes _ _ E) as (S1' & S2'). destruct (file_ref_inv _ _ E) as (_ & _ & _ & _ & _ & _ & SUM' & CHK'). rewrite S2', HS in SUM'.
    pose proof (KEY SUM') as ->. specialize (C17 eq_refl).
    assert (A : rd (set_byte b 17 v) 19 1 = rd b 19 1) by (apply (rd1_set_other b 17 v 19); lia). rewrite A in CHK'.
    destruct CHK as [(_ & CHK)|(X & _)]; [|apply X; rewrite R19; apply N.bits_inj_0; intros j; rewrite N.land_spec; unfold CHECKSUM; change 64 with (2 ^ 6); rewrite N.pow2_bits_eqb; destruct (N.eqb_spec 6 j) as [<-|]; [unfold bit in C17; now rewrite C17|apply andb_false_r]].
    assert (C0 : N.land (rd b 19 1) CHECKSUM = 0).
    { rewrite R19. apply N.bits_inj_0; intros j; rewrite N.land_spec; unfold CHECKSUM; change 64 with (2 ^ 6); rewrite N.pow2_bits_eqb; destruct (N.eqb_spec 6 j) as [<-|]; [unfold bit in C17; now rewrite C17|apply andb_false_r]. }
    destruct CHK' as [(_ & CHK')|(X & _)]; [|contradiction].
    pose proof (rd1_set b 17 v IL) as R. change (N.of_nat 17) with 17 in R. rewrite R in CHK'. apply NE. rewrite CHK', <- CHK. apply (rd_nth b 17). lia.
  - destruct (file_ref_panic _ E) as (_ & X & _ & K).
    replace (if N.land (rd (set_byte b i v) 19 1) LARGE_FILE =? 0 then 24 else 32) with (header_size b) in K.
    2: { rewrite <- HS. unfold header_size. assert (R : rd (set_byte b i v) 19 1 = nth 19 (set_byte b i v) 0) by (apply (rd_nth _ 19); rewrite set_byte_len; lia). rewrite R.
         destruct (bit (nth 19 (set_byte b i v) 0) 0) eqn:Q.
         - destruct (N.eqb_spec (N.land (nth 19 (set_byte b i v) 0) LARGE_FILE) 0) as [Z|Z]; [|reflexivity]. apply land_1_bit in Z. congruence.
         - apply land_1_bit in Q. rewrite Q. reflexivity. }
    pose proof (KEY K) as ->. specialize (C17 eq_refl). assert (A : rd (set_byte b 17 v) 19 1 = rd b 19 1) by (apply (rd1_set_other b 17 v 19); lia).
    apply X. rewrite A, R19. apply N.bits_inj_0; intros j; rewrite N.land_spec; unfold CHECKSUM; change 64 with (2 ^ 6); rewrite N.pow2_bits_eqb; destruct (N.eqb_spec 6 j) as [<-|]; [unfold bit in C17; now rewrite C17|apply andb_false_r].
Qed.

Lemma content_damage : forall b r i v, bytes_ok b -> file_ref_new b = Ok r -> bit (nth 19 b 0) 6 = true ->
  header_size b <= N.of_nat i -> N.of_nat i < stored_size b -> v < 256 -> v <> nth i b 0 ->
  exists e, file_ref_new (set_byte b i v) = Err e.
Proof.
  intros b r i v B H C6 I1 I2 V NE. destruct (file_sizes b r H) as (S1 & S2).
  destruct (file_ref_inv b r H) as (L & _ & SZ & CO & C & D & SUM & CHK). rewrite S1, S2 in *.
  assert (LL : (24 <= length b)%nat) by (unfold blen in L; lia).
  assert (IL : (i < length b)%nat) by (unfold blen in *; lia).
  assert (H24 : 24 <= header_size b) by (unfold header_size; clear; destruct (bit (nth 19 b 0) 0); lia).
  assert (R19 : rd b 19 1 = nth 19 b 0) by (apply (rd_nth b 19); lia).
  assert (N19 : nth 19 (set_byte b i v) 0 = nth 19 b 0) by (apply nth_set_byte_other; lia).
  assert (HS : header_size (set_byte b i v) = header_size b) by (unfold header_size; now rewrite N19).
  assert (SS : stored_size (set_byte b i v) = stored_size b).
  { unfold stored_size. rewrite N19. unfold header_size in I1. destruct (bit (nth 19 b 0) 0).
    - pose proof (bytes_at_set_after b i v 24 8 IL ltac:(lia)) as X. unfold bytes_at in X. exact (f_equal le_val X).
    - pose proof (bytes_at_set_after b i v 20 3 IL ltac:(lia)) as X. unfold bytes_at in X. exact (f_equal le_val X). }
  assert (NC : N.land (rd b 19 1) CHECKSUM <> 0).
  { rewrite R19. intros Z. assert (Y : N.testbit (N.land (nth 19 b 0) CHECKSUM) 6 = false) by now rewrite Z. rewrite N.land_spec in Y. unfold bit in C6. rewrite C6 in Y. discriminate. }
  destruct CHK as [(X & _)|(_ & _ & CHK)]; [contradiction|].
  assert (A : rd (set_byte b i v) 19 1 = rd b 19 1) by (apply (rd1_set_other b i v 19); lia).
  destruct (file_ref_new (set_byte b i v)) as [r'|e|] eqn:E; [exfalso|eauto|exfalso].
  - destruct (file_sizes _ _ E) as (S1' & S2'). destruct (file_ref_inv _ _ E) as (_ & _ & _ & _ & _ & _ & _ & CHK'). rewrite S1', S2', HS, SS, A in CHK'.
    destruct CHK' as [(X & _)|(_ & _ & CHK')]; [contradiction|].
    set (o := header_size b) in *. set (n := stored_size b - o) in *.
    assert (T : total (bytes_at (set_byte b i v) o n) + nth i b 0 = total (bytes_at b o n) + v).
    { unfold bytes_at. rewrite skipn_set_byte by (unfold blen in *; lia).
      assert (SL : length (skipn (N.to_nat o) b) = (length b - N.to_nat o)%nat) by apply skipn_length.
      rewrite firstn_set_byte by (unfold blen, n in *; lia).
      pose proof (set_byte_total (firstn (N.to_nat n) (skipn (N.to_nat o) b)) (i - N.to_nat o) v) as X.
      rewrite firstn_length_le in X by (unfold blen, n in *; lia). rewrite nth_firstn_lt in X by (unfold blen, n in *; lia).
      rewrite nth_skipn in X. replace (N.to_nat o + (i - N.to_nat o))%nat with i in X by lia. apply X. unfold n. lia. }
    assert (NB : nth i b 0 < 256) by (unfold bytes_ok in B; rewrite Forall_forall in B; apply B, nth_In; lia).
    apply (checksum_change (total (bytes_at b o n)) (total (bytes_at (set_byte b i v) o n)) v (nth i b 0) 0 0 0 0); auto; try lia.
    + unfold byte_sum in CHK. change (fold_right N.add 0 ?l) with (total l) in CHK. rewrite CHK. reflexivity.
    + unfold byte_sum in CHK'. change (fold_right N.add 0 ?l) with (total l) in CHK'. rewrite CHK'. reflexivity.
  - destruct (file_panic_short _ E) as (X & _). rewrite SS, HS in X. lia.
Qed.
