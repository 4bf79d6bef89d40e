(** Volumes, written and read. *)
From Verif Require Import Base.Prelude Base.Bytes Align.Model Align.Proofs Ffs.Model Ffs.Spec Ffs.SectionProofs Ffs.SectionRead Ffs.FileProofs.
Local Open Scope N_scope.

(** ** Alignment asked for *)
Lemma small_check : forall (P : N -> bool) n, forallb P (map N.of_nat (seq 0 n)) = true -> forall x, x < N.of_nat n -> P x = true.
Proof.
  intros P n H x L. rewrite forallb_forall in H. apply H. rewrite <- (N2Nat.id x). apply in_map. apply in_seq. lia.
Qed.
Definition attr_check (a : N) : bool :=
  let r x := FileRef [] (FHeader [] 0 0 0 x 0 0) true 0 0 in
  (N.land (fv_attributes (r a)) 0x1F =? asked_alignment a) && (N.land (fv_attributes (r (N.lor a 1))) 0x1F =? asked_alignment a)
  && ((asked_alignment a =? 0) || (4 <=? asked_alignment a)) && Bool.eqb (N.land a CHECKSUM =? 0) (negb (bit a 6)) && Bool.eqb (N.land a LARGE_FILE =? 0) (negb (bit a 0)).
Lemma attr_checks : forall a, a < 256 -> attr_check a = true.
Proof. apply (small_check attr_check 256). vm_compute. reflexivity. Qed.

Lemma align_of : forall a h d p s o, a < 256 -> (fh_attr h = a \/ fh_attr h = N.lor a 1) ->
  N.land (fv_attributes (FileRef d h p s o)) 0x1F = asked_alignment a.
Proof.
  intros a h d p s o A E. pose proof (attr_checks a A) as C. unfold attr_check in C. rewrite !andb_true_iff in C.
  destruct C as ((((C1 & C2) & _) & _) & _). apply N.eqb_eq in C1, C2. unfold fv_attributes in *. cbn [fr_header fh_attr] in *.
  destruct E as [->| ->]; assumption.
Qed.
Lemma align_cases : forall a, a < 256 -> asked_alignment a = 0 \/ 4 <= asked_alignment a.
Proof.
  intros a A. pose proof (attr_checks a A) as C. unfold attr_check in C. rewrite !andb_true_iff in C. destruct C as (((_ & C) & _) & _).
  apply orb_true_iff in C. rewrite N.eqb_eq, N.leb_le in C. exact C.
Qed.
Lemma checksum_clear : forall a, a < 256 -> bit a 6 = false -> N.land a CHECKSUM = 0.
Proof.
  intros a A B. pose proof (attr_checks a A) as C. unfold attr_check in C. rewrite !andb_true_iff in C. destruct C as ((_ & C) & _).
  apply eqb_prop in C. rewrite B in C. now apply N.eqb_eq.
Qed.
Lemma large_test : forall a, a < 256 -> negb (N.land a LARGE_FILE =? 0) = bit a 0.
Proof.
  intros a A. pose proof (attr_checks a A) as C. unfold attr_check in C. rewrite !andb_true_iff in C. destruct C as (_ & C).
  apply eqb_prop in C. rewrite C. apply negb_involutive.
Qed.

(** ** Lengths *)
Lemma pad_of_4 : forall n, n + pad_of 4 n = (n + 3) / 4 * 4.
Proof. intros n. unfold pad_of. destruct (N.eqb_spec (n mod 4) 0); lia. Qed.

Lemma body_len_step : forall s l n, n mod 4 = 0 -> body_len n (s :: l) = body_len (n + disk_len (s_header s) (s_bytes s)) l.
Proof. intros s l n M. cbn [body_len]. f_equal. rewrite <- pad_of_4. unfold pad_of. rewrite M. cbn [N.eqb]. lia. Qed.
Lemma body_len_pad : forall s l n, body_len n (s :: l) = body_len (n + pad_of 4 n) (s :: l).
Proof. intros s l n. rewrite (body_len_step s l (n + pad_of 4 n)) by (apply pad_of_mod; lia). cbn [body_len]. now rewrite <- pad_of_4. Qed.

Lemma joined_len : forall l n, n mod 4 = 0 -> Forall writable l -> n + blen (joined l) = body_len n l.
Proof.
  induction l as [|s l IH]; intros n M F; [cbn [joined body_len]; rewrite blen_nil; lia|]. inversion F as [|? ? W F']; subst.
  pose proof (image_len s W) as IL. rewrite body_len_step by exact M. destruct l as [|s' l']; [cbn [body_len joined]; rewrite IL; reflexivity|].
  rewrite body_len_pad, <- IL. rewrite pad_of_add by (lia || exact M).
  rewrite <- (IH (n + blen (image s) + pad_of 4 (blen (image s)))).
  - change (joined (s :: s' :: l')) with (image s ++ repeat 0 (N.to_nat (pad_of 4 (blen (image s)))) ++ joined (s' :: l')). bl. lia.
  - rewrite <- N.add_assoc. rewrite <- N.add_mod_idemp_l, M, N.add_0_l by lia. apply pad_of_mod. lia.
  - exact F'.
Qed.

Lemma file_len_ok : forall f, file_ok f -> hlen f (joined (f_sections f)) + blen (joined (f_sections f)) = file_len f.
Proof.
  intros f (_ & _ & _ & A & F). unfold file_len, hlen, large. pose proof (joined_len (f_sections f) 0 eq_refl F) as J. rewrite N.add_0_l in J.
  rewrite <- J, (large_test _ A). destruct (bit (f_attr f) 0); cbn [orb]; [reflexivity|].
  destruct (N.ltb_spec (16777215 - 24) (blen (joined (f_sections f)))); destruct (N.leb_spec (2 ^ 24) (24 + blen (joined (f_sections f)))); lia.
Qed.

(** ** Writing the files *)
Lemma pad8_pad : forall b l, pad8 b l = l ++ repeat b (N.to_nat (pad_of 8 (blen l))).
Proof. reflexivity. Qed.

Lemma serialize_pad_file : forall dbg d, serialize_file dbg (pad_file d) = Ok (header_of (pad_file d) d ++ d).
Proof. reflexivity. Qed.

(** The reference a reader gets for file [f] with content [c]. *)
Definition ref_of (f : file) (c : list N) : file_ref := FileRef (header_of f c ++ c) (head_of f c) (f_polarity f) (hlen f c + blen c) (hlen f c).

Definition not_blank (erase : N) (l : list N) : Prop := forallb (N.eqb erase) (bytes_at l 0 24) = false.
Lemma header_not_blank : forall f c rest attr, length (f_name f) = 16%nat -> not_blank (erase_byte attr) ((header_of f c ++ c) ++ rest).
Proof.
  intros f c rest attr NL. unfold not_blank. rewrite header_of_head, <- !app_assoc.
  rewrite bytes_at_here by (apply fheader_len; unfold head_of; destruct (Ffs.FileProofs.large f c); exact NL).
  apply not_true_iff_false. intros H. rewrite forallb_forall in H.
  assert (I : In (file_state (f_polarity f)) (fheader_bytes (head_of f c))).
  { unfold fheader_bytes. rewrite !in_app_iff. right. right. right. left. unfold head_of. destruct (Ffs.FileProofs.large f c); reflexivity. }
  apply H in I. unfold erase_byte, file_state in I. destruct (negb _); destruct (f_polarity f); discriminate.
Qed.

Lemma next_file : forall P f c rest attr, length (f_name f) = 16%nat -> blen (P ++ (header_of f c ++ c) ++ rest) < 2 ^ 63 -> blen P mod 8 = 0 ->
  (N.land (f_attr f) CHECKSUM = 0 \/ byte_sum c = 0) ->
  file_next (P ++ (header_of f c ++ c) ++ rest) (erase_byte attr) (blen P) =
    Yield (Ok (ref_of f c)) (Some (blen P + (hlen f c + blen c) + pad_of 8 (hlen f c + blen c))).
Proof.
  intros P f c rest attr NL L M CK. unfold file_next. pose proof (header_of_len f c NL) as HL. bl.
  rewrite (proj2 (N.ltb_ge _ _)) by lia. rewrite (skipn_pre P _ (blen P) eq_refl).
  assert (H24 : 24 <= hlen f c) by (unfold hlen; destruct (Ffs.FileProofs.large f c); lia).
  rewrite (proj2 (N.ltb_ge _ _)) by (bl; lia). pose proof (header_not_blank f c rest attr NL) as NB. unfold not_blank in NB. rewrite NB.
  rewrite <- app_assoc. rewrite (file_read_back f c rest NL) by (lia || exact CK). cbn [fr_size].
  change 8 with (2 ^ 3) at 1. rewrite align_up_pad by (unfold two64; lia). change (2 ^ 3) with 8. rewrite pad_of_add by (lia || exact M). reflexivity.
Qed.

Lemma collect_yield : forall A (next : N -> step A) f o a o' l, next o = Yield (Ok a) (Some o') -> collect next f o' = Some (Ok l) ->
  collect next (S f) o = Some (Ok (a :: l)).
Proof. intros A next f o a o' l H1 H2. cbn [collect]. now rewrite H1, H2. Qed.

Definition is_pad (r : file_ref) : bool := fh_type (fr_header r) =? FFS_PAD.

(** What [add_file] appends, and what a reader makes of it. *)
Lemma add_file_ok : forall dbg attr large buf f, file_ok f -> f_type f <> FFS_PAD -> storable large f -> blen buf mod 8 = 0 -> 
  exists ext o,
    add_file dbg (erase_byte attr) large buf f = Ok (buf ++ ext) /\ blen (buf ++ ext) mod 8 = 0 /\ blen buf <= o /\
    o + file_len f <= blen (buf ++ ext) /\ stored dbg (buf ++ ext) f (o, ref_of f (joined (f_sections f))) /\
    forall P post fuel l, blen P mod 8 = 0 -> blen (P ++ ext ++ post) < 2 ^ 63 ->
      collect (file_next (P ++ ext ++ post) (erase_byte attr)) fuel (blen (P ++ ext)) = Some (Ok l) ->
      exists pads, forallb is_pad pads = true /\
        collect (file_next (P ++ ext ++ post) (erase_byte attr)) (S (S fuel)) (blen P) = Some (Ok (pads ++ ref_of f (joined (f_sections f)) :: l)).
Proof.
  intros dbg attr large buf f FO NP (ST1 & ST2 & ST3) M. pose proof FO as (NL & NB & TY & AT & W).
  set (c := joined (f_sections f)). pose proof (file_len_ok f FO) as FL. fold c in FL.
  pose proof (header_of_len f c NL) as HL. pose proof (checksum_clear _ AT ST1) as CC.
  assert (H24 : hlen f c = 24 \/ hlen f c = 32) by (unfold hlen; destruct (Ffs.FileProofs.large f c); auto).
  assert (FB : blen (header_of f c ++ c) = file_len f) by (bl; lia).
  assert (L63 : file_len f < 2 ^ 63) by (destruct large; lia).
  assert (RB : file_ref_new (header_of f c ++ c) = Ok (ref_of f c)).
  { pose proof (file_read_back f c [] NL ltac:(lia) (or_introl CC)) as X. rewrite app_nil_r in X. exact X. }
  assert (AL : N.land (fv_attributes (ref_of f c)) 31 = asked_alignment (f_attr f)).
  { apply align_of; [exact AT|]. pose proof (head_of_fields f c) as (_ & _ & [E|(E & _)]); auto. }
  set (k := asked_alignment (f_attr f)) in *.
  assert (STORED : forall x, blen x mod 8 = 0 -> (blen x + hlen f c) mod 2 ^ k = 0 ->
     stored dbg (x ++ (header_of f c ++ c) ++ repeat (erase_byte attr) (N.to_nat (pad_of 8 (file_len f)))) f (blen x, ref_of f c)).
  { intros x X8 XA. unfold stored. cbn [fr_data fr_size fr_content_offset ref_of]. split.
    { exists x, (repeat (erase_byte attr) (N.to_nat (pad_of 8 (file_len f)))). split; reflexivity. }
    split. { split; [lia|]. split; [lia|]. f_equal. pose proof (joined_len (f_sections f) 0 eq_refl W) as JL. fold c in JL. lia. }
    split; [exact X8|]. split; [exact XA|]. split.
    { unfold reads_as. cbn [fr_header fr_polarity fr_size ref_of]. pose proof (head_of_fields f c) as (E1 & E2 & E3). auto. }
    intros fuel FU. eexists. split; [apply (sections_read_back dbg f fuel (f_sections f) c); auto|].
    clear. induction (f_sections f) as [|s l IH]; constructor; [|exact IH]. split; [apply unread_header|apply unread_bytes]. }
  unfold add_file. rewrite (serialize_file_ok dbg f FO). fold c. cbn [bind].
  replace ((FFS_V2_MAX_FILE_SIZE <=? blen (header_of f c ++ c)) && negb large) with false.
  2: { symmetry. rewrite FB. destruct large; [apply andb_false_r|]. rewrite andb_true_r. apply N.leb_gt. exact ST3. }
  rewrite RB. cbn [bind]. rewrite AL. cbn [fr_content_offset ref_of].
  destruct (N.eqb_spec ((blen buf + hlen f c) mod 2 ^ k) 0) as [E|E]; cbn [negb].
  - (* already aligned *)
    exists ((header_of f c ++ c) ++ repeat (erase_byte attr) (N.to_nat (pad_of 8 (file_len f)))), (blen buf). cbn [bind].
    assert (BE : blen (buf ++ (header_of f c ++ c) ++ repeat (erase_byte attr) (N.to_nat (pad_of 8 (file_len f)))) = blen buf + (file_len f + pad_of 8 (file_len f))).
    { rewrite (blen_app buf), (blen_app (_ ++ _)), blen_repeat, FB. lia. }
    split. { rewrite pad8_pad, <- app_assoc, (blen_app buf), FB, pad_of_add by (lia || exact M). reflexivity. }
    rewrite BE. split. { rewrite <- N.add_mod_idemp_l, M, N.add_0_l by lia. apply pad_of_mod. lia. }
    split; [lia|]. split; [lia|]. split; [now apply STORED|].
    intros P post fuel l PM PL COL. exists []. split; [reflexivity|]. cbn [app].
    assert (NX := next_file P f c (repeat (erase_byte attr) (N.to_nat (pad_of 8 (file_len f))) ++ post) attr NL).
    rewrite <- (app_assoc (header_of f c ++ c)) in PL, COL |- *. specialize (NX PL PM (or_introl CC)).
    apply (collect_more _ _ (S fuel)); [lia|].
    eapply collect_yield; [exact NX|]. rewrite <- COL. f_equal.
    rewrite (blen_app P), (blen_app (_ ++ _)), blen_repeat, FB, FL. lia.
  - (* a pad file first *)
    assert (K : 4 <= k) by (destruct (align_cases _ AT) as [Z|Z]; [|exact Z]; fold k in Z; rewrite Z in E; change (2 ^ 0) with 1 in E; rewrite N.mod_1_r in E; contradiction).
    assert (P23 : 2 ^ k <= 2 ^ 23) by (apply N.pow_le_mono_r; lia).
    assert (P0 : 2 ^ k <> 0) by (apply N.pow_nonzero; lia).
    rewrite (proj2 (N.ltb_lt _ _)) by (change 16777216 with (2 * 2 ^ 23); lia). cbn [negb].
    replace (if (blen buf + 24 + hlen f c) mod 2 ^ k =? 0 then 0 else 2 ^ k - (blen buf + 24 + hlen f c) mod 2 ^ k) with (pad_of (2 ^ k) (blen buf + 24 + hlen f c)) by reflexivity.
    set (n := pad_of (2 ^ k) (blen buf + 24 + hlen f c)).
    assert (NLT : n < 2 ^ 23) by (unfold n; eapply N.lt_le_trans; [apply pad_of_lt; lia|exact P23]).
    rewrite serialize_pad_file. cbn [bind].
    set (d := repeat 255 (N.to_nat n)). set (pf := pad_file d).
    assert (DL : blen d = n) by apply blen_repeat.
    assert (PNL : length (f_name pf) = 16%nat) by reflexivity.
    assert (PHL : hlen pf d = 24).
    { unfold hlen, Ffs.FileProofs.large, pf, pad_file. cbn [f_attr]. change (negb (N.land 0 LARGE_FILE =? 0)) with false. cbn [orb].
      rewrite DL. rewrite (proj2 (N.ltb_ge _ _)) by lia. reflexivity. }
    assert (PB : blen (header_of pf d ++ d) = 24 + n) by (rewrite blen_app, (header_of_len pf d PNL), PHL, DL; reflexivity).
    assert (START : (blen buf + (24 + n) + hlen f c) mod 2 ^ k = 0).
    { replace (blen buf + (24 + n) + hlen f c) with (blen buf + 24 + hlen f c + n) by lia. apply pad_of_mod. lia. }
    assert (D8 : forall x, x mod 2 ^ k = 0 -> x mod 8 = 0).
    { intros x X. apply N.mod_divide in X; [|exact P0]. destruct X as (q & ->). replace (2 ^ k) with (2 ^ (k - 3) * 8).
      - rewrite N.mul_assoc. apply N.mod_mul. lia.
      - change 8 with (2 ^ 3). rewrite <- N.pow_add_r. f_equal. lia. }
    assert (START8 : (blen buf + (24 + n)) mod 8 = 0).
    { apply D8 in START. destruct H24 as [Z|Z]; rewrite Z in START; lia. }
    assert (N8 : (24 + n) mod 8 = 0) by lia.
    exists ((header_of pf d ++ d) ++ (header_of f c ++ c) ++ repeat (erase_byte attr) (N.to_nat (pad_of 8 (file_len f)))), (blen buf + (24 + n)).
    assert (BE : blen (buf ++ (header_of pf d ++ d) ++ (header_of f c ++ c) ++ repeat (erase_byte attr) (N.to_nat (pad_of 8 (file_len f)))) =
                 blen buf + (24 + n) + (file_len f + pad_of 8 (file_len f))).
    { rewrite (blen_app buf), (blen_app (header_of pf d ++ d)), (blen_app (header_of f c ++ c)), blen_repeat, FB, PB. lia. }
    split.
    { rewrite pad8_pad. assert (XL : blen ((buf ++ header_of pf d ++ d) ++ header_of f c ++ c) = blen buf + (24 + n) + file_len f).
      { rewrite (blen_app (buf ++ _)), (blen_app buf), PB, FB. reflexivity. }
      rewrite XL, pad_of_add by (lia || exact START8). rewrite <- !app_assoc. reflexivity. }
    rewrite BE. split. { rewrite <- N.add_mod_idemp_l, START8, N.add_0_l by lia. apply pad_of_mod. lia. }
    split; [lia|]. split; [lia|]. split.
    { rewrite (app_assoc buf). replace (blen buf + (24 + n)) with (blen (buf ++ header_of pf d ++ d)) by (rewrite (blen_app buf), PB; reflexivity).
      apply STORED; rewrite (blen_app buf), PB; assumption. }
    intros P post fuel l PM PL COL. exists [ref_of pf d].
    split. { cbn [forallb]. unfold is_pad. cbn [fr_header ref_of]. rewrite (proj1 (proj2 (head_of_fields pf d))). reflexivity. } cbn [app].
    set (R := repeat (erase_byte attr) (N.to_nat (pad_of 8 (file_len f)))) in *.
    assert (NX1 := next_file P pf d ((header_of f c ++ c) ++ R ++ post) attr PNL).
    assert (NX2 := next_file (P ++ header_of pf d ++ d) f c (R ++ post) attr NL).
    rewrite <- !(app_assoc (header_of pf d ++ d)), <- (app_assoc (header_of f c ++ c)) in PL, COL |- *.
    rewrite <- (app_assoc P (header_of pf d ++ d)) in NX2.
    specialize (NX1 PL PM (or_introl eq_refl)).
    assert (PM2 : blen (P ++ header_of pf d ++ d) mod 8 = 0) by (rewrite blen_app, PB; clear - PM N8; lia).
    specialize (NX2 PL PM2 (or_introl CC)).
    eapply collect_yield; [exact NX1|].
    replace (blen P + (hlen pf d + blen d) + pad_of 8 (hlen pf d + blen d)) with (blen (P ++ header_of pf d ++ d)).
    2: { rewrite (blen_app P), PB, PHL, DL. unfold pad_of. rewrite N8. cbn [N.eqb]. lia. }
    eapply collect_yield; [exact NX2|]. rewrite <- COL. f_equal.
    unfold R. rewrite !(blen_app P), (blen_app (header_of pf d ++ d)), (blen_app (header_of f c ++ c)), blen_repeat, FB, FL. lia.
Qed.

(** ** All the files *)
Lemma stored_app : forall dbg whole f p z, stored dbg whole f p -> stored dbg (whole ++ z) f p.
Proof.
  intros dbg whole f [o r] z ((x & y & E & L) & H). split; [|exact H]. exists x, (y ++ z). split; [|exact L]. rewrite E. rewrite <- !app_assoc. reflexivity.
Qed.
Lemma stored_prefix : forall dbg a a' b f o r, blen a = blen a' -> blen a <= o -> stored dbg (a ++ b) f (o, r) -> stored dbg (a' ++ b) f (o, r).
Proof.
  intros dbg a a' b f o r AL O ((x & y & E & L) & H). split; [|exact H].
  assert (X : x = a ++ skipn (length a) x).
  { rewrite <- (firstn_skipn (length a) x) at 1. f_equal. assert (Y : firstn (length a) (x ++ fr_data r ++ y) = firstn (length a) x).
    { rewrite firstn_app. replace (length a - length x)%nat with 0%nat by (unfold blen in *; lia). now rewrite app_nil_r. }
    rewrite <- Y, <- E. apply firstn_app_exact. }
  exists (a' ++ skipn (length a) x), y. split.
  - rewrite <- app_assoc. f_equal. rewrite X in E. rewrite <- app_assoc in E. now apply app_inv_head in E.
  - rewrite blen_app, <- AL, <- blen_app, <- X. exact L.
Qed.

Lemma add_files_ok : forall dbg attr large fs buf,
  Forall (fun f => file_ok f /\ f_type f <> FFS_PAD /\ storable large f) fs -> blen buf mod 8 = 0 ->
  exists ext ps,
    add_files dbg (erase_byte attr) large buf fs = Ok (buf ++ ext) /\ blen (buf ++ ext) mod 8 = 0 /\
    Forall2 (stored dbg (buf ++ ext)) fs ps /\ in_order (blen buf) ps /\ Forall (fun p => is_pad (snd p) = false) ps /\
    forall P post fuel, blen P mod 8 = 0 -> blen (P ++ ext ++ post) < 2 ^ 63 ->
      collect (file_next (P ++ ext ++ post) (erase_byte attr)) fuel (blen (P ++ ext)) = Some (Ok []) ->
      exists l, filter (fun r => negb (is_pad r)) l = map snd ps /\
        collect (file_next (P ++ ext ++ post) (erase_byte attr)) (2 * length fs + fuel) (blen P) = Some (Ok l).
Proof.
  intros dbg attr large. induction fs as [|f fs IH]; intros buf F M; cbn [add_files].
  - exists [], []. rewrite app_nil_r. split; [reflexivity|]. split; [exact M|]. split; [constructor|]. split; [exact I|]. split; [constructor|].
    intros P post fuel PM PL COL. rewrite app_nil_r in COL. exists []. split; [reflexivity|exact COL].
  - inversion F as [|? ? (FO & NP & ST) F']; subst.
    destruct (add_file_ok dbg attr large buf f FO NP ST M) as (e1 & o & A1 & A2 & A3 & A4 & A5 & A6).
    destruct (IH (buf ++ e1) F' A2) as (e2 & ps & B1 & B2 & B3 & B4 & B5 & B6).
    exists (e1 ++ e2), ((o, ref_of f (joined (f_sections f))) :: ps). rewrite A1. cbn [bind].
    split. { rewrite B1, app_assoc. reflexivity. }
    rewrite (app_assoc buf). split; [exact B2|].
    split. { constructor; [now apply stored_app|exact B3]. }
    assert (SZ : fr_size (ref_of f (joined (f_sections f))) = file_len f) by (cbn [fr_size ref_of]; now apply file_len_ok).
    split. { cbn [in_order]. split; [exact A3|]. rewrite SZ. clear - A4 B4. destruct ps as [|[o' r'] ps]; [exact I|]. cbn [in_order] in *.
             destruct B4 as (B4 & B4'). split; [lia|exact B4']. }
    assert (NPAD : is_pad (ref_of f (joined (f_sections f))) = false).
    { unfold is_pad. cbn [fr_header ref_of]. rewrite (proj1 (proj2 (head_of_fields f (joined (f_sections f))))). now apply N.eqb_neq. }
    split. { constructor; [exact NPAD|exact B5]. }
    intros P post fuel PM PL COL. rewrite <- (app_assoc e1) in PL, COL |- *.
    assert (E1 : blen e1 mod 8 = 0) by (rewrite blen_app in A2; clear - A2 M; lia).
    destruct (B6 (P ++ e1) post fuel) as (l & L1 & L2).
    { rewrite blen_app. clear - PM E1. lia. }
    { rewrite <- app_assoc. exact PL. }
    { rewrite <- !app_assoc. exact COL. }
    rewrite <- !app_assoc in L2.
    destruct (A6 P (e2 ++ post) (2 * length fs + fuel)%nat l PM PL L2) as (pads & Q1 & Q2).
    exists (pads ++ ref_of f (joined (f_sections f)) :: l). split.
    + rewrite filter_app. cbn [filter]. rewrite NPAD. cbn [negb map snd]. rewrite L1.
      replace (filter (fun r => negb (is_pad r)) pads) with (@nil file_ref); [reflexivity|].
      clear - Q1. induction pads as [|p pads IHp]; [reflexivity|]. cbn [forallb filter] in *. apply andb_true_iff in Q1. destruct Q1 as (-> & Q1). cbn [negb]. auto.
    + replace (2 * length (f :: fs) + fuel)%nat with (S (S (2 * length fs + fuel))) by (cbn [length]; lia). exact Q2.
Qed.

(** Blank space at the end stops the iteration. *)
Lemma blank_stops : forall P n e fuel, collect (file_next (P ++ repeat e n) e) (S fuel) (blen P) = Some (Ok []).
Proof.
  intros P n e fuel. cbn [collect]. unfold file_next at 1. rewrite blen_app. rewrite (proj2 (N.ltb_ge _ _)) by lia.
  rewrite (skipn_pre P _ (blen P) eq_refl). destruct (N.ltb_spec (blen (repeat e n)) 24); [reflexivity|].
  replace (forallb (N.eqb e) (bytes_at (repeat e n) 0 24)) with true; [reflexivity|]. symmetry. apply forallb_forall. intros x I.
  unfold bytes_at in I. cbn [N.to_nat skipn] in I.
  assert (In x (repeat e n)) by (rewrite <- (firstn_skipn (Pos.to_nat 24) (repeat e n)); apply in_app_iff; now left).
  apply repeat_spec in H0. subst. apply N.eqb_refl.
Qed.

(** ** The header *)
Definition wtot (l : list N) : N := fold_right N.add 0 (words l).
Lemma wtot_app : forall a b, Nat.even (length a) = true -> wtot (a ++ b) = wtot a + wtot b.
Proof.
  intros a. remember (length a) as n eqn:E. revert a E. induction n as [n IH] using (well_founded_induction lt_wf). intros a E b H.
  destruct a as [|x [|y a]]; [reflexivity|subst; discriminate|]. cbn [app words fold_right]. unfold wtot in *. cbn [words fold_right].
  rewrite (IH (length a)); [lia| |reflexivity|].
  - subst n. cbn [length]. lia.
  - subst n. exact H.
Qed.
Lemma sum16_wtot : forall l s, sum16 (s mod two16) l = (s + wtot l) mod two16.
Proof.
  intros l. remember (length l) as n eqn:E. revert l E. induction n as [n IH] using (well_founded_induction lt_wf). intros l E s.
  destruct l as [|x [|y l]]; try (unfold wtot; cbn [words fold_right sum16]; now rewrite N.add_0_r).
  cbn [sum16]. rewrite N.add_mod_idemp_l by (unfold two16; lia). rewrite (IH (length l)); [|subst; cbn [length]; lia|reflexivity].
  unfold wtot. cbn [words fold_right]. f_equal. lia.
Qed.
Lemma sum16_total : forall l, sum16 0 l = wtot l mod two16.
Proof. intros l. apply (sum16_wtot l 0). Qed.
Lemma wtot_le2 : forall x, x < two16 -> wtot (le_bytes 2 x) = x.
Proof. intros x H. unfold wtot. cbn [le_bytes words fold_right]. unfold two16 in H. clear - H. lia. Qed.

Definition vheader_ok (h : vheader) : Prop :=
  length (vh_zero h) = 16%nat /\ length (vh_guid h) = 16%nat /\ vh_length h < 2 ^ 64 /\ vh_signature h < 2 ^ 32 /\ vh_attr h < 2 ^ 32 /\
  vh_header_length h < 2 ^ 16 /\ vh_checksum h < 2 ^ 16 /\ vh_ext_offset h < 2 ^ 16.
Lemma vheader_len : forall h, length (vh_zero h) = 16%nat -> length (vh_guid h) = 16%nat -> blen (vheader_bytes h) = 56.
Proof. intros h H1 H2. unfold vheader_bytes. bl. unfold blen. rewrite H1, H2. reflexivity. Qed.

Lemma read_vheader_bytes : forall h rest, vheader_ok h -> read_vheader (vheader_bytes h ++ rest) = h.
Proof.
  intros [z g len sig attr hl ck ext rs rv] rest (H1 & H2 & H3 & H4 & H5 & H6 & H7 & H8).
  cbn [vh_zero vh_guid vh_length vh_signature vh_attr vh_header_length vh_checksum vh_ext_offset] in *.
  unfold read_vheader, vheader_bytes. cbn [vh_zero vh_guid vh_length vh_signature vh_attr vh_header_length vh_checksum vh_ext_offset vh_reserved vh_revision].
  rewrite <- !app_assoc. assert (Z : blen z = 16) by (unfold blen; rewrite H1; reflexivity). assert (G : blen g = 16) by (unfold blen; rewrite H2; reflexivity).
  f_equal.
  - now apply bytes_at_here.
  - rewrite (bytes_at_pre0 z) by exact Z. now apply bytes_at_here.
  - change 32 with (16 + 16). rewrite (rd_pre z) by exact Z. rewrite (rd_pre0 g) by exact G. now apply rd_here.
  - change 40 with (16 + (16 + 8)). rewrite (rd_pre z) by exact Z. rewrite (rd_pre g) by exact G. rewrite (rd_pre0 (le_bytes 8 len)) by apply blen_le. now apply rd_here.
  - change 44 with (16 + (16 + (8 + 4))). rewrite (rd_pre z) by exact Z. rewrite (rd_pre g) by exact G. rewrite (rd_pre (le_bytes 8 len)) by apply blen_le.
    rewrite (rd_pre0 (le_bytes 4 sig)) by apply blen_le. now apply rd_here.
  - change 48 with (16 + (16 + (8 + (4 + 4)))). rewrite (rd_pre z) by exact Z. rewrite (rd_pre g) by exact G. rewrite (rd_pre (le_bytes 8 len)) by apply blen_le.
    rewrite (rd_pre (le_bytes 4 sig)) by apply blen_le. rewrite (rd_pre0 (le_bytes 4 attr)) by apply blen_le. now apply rd_here.
  - change 50 with (16 + (16 + (8 + (4 + (4 + 2))))). rewrite (rd_pre z) by exact Z. rewrite (rd_pre g) by exact G. rewrite (rd_pre (le_bytes 8 len)) by apply blen_le.
    rewrite (rd_pre (le_bytes 4 sig)) by apply blen_le. rewrite (rd_pre (le_bytes 4 attr)) by apply blen_le. rewrite (rd_pre0 (le_bytes 2 hl)) by apply blen_le. now apply rd_here.
  - change 52 with (16 + (16 + (8 + (4 + (4 + (2 + 2)))))). rewrite (rd_pre z) by exact Z. rewrite (rd_pre g) by exact G. rewrite (rd_pre (le_bytes 8 len)) by apply blen_le.
    rewrite (rd_pre (le_bytes 4 sig)) by apply blen_le. rewrite (rd_pre (le_bytes 4 attr)) by apply blen_le. rewrite (rd_pre (le_bytes 2 hl)) by apply blen_le.
    rewrite (rd_pre0 (le_bytes 2 ck)) by apply blen_le. now apply rd_here.
  - change 54 with (16 + (16 + (8 + (4 + (4 + (2 + (2 + 2))))))). rewrite (rd_pre z) by exact Z. rewrite (rd_pre g) by exact G. rewrite (rd_pre (le_bytes 8 len)) by apply blen_le.
    rewrite (rd_pre (le_bytes 4 sig)) by apply blen_le. rewrite (rd_pre (le_bytes 4 attr)) by apply blen_le. rewrite (rd_pre (le_bytes 2 hl)) by apply blen_le.
    rewrite (rd_pre (le_bytes 2 ck)) by apply blen_le. rewrite (rd_pre0 (le_bytes 2 ext)) by apply blen_le. apply rd_byte.
  - change 55 with (16 + (16 + (8 + (4 + (4 + (2 + (2 + (2 + 1)))))))). rewrite (rd_pre z) by exact Z. rewrite (rd_pre g) by exact G. rewrite (rd_pre (le_bytes 8 len)) by apply blen_le.
    rewrite (rd_pre (le_bytes 4 sig)) by apply blen_le. rewrite (rd_pre (le_bytes 4 attr)) by apply blen_le. rewrite (rd_pre (le_bytes 2 hl)) by apply blen_le.
    rewrite (rd_pre (le_bytes 2 ck)) by apply blen_le. rewrite (rd_pre (le_bytes 2 ext)) by apply blen_le. rewrite (rd_pre0 [rs] ([rv] ++ rest) 1) by reflexivity. apply rd_byte.
Qed.

Lemma vheader_wtot : forall z g len sig attr hl ck ext rs rv, length z = 16%nat -> length g = 16%nat -> hl < two16 -> ck < two16 -> ext < two16 ->
  wtot (vheader_bytes (VHeader z g len sig attr hl ck ext rs rv)) =
    wtot (vheader_bytes (VHeader z g 0 sig attr 0 0 0 rs rv)) + wtot (le_bytes 8 len) + hl + ck + ext.
Proof.
  intros z g len sig attr hl ck ext rs rv H1 H2 H3 H4 H5. unfold vheader_bytes.
  cbn [vh_zero vh_guid vh_length vh_signature vh_attr vh_header_length vh_checksum vh_ext_offset vh_reserved vh_revision].
  assert (EZ : Nat.even (length z) = true) by now rewrite H1. assert (EG : Nat.even (length g) = true) by now rewrite H2.
  assert (EL : forall w v, Nat.even w = true -> Nat.even (length (le_bytes w v)) = true) by (intros w v E; now rewrite le_bytes_length).
  rewrite !(wtot_app z), !(wtot_app g) by assumption. rewrite !(wtot_app (le_bytes 8 _)), !(wtot_app (le_bytes 4 _)), !(wtot_app (le_bytes 2 _)) by (apply EL; reflexivity).
  rewrite !wtot_le2 by (assumption || reflexivity). change (wtot (le_bytes 8 0)) with 0. lia.
Qed.

Lemma read_blocks_ok : forall l rest, Forall (fun b : block => fst b < 2 ^ 32 /\ snd b < 2 ^ 32) l -> read_blocks (flat_map block_bytes l ++ rest) = l ++ read_blocks rest.
Proof.
  induction l as [|[a b] l IH]; intros rest F; [reflexivity|]. inversion F as [|? ? (A & B) F']; subst. cbn [fst snd] in *.
  cbn [flat_map]. unfold block_bytes at 1. cbn [fst snd]. cbn [le_bytes app read_blocks]. f_equal; [|now apply IH].
  f_equal; [change (le_val (le_bytes 4 a) = a)|change (le_val (le_bytes 4 b) = b)]; apply le_val_bytes; assumption.
Qed.
Lemma map_bytes_len : forall l, blen (flat_map block_bytes l) = 8 * N.of_nat (length l).
Proof. induction l as [|b l IH]; [reflexivity|]. cbn [flat_map]. unfold block_bytes at 1. bl. rewrite IH. cbn [length]. lia. Qed.
