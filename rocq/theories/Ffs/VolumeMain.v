(** A written volume, read. *)
From Verif Require Import Base.Prelude Base.Bytes Align.Model Align.Proofs Ffs.Model Ffs.Spec Ffs.SectionProofs Ffs.SectionRead Ffs.FileProofs Ffs.VolumeProofs.
Local Open Scope N_scope.

Lemma list_eqb_eq : forall a b, list_eqb a b = true <-> a = b.
Proof.
  induction a as [|x a IH]; intros [|y b]; cbn [list_eqb]; try (split; (reflexivity || discriminate)).
  rewrite andb_true_iff, N.eqb_eq, IH. split; [intros (-> & ->); reflexivity|intros E; injection E; auto].
Qed.

Definition ext_part (v : volume) : list N :=
  match v_ext v with Some (e, d) => let c := ext_header_bytes e ++ d in header_of (pad_file c) c ++ c | None => [] end.
Definition ext_at (v : volume) : N := match v_ext v with Some _ => 56 + 8 * (blen (v_blocks v) + 1) + 24 | None => 0 end.
Definition vhead (v : volume) (len hl ck ext : N) : vheader := VHeader (repeat 0 16) (v_guid v) len FVH (v_attr v) hl ck ext 0 FFS_REVISION.
Definition vmap (v : volume) : list N := flat_map block_bytes (v_blocks v ++ [(0, 0)]).

Lemma ext_part_header : forall v e d, volume_ok v -> v_ext v = Some (e, d) ->
  let c := ext_header_bytes e ++ d in
  blen c = eh_size e /\ blen (header_of (pad_file c) c) = 24 /\ file_content_offset false (pad_file c) = Ok 24 /\ blen c < two32.
Proof.
  intros v e d (_ & _ & _ & _ & _ & X) E c. rewrite E in X. destruct X as ((G1 & G2) & S1 & S2 & B).
  assert (C : blen c = eh_size e).
  { unfold c, ext_header_bytes. bl. rewrite S1. unfold blen at 1. rewrite G1. lia. }
  split; [exact C|]. split.
  { rewrite header_of_len by reflexivity. unfold hlen, large, pad_file. cbn [f_attr]. change (negb (N.land 0 LARGE_FILE =? 0)) with false. cbn [orb].
    rewrite (proj2 (N.ltb_ge _ _)) by lia. reflexivity. }
  split; [|unfold two32; lia].
  unfold file_content_offset, pad_file. cbn [f_attr f_sections]. change (negb (N.land 0 LARGE_FILE =? 0)) with false. cbv iota.
  cbn [sections_length]. unfold serialize_section. cbn [dirty s_header serialize_header bind s_bytes app]. rewrite (proj2 (N.ltb_ge _ _)) by lia. reflexivity.
Qed.

Lemma file_content_offset_dbg : forall dbg c, file_content_offset dbg (pad_file c) = file_content_offset false (pad_file c).
Proof. reflexivity. Qed.

Lemma vmap_len : forall v, blen (vmap v) = 8 * (blen (v_blocks v) + 1).
Proof. intros v. unfold vmap. rewrite map_bytes_len, app_length. cbn [length]. unfold blen. lia. Qed.
Lemma vhead_len : forall v len hl ck ext, volume_ok v -> blen (vheader_bytes (vhead v len hl ck ext)) = 56.
Proof.
  intros v len hl ck ext (G & _). apply vheader_len; [reflexivity|]. unfold vhead. cbn [vh_guid]. destruct G as [->| ->]; reflexivity.
Qed.

(** The shape of a written volume. *)
Lemma serialize_shape : forall dbg v, volume_ok v -> volume_fits v ->
  exists ext ps n,
    let hl := 56 + 8 * (blen (v_blocks v) + 1) in
    let pb := erase_byte (v_attr v) in
    let E := ext_part v ++ repeat pb (N.to_nat (pad_of 8 (blen (ext_part v)))) in
    let len := hl + blen E + blen ext + N.of_nat n in
    let body := vmap v ++ E ++ ext ++ repeat pb n in
    let out ck := vheader_bytes (vhead v len hl ck (ext_at v)) ++ body in
    (exists ck, ck < two16 /\ serialize_volume dbg v = Ok (out ck) /\ word_sum (bytes_at (out ck) 0 hl) = 0) /\
    (forall ck, Forall2 (stored dbg (out ck)) (v_files v) ps) /\ in_order (hl + blen E) ps /\
    match v_capacity v with Some size => len = N.max size (hl + blen E + blen ext) | None => n = O end /\
    (blen ext + N.of_nat n < 2 ^ 63 -> exists l, filter (fun r => negb (is_pad r)) l = map snd ps /\
       collect (file_next (ext ++ repeat pb n) pb) (2 * length (v_files v) + 1) 0 = Some (Ok l)).
Proof.
  intros dbg v VO (FIT & large & LG & ST). pose proof VO as (GU & AT & BN & BO & FO & EX).
  assert (LE : list_eqb (v_guid v) FFS3_GUID = large).
  { destruct (list_eqb (v_guid v) FFS3_GUID) eqn:Q.
    - apply list_eqb_eq in Q. symmetry. now apply LG.
    - destruct large; [|reflexivity]. pose proof (proj1 LG eq_refl) as Z. apply list_eqb_eq in Z. congruence. }
  set (pb := erase_byte (v_attr v)). set (hl := 56 + 8 * (blen (v_blocks v) + 1)) in *.
  set (h0 := vheader_bytes (vhead v 0 0 0 0)).
  assert (H0 : blen h0 = 56) by now apply vhead_len.
  assert (HL : blen (h0 ++ vmap v) = hl) by (rewrite blen_app, H0, vmap_len; reflexivity).
  assert (HL8 : hl mod 8 = 0) by (unfold hl; clear; lia).
  set (E := ext_part v ++ repeat pb (N.to_nat (pad_of 8 (blen (ext_part v))))).
  assert (EL : blen E = blen (ext_part v) + pad_of 8 (blen (ext_part v))) by (unfold E; now rewrite blen_app, blen_repeat).
  assert (EM : blen E mod 8 = 0) by (rewrite EL; apply pad_of_mod; lia).
  set (buf1 := (h0 ++ vmap v) ++ E).
  assert (B1 : blen buf1 = hl + blen E) by (unfold buf1; rewrite blen_app, HL; reflexivity).
  assert (B1M : blen buf1 mod 8 = 0) by (rewrite B1; clear - HL8 EM; lia).
  assert (FALL : Forall (fun f => file_ok f /\ f_type f <> FFS_PAD /\ storable large f) (v_files v)).
  { rewrite Forall_forall in *. intros f I. destruct (FO f I) as (X1 & X2). auto. }
  destruct (add_files_ok dbg (v_attr v) large (v_files v) buf1 FALL B1M) as (ext & ps & A1 & A2 & A3 & A4 & A5 & A6). fold pb in A1, A6.
  set (n := match v_capacity v with Some size => N.to_nat (size - (hl + blen E + blen ext)) | None => O end).
  exists ext, ps, n. cbv zeta. fold hl pb E.
  set (len := hl + blen E + blen ext + N.of_nat n).
  set (buf2 := buf1 ++ ext ++ repeat pb n).
  assert (B2 : blen buf2 = len).
  { unfold buf2, len. rewrite !blen_app, B1. unfold blen at 3. rewrite repeat_length. lia. }
  assert (FIRST : (let* (buf, ext_offset) := match v_ext v with
      | Some (e, data) =>
        let f := pad_file (ext_header_bytes e ++ data) in
        let* _ := to_u32 (blen (ext_header_bytes e ++ data)) FInvalidHeader in
        let* b := serialize_file dbg f in
        let* o := file_content_offset dbg f in
        Ok ((h0 ++ vmap v) ++ b, hl + o)
      | None => Ok (h0 ++ vmap v, 0)
      end in Ok (pad8 pb buf, ext_offset)) = Ok (buf1, ext_at v)).
  { unfold buf1, ext_at. unfold E, ext_part. destruct (v_ext v) as [[e d]|] eqn:EV.
    - destruct (ext_part_header v e d VO EV) as (Q1 & Q2 & Q3 & Q4). cbv zeta. unfold to_u32. rewrite (proj2 (N.ltb_lt _ _) Q4). cbn [bind].
      rewrite serialize_pad_file. cbn [bind]. rewrite file_content_offset_dbg, Q3. cbn [bind]. do 2 f_equal.
      rewrite pad8_pad, <- !app_assoc. rewrite (blen_app h0), (blen_app (vmap v)). rewrite N.add_assoc, <- (blen_app h0), HL.
      rewrite pad_of_add by (lia || exact HL8). reflexivity.
    - cbn [bind]. do 2 f_equal. rewrite pad8_pad, HL. unfold pad_of. rewrite HL8. reflexivity. }
  cbv zeta in FIRST.
  assert (CAP : (match v_capacity v with
             | Some size => if blen (buf1 ++ ext) <? size then (buf1 ++ ext) ++ repeat pb (N.to_nat (size - blen (buf1 ++ ext))) else buf1 ++ ext
             | None => buf1 ++ ext end) = buf2).
  { unfold buf2, n. rewrite (blen_app buf1), B1. destruct (v_capacity v) as [size|]; [|cbn [repeat]; now rewrite app_nil_r].
    destruct (N.ltb_spec (hl + blen E + blen ext) size); [now rewrite <- app_assoc|].
    replace (N.to_nat (size - (hl + blen E + blen ext))) with O by lia. cbn [repeat]. now rewrite app_nil_r. }
  set (sum := sum16 0 (bytes_at buf2 0 hl ++ le_bytes 8 len ++ le_bytes 2 hl ++ le_bytes 2 (ext_at v))).
  assert (EXT : ext_at v < two16) by (unfold ext_at, two16, hl in *; destruct (v_ext v); lia).
  assert (HLT : hl < two16) by (unfold two16; lia).
  set (ck := (two16 - sum) mod two16).
  assert (CKT : ck < two16) by (apply N.mod_lt; unfold two16; lia).
  assert (BODY : forall c, vheader_bytes (vhead v len hl c (ext_at v)) ++ vmap v ++ E ++ ext ++ repeat pb n =
                 vheader_bytes (vhead v len hl c (ext_at v)) ++ skipn 56 buf2).
  { intros c. f_equal. unfold buf2, buf1. rewrite <- !app_assoc. change 56%nat with (N.to_nat 56). rewrite (skipn_pre h0) by exact H0. reflexivity. }
  split; [|split; [|split; [|split]]].
  - exists ck. split; [exact CKT|]. split.
    + rewrite BODY. unfold serialize_volume. rewrite LE.
      fold pb. change (vheader_bytes _ ++ flat_map block_bytes (v_blocks v ++ [(0, 0)])) with (h0 ++ vmap v). rewrite HL.
      match goal with |- bind ?x ?k = _ => destruct x as [[buf eo]|e|] eqn:FX; cbn [bind] end.
      * cbn [bind] in FIRST. injection FIRST as F1 F2. rewrite F1, F2, A1. cbn [bind]. rewrite CAP.
        rewrite (proj2 (N.leb_gt _ _) HLT), (proj2 (N.leb_gt _ _) EXT). rewrite B2. reflexivity.
      * discriminate.
      * discriminate.
    + rewrite app_assoc. rewrite bytes_at_here by (rewrite blen_app, vhead_len, vmap_len by exact VO; reflexivity).
      unfold word_sum. change (fold_right N.add 0 (words ?l)) with (wtot l).
      assert (GL : length (v_guid v) = 16%nat) by (destruct GU as [->| ->]; reflexivity).
      assert (EV1 : forall a b c d, Nat.even (length (vheader_bytes (vhead v a b c d))) = true).
      { intros a b c d. pose proof (vhead_len v a b c d VO) as Z. unfold blen in Z. replace (length _) with 56%nat by lia. reflexivity. }
      rewrite wtot_app by apply EV1. unfold vhead. rewrite vheader_wtot by (reflexivity || assumption).
      assert (SUM : sum = (wtot h0 + wtot (vmap v) + wtot (le_bytes 8 len) + hl + ext_at v) mod two16).
      { unfold sum. rewrite sum16_total. unfold buf2, buf1. rewrite <- (app_assoc (h0 ++ vmap v)). rewrite (bytes_at_here (h0 ++ vmap v)) by exact HL.
        rewrite wtot_app. 2: { rewrite app_length, Nat.even_add. unfold h0. rewrite EV1. pose proof (vmap_len v) as Z. unfold blen in Z.
          replace (length (vmap v)) with (2 * (4 * (length (v_blocks v) + 1)))%nat by lia. rewrite Nat.even_mul. reflexivity. }
        rewrite wtot_app by apply EV1. rewrite !wtot_app by (rewrite le_bytes_length; reflexivity). rewrite !wtot_le2 by assumption. f_equal. lia. }
      fold (vhead v 0 0 0 0). fold h0. unfold ck. rewrite SUM. clear. change (2 ^ 16) with two16. unfold two16.
      set (a := wtot h0). set (b := wtot (vmap v)). set (c := wtot (le_bytes 8 len)). set (e := ext_at v). generalize hl. clearbody a b c e. clear. intros hl. lia.
  - intros c. rewrite app_assoc. clear - A3 B1 A4 HL H0 VO EL.
    assert (G : forall fs lo, hl + blen E <= lo -> in_order lo ps -> Forall2 (stored dbg (buf1 ++ ext)) fs ps ->
      Forall2 (stored dbg ((vheader_bytes (vhead v len hl c (ext_at v)) ++ vmap v) ++ E ++ ext ++ repeat pb n)) fs ps).
    { clear A3 A4. induction ps as [|[o r] ps IH]; intros fs lo LO IO F; inversion F as [|f ? fs' ? S F']; subst; constructor.
      - cbn [in_order] in IO. destruct IO as (IO & _). apply (stored_prefix dbg (h0 ++ vmap v)).
        + rewrite !blen_app, H0, vhead_len by exact VO. reflexivity.
        + rewrite HL. lia.
        + unfold buf1 in S. apply (stored_app _ _ _ _ (repeat pb n)) in S. rewrite <- !app_assoc in *. exact S.
      - cbn [in_order] in IO. destruct IO as (IO1 & IO2). apply (IH fs' (o + fr_size r)); [lia|exact IO2|exact F']. }
    apply (G _ (hl + blen E)); [lia|rewrite <- B1; exact A4|exact A3].
  - rewrite <- B1. exact A4.
  - unfold len, n. destruct (v_capacity v) as [size|]; [lia|reflexivity].
  - intros L. destruct (A6 [] (repeat pb n) 1%nat eq_refl) as (l & L1 & L2).
    + cbn [app]. rewrite blen_app. unfold blen at 2. rewrite repeat_length. exact L.
    + cbn [app]. apply blank_stops.
    + exists l. split; [exact L1|exact L2].
Qed.

Lemma rev_app_one : forall (A : Type) (l : list A) x, rev (l ++ [x]) = x :: rev l.
Proof. intros. now rewrite rev_app_distr. Qed.

Lemma nonempty_match : forall (A B : Type) (l : list A) (x y : B), l <> [] -> match l with [] => x | _ :: _ => y end = y.
Proof. intros A B [|a l] x y H; [contradiction|reflexivity]. Qed.

Lemma volume_read : forall v len ck E ext n pb, volume_ok v -> volume_fits v -> ck < two16 ->
  let hl := 56 + 8 * (blen (v_blocks v) + 1) in
  E = ext_part v ++ repeat pb (N.to_nat (pad_of 8 (blen (ext_part v)))) ->
  len = hl + blen E + blen ext + N.of_nat n -> len < 2 ^ 63 ->
  let out := vheader_bytes (vhead v len hl ck (ext_at v)) ++ vmap v ++ E ++ ext ++ repeat pb n in
  word_sum (bytes_at out 0 hl) = 0 ->
  blen out = len /\
  volume_ref_new out = Ok (VolumeRef out (vhead v len hl ck (ext_at v)) (option_map fst (v_ext v)) (v_blocks v) (hl + blen E)) /\
  vr_ext_header (VolumeRef out (vhead v len hl ck (ext_at v)) (option_map fst (v_ext v)) (v_blocks v) (hl + blen E)) = Ok (v_ext v) /\
  slice out (hl + blen E) (blen out) = Ok (ext ++ repeat pb n).
Proof.
  intros v len ck E ext n pb VO (FIT & large & LG & ST) CK hl EE LEN L63 out WS. pose proof VO as (GU & AT & BN & BO & FO & EX).
  assert (GL : length (v_guid v) = 16%nat) by (destruct GU as [->| ->]; reflexivity).
  pose proof (vhead_len v len hl ck (ext_at v) VO) as VL. pose proof (vmap_len v) as ML.
  assert (OL : blen out = len).
  { unfold out. rewrite !blen_app, VL, ML. unfold blen at 4. rewrite repeat_length. lia. }
  assert (HL8 : hl mod 8 = 0) by (unfold hl; clear; lia).
  assert (EL : blen E = blen (ext_part v) + pad_of 8 (blen (ext_part v))) by (rewrite EE, blen_app, blen_repeat; reflexivity).
  assert (EM : blen E mod 8 = 0) by (rewrite EL; apply pad_of_mod; lia).
  assert (HLT : hl + 24 < 2 ^ 16) by (unfold hl; lia).
  assert (EXT : ext_at v <= hl + 24) by (unfold ext_at, hl; destruct (v_ext v); lia).
  assert (HO : vheader_ok (vhead v len hl ck (ext_at v))).
  { unfold vheader_ok, vhead. cbn [vh_zero vh_guid vh_length vh_signature vh_attr vh_header_length vh_checksum vh_ext_offset].
    unfold two16 in CK. split; [reflexivity|]. split; [exact GL|]. split; [lia|]. split; [reflexivity|]. split; [exact AT|]. split; [lia|]. split; [exact CK|lia]. }
  split; [exact OL|].
  assert (EXTB : forall e d, v_ext v = Some (e, d) ->
     exists pre post, out = pre ++ (eh_name e ++ le_bytes 4 (eh_size e) ++ d) ++ post /\ blen pre = ext_at v /\
       length (eh_name e) = 16%nat /\ eh_size e = 20 + blen d /\ eh_size e < 2 ^ 24 /\ blen (ext_part v) = 24 + eh_size e /\ ext_at v + eh_size e <= len).
  { intros e d EV. destruct (ext_part_header v e d VO EV) as (Q1 & Q2 & Q3 & Q4). rewrite EV in EX. destruct EX as ((G1 & G2) & S1 & S2 & SB).
    assert (PL : blen (ext_part v) = 24 + eh_size e) by (unfold ext_part; rewrite EV; cbv zeta; rewrite blen_app, Q1, Q2; reflexivity).
    exists (vheader_bytes (vhead v len hl ck (ext_at v)) ++ vmap v ++ header_of (pad_file (ext_header_bytes e ++ d)) (ext_header_bytes e ++ d)),
      (repeat pb (N.to_nat (pad_of 8 (blen (ext_part v)))) ++ ext ++ repeat pb n).
    split. { unfold out. rewrite EE at 1. unfold ext_part at 1. rewrite EV. cbv zeta. unfold ext_header_bytes at 3. rewrite <- !app_assoc. reflexivity. }
    split. { rewrite !blen_app, VL, ML, Q2. unfold ext_at. rewrite EV. lia. }
    split; [exact G1|]. split; [exact S1|]. split; [lia|]. split; [exact PL|]. unfold ext_at. rewrite EV. fold hl. lia. }
  split; [|split].
  - unfold volume_ref_new. rewrite OL. rewrite (proj2 (N.ltb_ge _ _)) by (unfold hl in LEN; lia).
    assert (RH : read_vheader out = vhead v len hl ck (ext_at v)) by (apply read_vheader_bytes; exact HO). rewrite RH. cbv zeta.
    cbn [vhead vh_zero vh_guid vh_length vh_signature vh_attr vh_header_length vh_checksum vh_ext_offset vh_revision].
    change (negb (FVH =? FVH)) with false. cbv iota.
    rewrite (proj2 (N.ltb_ge hl 56)) by (unfold hl; lia). rewrite (proj2 (N.ltb_ge len hl)) by lia.
    replace (N.land hl 1) with 0. 2: { symmetry. change 1 with (N.ones 1). rewrite N.land_ones. change (2 ^ 1) with 2. clear - HL8. lia. }
    change (negb (0 =? 0)) with false. cbv iota.
    rewrite sum16_total. change (wtot ?l mod two16) with (word_sum l). rewrite WS. change (negb (0 =? 0)) with false. cbv iota.
    change (FFS_REVISION <? FFS_REVISION) with false. cbv iota.
    replace (negb (list_eqb (v_guid v) FFS2_GUID) && negb (list_eqb (v_guid v) FFS3_GUID)) with false by (destruct GU as [->| ->]; reflexivity).
    rewrite (proj2 (N.ltb_ge len len)) by lia. rewrite (proj2 (N.ltb_ge len (ext_at v))) by (unfold ext_at; destruct (v_ext v) as [[e d]|] eqn:EV; [destruct (EXTB e d eq_refl) as (_ & _ & _ & _ & _ & _ & _ & _ & Z); unfold ext_at in Z; rewrite EV in Z|]; lia).
    assert (EXR : (if negb (ext_at v =? 0)
       then if len <? ext_at v + 20 then Err FInvalidHeader
            else if len <? ext_at v + eh_size (ExtHeader (bytes_at out (ext_at v) 16) (rd out (ext_at v + 16) 4)) then Err FInvalidHeader
                 else Ok (Some (ExtHeader (bytes_at out (ext_at v) 16) (rd out (ext_at v + 16) 4)))
       else Ok None) = Ok (option_map fst (v_ext v)) :> res ferr (option ext_header)).
    { destruct (v_ext v) as [[e d]|] eqn:EV.
      - destruct (EXTB e d eq_refl) as (pre & post & X1 & X2 & X3 & X4 & X5 & X6 & X7).
        assert (NZ : ext_at v <> 0) by (unfold ext_at; rewrite EV; lia). rewrite (proj2 (N.eqb_neq _ _) NZ). cbn [negb].
        rewrite (proj2 (N.ltb_ge _ _)) by lia. assert (NM : blen (eh_name e) = 16) by (unfold blen; rewrite X3; reflexivity).
        assert (R1 : bytes_at out (ext_at v) 16 = eh_name e).
        { rewrite X1, (bytes_at_pre0 pre) by exact X2. rewrite <- !app_assoc. now apply bytes_at_here. }
        assert (R2 : rd out (ext_at v + 16) 4 = eh_size e).
        { rewrite X1, (rd_pre pre) by exact X2. rewrite <- !app_assoc. rewrite (rd_pre0 (eh_name e)) by exact NM. apply rd_here. change (256 ^ N.of_nat 4) with (2 ^ 32). lia. }
        rewrite R1, R2. cbn [eh_size]. rewrite (proj2 (N.ltb_ge _ _)) by lia. cbn [option_map fst]. destruct e; reflexivity.
      - unfold ext_at. rewrite EV. reflexivity. }
    rewrite EXR. cbn [bind].
    assert (MB : slice out 56 hl = Ok (vmap v)) by (unfold out; apply slice_mid; [exact VL|rewrite VL, ML; reflexivity]).
    rewrite MB. cbn [bind]. rewrite ML.
    replace (N.land (8 * (blen (v_blocks v) + 1)) 7) with 0.
    2: { symmetry. change 7 with (N.ones 3). rewrite N.land_ones. change (2 ^ 3) with 8. rewrite N.mul_comm. apply N.mod_mul. lia. }
    change (negb (0 =? 0)) with false. cbv iota.
    assert (RB : read_blocks (vmap v) = v_blocks v ++ [(0, 0)]).
    { unfold vmap. rewrite <- (app_nil_r (flat_map _ _)). rewrite read_blocks_ok; [cbn [read_blocks]; apply app_nil_r|].
      apply Forall_app. split; [|constructor; [split; reflexivity|constructor]].
      rewrite Forall_forall in *. intros b I. destruct (BO b I) as (Z1 & Z2 & _). auto. }
    rewrite RB, rev_app_one, rev_involutive. change (negb (is_zero_block (0, 0))) with false. cbv iota.
    replace (existsb is_zero_block (v_blocks v)) with false.
    2: { symmetry. apply not_true_iff_false. intros Z. apply existsb_exists in Z. destruct Z as ([a b] & I & Z). rewrite Forall_forall in BO.
         destruct (BO _ I) as (_ & _ & NZ). apply NZ. unfold is_zero_block in Z. cbn [fst snd] in Z. apply andb_true_iff in Z. rewrite !N.eqb_eq in Z. destruct Z as (-> & ->). reflexivity. }
    rewrite (nonempty_match _ _ (v_blocks v)) by exact BN.
    assert (ALN : align_up 64 (match option_map fst (v_ext v) with Some e => ext_at v + eh_size e | None => hl end) 8 = Ok (hl + blen E)).
    { destruct (v_ext v) as [[e d]|] eqn:EV; cbn [option_map fst].
      - destruct (EXTB e d eq_refl) as (pre & post & X1 & X2 & X3 & X4 & X5 & X6 & X7).
        assert (EA : ext_at v = hl + 24) by (unfold ext_at; rewrite EV; unfold hl; lia).
        change 8 with (2 ^ 3). rewrite align_up_pad by (unfold two64; lia). change (2 ^ 3) with 8. rewrite EA, EL, X6.
        replace (hl + 24 + eh_size e) with (hl + (24 + eh_size e)) by lia. rewrite pad_of_add by (lia || exact HL8). f_equal. lia.
      - change 8 with (2 ^ 3). rewrite align_up_pad by (unfold two64; lia). change (2 ^ 3) with 8.
        assert (E0 : ext_part v = []) by (unfold ext_part; rewrite EV; reflexivity). rewrite EL, E0. cbn [blen length]. unfold pad_of. rewrite HL8. reflexivity. }
    rewrite ALN. reflexivity.
  - unfold vr_ext_header. cbn [vr_ext vr_header vr_data]. destruct (v_ext v) as [[e d]|] eqn:EV; cbn [option_map fst]; [|reflexivity].
    destruct (EXTB e d eq_refl) as (pre & post & X1 & X2 & X3 & X4 & X5 & X6 & X7). cbn [vhead vh_ext_offset]. fold out in X1.
    assert (NM : blen (eh_name e) = 16) by (unfold blen; rewrite X3; reflexivity).
    replace (slice out (ext_at v + 20) (ext_at v + eh_size e)) with (@Ok ferr _ d); [reflexivity|]. symmetry.
    rewrite X1. rewrite <- !app_assoc. rewrite (app_assoc pre), (app_assoc (pre ++ eh_name e)). apply slice_mid; rewrite !blen_app, blen_le, X2, NM; lia.
  - assert (SP : out = (vheader_bytes (vhead v len hl ck (ext_at v)) ++ vmap v ++ E) ++ (ext ++ repeat pb n)) by (unfold out; rewrite <- !app_assoc; reflexivity).
    rewrite SP. apply slice_end. rewrite !blen_app, VL, ML. unfold hl. lia.
Qed.
