(** Sections, as written and as read; what is reported of any bytes; blocks. *)
From Verif Require Import Base.Prelude Base.Bytes Align.Proofs PiFs.Model PiFs.Spec PiFs.Proofs.
Local Open Scope N_scope.
Local Ltac Zify.zify_post_hook ::= Z.div_mod_to_equations.

(** ** Sections *)

Definition common_len (long : bool) : N := if long then 8 else 4.
Lemma common_len_is : forall long s, blen (common_header long s) = common_len long.
Proof. intros [] s; reflexivity. Qed.

Lemma common_read : forall (long : bool) s (rest : list N), sec_size s < (if long then 2 ^ 32 else 2 ^ 24 - 1) ->
  let b := common_header long s ++ rest in
  fld b 3 1 = sec_type s /\ section_size b = Ok (sec_size s, common_len long) /\ from b (common_len long) = rest.
Proof.
  intros long s rest SZ. unfold common_header. destruct long.
  - split; [|split; [|reflexivity]].
    + cbn. lia.
    + unfold section_size. cbn [app firstn forallb N.eqb Pos.eqb andb]. rewrite !blen_cons, blen_app, blen_le.
      replace (_ <? 8) with false by lia. f_equal. f_equal.
      change (255 :: 255 :: 255 :: sec_type s :: le_bytes 4 (sec_size s) ++ rest) with
        ([255; 255; 255; sec_type s] ++ le_bytes 4 (sec_size s) ++ rest).
      apply (le_at_app' [_; _; _; _]); [reflexivity|exact SZ].
  - split; [|split; [|reflexivity]].
    + cbn. lia.
    + unfold section_size. rewrite <- app_assoc. replace (forallb _ _) with false.
      * f_equal. f_equal. apply (le_at_app' []); [reflexivity|]. change (256 ^ N.of_nat 3) with (2 ^ 24). lia.
      * symmetry. destruct (forallb _ _) eqn:E; [|reflexivity]. cbn [le_bytes app firstn forallb] in E. lia.
Qed.

Lemma section_read : forall long s rest, section_fits long s -> sec_type s < 0xC0 ->
  section_new (section_bytes long s ++ rest) = Ok s.
Proof.
  intros long s rest (M & SZ & LIM) TY. unfold section_bytes in *. rewrite <- !app_assoc.
  destruct (common_read long s (own_header (sec_meta s) ++ sec_data s ++ rest) LIM) as (F3 & SS & FR).
  pose proof (common_len_is long s) as CL.
  unfold section_new. rewrite F3, SS. cbn [bind]. rewrite FR.
  rewrite !blen_app, CL in *. assert (C4 : 4 <= common_len long) by (destruct long; cbn; lia).
  replace (_ <? 4) with false by lia.
  assert (CUT : forall e, e = common_len long + blen (own_header (sec_meta s)) ->
    cut (common_header long s ++ own_header (sec_meta s) ++ sec_data s ++ rest) e (sec_size s) = Ok (sec_data s)).
  { intros e ->. rewrite app_assoc. apply cut_mid; rewrite blen_app, CL; lia. }
  destruct s as [ty m d size]. cbn [sec_type sec_meta sec_data sec_size] in *.
  destruct m as [|n t|g o a x|n|g]; cbn [meta_fits own_header] in *; change (@blen N []) with 0 in *.
  - destruct M as [_ NI]. cbn [In] in NI.
    replace (ty =? 1) with false by lia. replace (ty =? 2) with false by lia. replace (ty =? 20) with false by lia.
    replace (ty =? 24) with false by lia. replace (192 <=? ty) with false by lia.
    rewrite CUT by lia. reflexivity.
  - destruct M as (-> & Bn & Bt). cbn [N.eqb Pos.eqb]. rewrite !blen_app, blen_le, blen_cons in *. change (@blen N []) with 0 in *.
    replace (_ <? common_len long + 5) with false by lia.
    rewrite CUT by lia. cbn [bind]. rewrite <- !app_assoc.
    replace (fld _ 0 4) with n by (symmetry; apply (le_at_app' []); [reflexivity|exact Bn]).
    replace (fld _ 4 1) with t by (cbn; lia). reflexivity.
  - destruct M as (-> & LG & OE & Bo & Ba). cbn [N.eqb Pos.eqb]. rewrite !blen_app, !blen_le in *.
    assert (G16 : blen g = 16) by (unfold blen; rewrite LG; reflexivity).
    replace (_ <? common_len long + 20) with false by lia.
    rewrite <- !app_assoc.
    assert (FO : fld (g ++ le_bytes 2 o ++ le_bytes 2 a ++ x ++ d ++ rest) 16 2 = o) by (apply le_at_app'; [now rewrite LG|exact Bo]).
    assert (FA : fld (g ++ le_bytes 2 o ++ le_bytes 2 a ++ x ++ d ++ rest) 18 2 = a).
    { rewrite (app_assoc g). apply le_at_app'; [rewrite app_length, LG; reflexivity|exact Ba]. }
    assert (FG : guid_at (g ++ le_bytes 2 o ++ le_bytes 2 a ++ x ++ d ++ rest) 0 = g).
    { unfold guid_at. cbn [skipn]. rewrite <- LG. apply firstn_app_exact. }
    rewrite FO, FA, FG. replace (if long then 8 else 4) with (common_len long) in OE by reflexivity.
    replace (_ <? o) with false by lia.
    assert (CX : cut (common_header long (Sec 2 (MGuidDefined g o a x) d size) ++ g ++ le_bytes 2 o ++ le_bytes 2 a ++ x ++ d ++ rest)
                   (common_len long + 20) o = Ok x).
    { replace (common_header _ _ ++ g ++ le_bytes 2 o ++ le_bytes 2 a ++ x ++ d ++ rest) with
        ((common_header long (Sec 2 (MGuidDefined g o a x) d size) ++ g ++ le_bytes 2 o ++ le_bytes 2 a) ++ x ++ d ++ rest)
        by (rewrite <- !app_assoc; reflexivity).
      apply cut_mid; rewrite !blen_app, !blen_le, CL, G16; lia. }
    rewrite CX. cbn [bind].
    specialize (CUT o). rewrite <- !app_assoc in CUT. rewrite CUT by lia. reflexivity.
  - destruct M as (-> & Bn). cbn [N.eqb Pos.eqb]. rewrite !blen_le in *.
    replace (_ <? common_len long + 2) with false by lia.
    rewrite CUT by lia. cbn [bind].
    replace (fld _ 0 2) with n by (symmetry; apply (le_at_app' []); [reflexivity|exact Bn]). reflexivity.
  - destruct M as (-> & LG). cbn [N.eqb Pos.eqb].
    assert (G16 : blen g = 16) by (unfold blen; rewrite LG; reflexivity).
    replace (_ <? common_len long + 16) with false by lia.
    rewrite CUT by lia. cbn [bind].
    assert (FG : guid_at (g ++ d ++ rest) 0 = g) by (unfold guid_at; cbn [skipn]; rewrite <- LG; apply firstn_app_exact).
    rewrite FG. reflexivity.
Qed.

Lemma section_bytes_min : forall long s, 4 <= blen (section_bytes long s).
Proof. intros. unfold section_bytes. rewrite blen_app, common_len_is. destruct long; cbn [common_len]; lia. Qed.

Lemma laid_nothing : forall x l, laid_out x [] l -> l = [].
Proof.
  intros x l H. remember [] as e eqn:E. destruct H as [t T|long s pad rest l F T1 T2 T3 P R|long s pad rest inner li l F T P X I R]; [reflexivity| |];
  exfalso; assert (Q := f_equal blen E); rewrite !blen_app in Q; change (blen []) with 0 in Q; pose proof (section_bytes_min long s); lia.
Qed.

Lemma got_none_failed : forall (l : list section), existsb failed (map Got l) = false.
Proof. induction l; cbn; auto. Qed.

Lemma sections_end : forall fuel x b o, (0 < fuel)%nat -> blen b < o + 4 -> sections_from fuel x b o = ([], Done).
Proof.
  intros [|k] x b o F L; [lia|]. cbn [sections_from]. destruct (blen b <? o) eqn:E; [reflexivity|].
  replace (_ <? 4) with true by lia. reflexivity.
Qed.

Lemma sections_read : forall x b l, laid_out x b l ->
  exists n, forall fuel pre, (n <= fuel)%nat -> sections_from fuel x (pre ++ b) (blen pre) = (map Got l, Done).
Proof.
  intros x b l H. induction H as [t T|long s pad rest l F T1 T2 T3 P R IH|long s pad rest inner li l F T P X I IHI R IHR].
  - exists 1%nat. intros fuel pre FU. apply sections_end; [lia|]. rewrite blen_app. lia.
  - destruct IH as (n & IH). exists (S (S n)). intros [|fuel] pre FU; [lia|].
    pose proof (section_bytes_min long s) as B4. pose proof F as (_ & SZ & _).
    cbn [sections_from map]. rewrite !blen_app. replace (_ <? blen pre) with false by lia. replace (_ <? 4) with false by lia.
    rewrite from_pre by reflexivity. rewrite section_read by assumption.
    unfold is_encapsulation. replace (sec_type s =? 1) with false by lia. replace (sec_type s =? 2) with false by lia. cbn [orb].
    rewrite up4.
    assert (NX : sections_from fuel x (pre ++ section_bytes long s ++ pad ++ rest) (blen pre + (sec_size s + to_next 4 (sec_size s))) = (map Got l, Done)).
    { destruct P as [P|[-> P]].
      - replace (blen pre + _) with (blen (pre ++ section_bytes long s ++ pad)) by (rewrite !blen_app; lia).
        replace (pre ++ section_bytes long s ++ pad ++ rest) with ((pre ++ section_bytes long s ++ pad) ++ rest) by (rewrite <- !app_assoc; reflexivity).
        apply IH. lia.
      - rewrite (laid_nothing _ _ R). apply sections_end; [lia|]. rewrite !blen_app. change (blen []) with 0. lia. }
    rewrite NX. reflexivity.
  - destruct IHI as (ni & IHI). destruct IHR as (n & IHR). exists (S (S (ni + n))). intros [|fuel] pre FU; [lia|].
    pose proof (section_bytes_min long s) as B4. pose proof F as (_ & SZ & _).
    cbn [sections_from map]. rewrite !blen_app. replace (_ <? blen pre) with false by lia. replace (_ <? 4) with false by lia.
    rewrite from_pre by reflexivity. rewrite section_read by (assumption || lia).
    unfold is_encapsulation. replace ((sec_type s =? 1) || (sec_type s =? 2)) with true by lia.
    rewrite X. assert (IN := IHI fuel [] ltac:(lia)). change ([] ++ inner) with inner in IN. change (blen []) with 0 in IN. rewrite IN, got_none_failed.
    rewrite up4.
    assert (NX : sections_from fuel x (pre ++ section_bytes long s ++ pad ++ rest) (blen pre + (sec_size s + to_next 4 (sec_size s))) = (map Got l, Done)).
    { destruct P as [P|[-> P]].
      - replace (blen pre + _) with (blen (pre ++ section_bytes long s ++ pad)) by (rewrite !blen_app; lia).
        replace (pre ++ section_bytes long s ++ pad ++ rest) with ((pre ++ section_bytes long s ++ pad) ++ rest) by (rewrite <- !app_assoc; reflexivity).
        apply IHR. lia.
      - rewrite (laid_nothing _ _ R). apply sections_end; [lia|]. rewrite !blen_app. change (blen []) with 0. lia. }
    rewrite NX, map_app. reflexivity.
Qed.

(** ** Any bytes *)

Lemma fld1 : forall b i, fld b i 1 = nth i b 0.
Proof.
  intros b i. unfold fld, le_at. revert b. induction i as [|i IH]; intros [|y b]; try reflexivity.
  - cbn. lia.
  - cbn [skipn nth]. apply IH.
Qed.
Lemma byte_from : forall b o i, byte_at b (o + i) = nth (N.to_nat i) (from b o) 0.
Proof. intros. unfold byte_at, from. rewrite nth_skipn. f_equal. lia. Qed.
Lemma range_from : forall b o n k, range b (o + n) k = firstn (N.to_nat k) (skipn (N.to_nat n) (from b o)).
Proof.
  intros. unfold range. f_equal. change (skipn (N.to_nat n) (from b o)) with (from (from b o) n). rewrite from_from. reflexivity.
Qed.

Lemma state_valid_in : forall st, st < 256 -> state_valid st = true -> In st [0x04; 0x05; 0x06; 0x07; 0xF8; 0xF9; 0xFA; 0xFB].
Proof.
  intros st B V.
  assert (A : forallb (fun s => implb (state_valid s) (existsb (N.eqb s) [0x04; 0x05; 0x06; 0x07; 0xF8; 0xF9; 0xFA; 0xFB]))
                (map N.of_nat (seq 0 256)) = true) by (vm_compute; reflexivity).
  rewrite forallb_forall in A. assert (I : In st (map N.of_nat (seq 0 256))).
  { apply in_map_iff. exists (N.to_nat st). split; [lia|]. apply in_seq. lia. }
  apply A in I. rewrite V in I. cbn [implb] in I. apply existsb_exists in I. destruct I as (y & Y & Q). apply N.eqb_eq in Q. now subst.
Qed.

Lemma sub8_twice : forall t a c, a < 256 -> c < 256 -> sub8 (sub8 (t mod 256) a) c = 0 -> t mod 256 = (a + c) mod 256.
Proof. intros t a c A C. unfold sub8. lia. Qed.

Lemma byte_lt : forall b i, bytes_ok b -> nth i b 0 < 256.
Proof.
  intros b i OK. destruct (Nat.lt_ge_cases i (length b)) as [L|G].
  - unfold bytes_ok in OK. rewrite Forall_forall in OK. apply OK. now apply nth_In.
  - rewrite nth_overflow by assumption. lia.
Qed.

Lemma file_new_inv : forall b f, file_new b = Ok f ->
  24 <= blen b /\ file_size b = Ok (pf_header f, pf_size f) /\ pf_size f <= blen b /\ state_valid (fld b 23 1) = true /\
  pf_header f <= blen b /\
  sub8 (sub8 (sum8 (firstn (N.to_nat (pf_header f)) b)) (fld b 17 1)) (fld b 23 1) = 0 /\
  (if negb (N.land (fld b 19 1) 0x40 =? 0) then sum8 (range b (pf_header f) (pf_size f - pf_header f)) = 0 /\ pf_header f <= pf_size f
   else fld b 17 1 = 0xAA) /\
  pf_data f = firstn (N.to_nat (pf_size f)) b /\ pf_name f = guid_at b 0 /\ pf_type f = fld b 18 1 /\ pf_attributes f = fld b 19 1.
Proof.
  intros b f. unfold file_new. destruct (blen b <? 24) eqn:L; [discriminate|].
  destruct (file_size b) as [[h s]| |] eqn:FS; [|discriminate|discriminate]. cbn [bind].
  destruct (blen b <? s) eqn:LS; [discriminate|]. destruct (state_valid _) eqn:SV; [|discriminate]. cbn [negb].
  destruct (cut b 0 h) as [hd| |] eqn:C; [|discriminate|discriminate]. cbn [bind].
  apply cut_inv in C. destruct C as (_ & CH & CE). rewrite N.sub_0_r in CE. cbn [from N.to_nat skipn] in CE.
  change (from b 0) with b in CE. subst hd.
  destruct (_ =? 0) eqn:SU; [|discriminate]. cbn [negb].
  destruct (cut b 0 s) as [d| |] eqn:CD.
  2,3: intros Q; exfalso; revert Q; destruct (negb _);
    [destruct (cut b h s) as [d2| |]; cbn [bind]; [destruct (sum8 d2 =? 0); cbn [bind]| |]|destruct (_ =? 170); cbn [bind]]; discriminate.
  apply cut_inv in CD. destruct CD as (_ & _ & CD). rewrite N.sub_0_r in CD. change (from b 0) with b in CD. subst d.
  destruct (negb (N.land _ 64 =? 0)) eqn:K.
  - destruct (cut b h s) as [d2| |] eqn:C2; cbn [bind]; try discriminate. destruct (sum8 d2 =? 0) eqn:S2; [|discriminate]. cbn [bind].
    intros [= <-]. cbn [pf_header pf_size pf_data pf_name pf_type pf_attributes]. apply N.eqb_eq in SU, S2. apply cut_inv in C2. destruct C2 as (C2a & _ & ->).
    repeat split; solve [assumption|lia].
  - destruct (fld b 17 1 =? 170) eqn:S2; [|discriminate]. cbn [bind]. intros [= <-]. cbn [pf_header pf_size pf_data pf_name pf_type pf_attributes]. apply N.eqb_eq in SU, S2. repeat split; solve [assumption|lia].
Qed.

Lemma from_ok : forall b o, bytes_ok b -> bytes_ok (from b o).
Proof. intros b o OK. apply Forall_forall. intros y I. unfold bytes_ok in OK. rewrite Forall_forall in OK. apply OK.
  unfold from in I. rewrite <- (firstn_skipn (N.to_nat o) b). apply in_or_app. now right. Qed.

Lemma file_new_at : forall b o f, bytes_ok b -> o <= blen b -> file_new (from b o) = Ok f -> file_at b o f.
Proof.
  intros b o f OK OL H. apply file_new_inv in H.
  destruct H as (L & FS & LS & SV & LH & SU & _ & DE & NE & TE & AE). rewrite blen_from in *.
  assert (OKF : bytes_ok (from b o)) by (apply from_ok; assumption).
  unfold file_at. rewrite !byte_from. change (N.to_nat 18) with 18%nat. change (N.to_nat 19) with 19%nat.
  change (N.to_nat 17) with 17%nat. change (N.to_nat 23) with 23%nat. rewrite fld1 in *.
  rewrite !range_from. change (N.to_nat 24) with 24%nat. change (N.to_nat 20) with 20%nat.
  assert (FE : pf_header f = (if N.testbit (nth 19 (from b o) 0) 0 then 32 else 24) /\
               pf_size f = le_val (if N.testbit (nth 19 (from b o) 0) 0 then firstn (N.to_nat 8) (skipn 24 (from b o)) else firstn (N.to_nat 3) (skipn 20 (from b o)))).
  { unfold file_size in FS. rewrite ?fld1 in FS. change 1 with (2 ^ 0) in FS. rewrite testbit_land in FS.
    destruct (N.testbit (nth 19 (from b o) 0) 0); cbn [negb] in FS.
    - destruct (_ <? 8); [discriminate|]. unfold fld, le_at in FS.
      assert (Q1 : pf_header f = 32) by congruence. assert (Q2 : pf_size f = le_val (firstn 8 (skipn 24 (from b o)))) by congruence. auto.
    - unfold fld, le_at in FS.
      assert (Q1 : pf_header f = 24) by congruence. assert (Q2 : pf_size f = le_val (firstn 3 (skipn 20 (from b o)))) by congruence. auto. }
  destruct FE as [FH FZ].
  split; [lia|]. split; [lia|]. split; [exact DE|]. split; [rewrite NE; reflexivity|].
  split; [exact TE|]. split; [exact AE|]. split; [exact FH|]. split; [exact FZ|].
  split.
  - unfold range. fold (from b o). rewrite sum8_is in SU. rewrite !fld1 in SU. apply sub8_twice in SU; try (apply byte_lt; assumption). exact SU.
  - apply state_valid_in; [apply byte_lt; assumption|]. exact SV.
Qed.

Lemma files_placed : forall fuel b e o l en, bytes_ok b -> files_from fuel b e o = (l, en) -> one_after_the_other b o (found l).
Proof.
  induction fuel as [|k IH]; intros b e o l en OK; cbn [files_from].
  - intros [= <- <-]. constructor.
  - destruct (blen b <? o) eqn:L; [intros [= <- <-]; constructor|].
    destruct (_ <? 24) eqn:L24; [intros [= <- <-]; constructor|].
    destruct (forallb _ _); [intros [= <- <-]; constructor|].
    destruct (file_new (from b o)) as [f|er|] eqn:F; [|intros [= <- <-]; constructor|intros [= <- <-]; constructor].
    destruct (files_from k b e _) as [r e2] eqn:R. intros [= <- <-]. cbn [found]. constructor.
    + apply file_new_at; [assumption|lia|assumption].
    + rewrite <- up8. eapply IH; eassumption.
Qed.

Lemma altered_nth : forall b i x, (i < length b)%nat -> forall j, nth j (altered b i x) 0 = if Nat.eqb i j then x else nth j b 0.
Proof.
  intros b i x L j. unfold altered. revert i j L. induction b as [|y b IH]; intros i j L; [cbn in L; lia|].
  destruct i as [|i]; cbn [firstn skipn app].
  - destruct j; reflexivity.
  - destruct j as [|j]; [reflexivity|]. cbn [nth Nat.eqb length] in *. apply IH. lia.
Qed.
Lemma altered_len : forall b i x, (i < length b)%nat -> length (altered b i x) = length b.
Proof. intros b i x L. unfold altered. rewrite app_length, firstn_length. cbn [length]. rewrite skipn_length. lia. Qed.
Lemma altered_total : forall b i x n, (i < n)%nat -> (n <= length b)%nat ->
  total (firstn n (altered b i x)) + nth i b 0 = total (firstn n b) + x.
Proof.
  intros b i x n. revert b i. induction n as [|n IH]; intros b i I L; [lia|].
  destruct b as [|y b]; [cbn in L; lia|]. cbn [length] in L. destruct i as [|i].
  - unfold altered. cbn [firstn skipn app nth]. rewrite !tot_cons. lia.
  - change (altered (y :: b) (S i) x) with (y :: altered b i x). cbn [firstn nth]. rewrite !tot_cons.
    specialize (IH b i ltac:(lia) ltac:(lia)). lia.
Qed.

Lemma altered_caught : forall b f i x, file_new b = Ok f -> bytes_ok b -> x < 256 -> x <> nth i b 0 ->
  (i < 24)%nat \/ (pf_header f = 32 /\ (i < 32)%nat) -> i <> 17%nat -> i <> 19%nat -> i <> 23%nat ->
  file_new (altered b i x) = Err VolumeCorrupted.
Proof.
  intros b f i x H OK X NE HI N17 N19 N23. pose proof (file_new_inv b f H) as (L & FS & LS & SV & LH & SU & _).
  assert (IL : (i < length b)%nat).
  { unfold blen in *. destruct HI as [HI|[E HI]]; lia. }
  assert (AL : blen (altered b i x) = blen b) by (unfold blen; rewrite altered_len by assumption; reflexivity).
  assert (FA : forall j, i <> j -> fld (altered b i x) j 1 = fld b j 1).
  { intros j J. rewrite !fld1, altered_nth by assumption. destruct (Nat.eqb_spec i j); congruence. }
  assert (HS : exists s, file_size (altered b i x) = Ok (pf_header f, s)).
  { unfold file_size in *. rewrite FA, AL by assumption. destruct (N.land _ _ =? 0).
    - eexists. assert (Q : pf_header f = 24) by congruence. rewrite Q. reflexivity.
    - destruct (_ <? 8); [discriminate|]. eexists. assert (Q : pf_header f = 32) by congruence. rewrite Q. reflexivity. }
  destruct HS as (s & HS). unfold file_new. rewrite AL, HS. replace (blen b <? 24) with false by lia. cbn [bind].
  destruct (blen b <? s); [reflexivity|]. rewrite !FA by assumption. rewrite SV. cbn [negb].
  assert (C : cut (altered b i x) 0 (pf_header f) = Ok (firstn (N.to_nat (pf_header f)) (altered b i x))).
  { unfold cut. rewrite AL. replace (_ && _) with true by lia. rewrite N.sub_0_r. reflexivity. }
  rewrite C. cbn [bind]. replace (_ =? 0) with false; [reflexivity|]. symmetry. apply N.eqb_neq. intros Q.
  assert (HB : pf_header f = 24 \/ pf_header f = 32).
  { unfold file_size in FS. destruct (N.land _ _ =? 0); [left; congruence|]. destruct (_ <? 8); [discriminate|]. right. congruence. }
  assert (T := altered_total b i x (N.to_nat (pf_header f))). unfold blen in LH.
  specialize (T ltac:(destruct HI as [HI|[E HI]]; lia) ltac:(lia)).
  rewrite sum8_is in Q, SU. rewrite !fld1 in *.
  pose proof (byte_lt b 17 OK). pose proof (byte_lt b 23 OK). pose proof (byte_lt b i OK).
  apply sub8_twice in Q; try assumption. apply sub8_twice in SU; try assumption. rewrite <- SU in Q.
  revert T Q. generalize (total (firstn (N.to_nat (pf_header f)) (altered b i x))) (total (firstn (N.to_nat (pf_header f)) b)).
  intros t1 t2 T Q. lia.
Qed.

(** ** Blocks *)

Definition count (m : list (N * N)) : N := fold_right (fun e t => fst e + t) 0 m.

Lemma lba_loop_read : forall m lba done off size, done <= lba -> done + count m < 2 ^ 32 -> off < 2 ^ 32 ->
  match block_at m (lba - done) with
  | Some (_, s, k) => exists o, o < 2 ^ 32 /\ lba_loop false m lba done off size = Ok (lba + k, o, s) /\ 0 < k
  | None => exists t o s, lba_loop false m lba done off size = Ok (t, o, s) /\ t <= lba
  end.
Proof.
  induction m as [|[n len] m IH]; intros lba done off size D C O; cbn [block_at lba_loop].
  - exists done, off, size. split; [reflexivity|lia].
  - cbn [count fold_right fst] in C. fold (count m) in C. cbn [w32 andb bind].
    unfold w32. cbn [andb bind]. rewrite (N.mod_small (done + n)) by (unfold two32; lia).
    destruct (lba - done <? n) eqn:E.
    + replace (lba <? done + n) with true by lia. exists off. split; [assumption|]. split; [|lia].
      replace (done + n) with (lba + (n - (lba - done))) by lia. reflexivity.
    + replace (lba <? done + n) with false by lia.
      specialize (IH lba (done + n) ((off + (n * len) mod two32) mod two32) len ltac:(lia) ltac:(lia) ltac:(apply N.mod_lt; unfold two32; lia)).
      replace (lba - done - n) with (lba - (done + n)) by lia.
      destruct (block_at m (lba - (done + n))) as [[[? ?] ?]|]; exact IH.
Qed.

(** ** Errors *)

Lemma until_read : forall x b l e, laid_until x b l e ->
  exists n, forall fuel pre, (n <= fuel)%nat -> sections_from fuel x (pre ++ b) (blen pre) = (map Got l ++ [Failed e], Done).
Proof.
  intros x b l e H.
  induction H as [ty t T|long s rest e F T X|long s rest inner li e F T X I IH|long s pad rest l e F T1 T2 T3 P R IH|long s pad rest inner li l e F T P X I R IH].
  - exists 1%nat. intros [|fuel] pre FU; [lia|]. cbn [sections_from]. rewrite !blen_app. change (blen [255; 255; 255; ty]) with 4.
    replace (_ <? blen pre) with false by lia. replace (_ <? 4) with false by lia. rewrite from_pre by reflexivity.
    unfold section_new. rewrite blen_app. change (blen [255; 255; 255; ty]) with 4. replace (_ <? 4) with false by lia.
    unfold section_size. cbn [app firstn forallb N.eqb Pos.eqb andb]. rewrite !blen_cons. replace (_ <? 8) with true by lia. reflexivity.
  - exists 1%nat. intros [|fuel] pre FU; [lia|]. pose proof (section_bytes_min long s) as B4.
    cbn [sections_from]. rewrite !blen_app. replace (_ <? blen pre) with false by lia. replace (_ <? 4) with false by lia.
    rewrite from_pre by reflexivity. rewrite section_read by (assumption || lia).
    unfold is_encapsulation. replace ((sec_type s =? 1) || (sec_type s =? 2)) with true by lia. rewrite X. reflexivity.
  - destruct IH as (n & IH). exists (S n). intros [|fuel] pre FU; [lia|]. pose proof (section_bytes_min long s) as B4.
    cbn [sections_from]. rewrite !blen_app. replace (_ <? blen pre) with false by lia. replace (_ <? 4) with false by lia.
    rewrite from_pre by reflexivity. rewrite section_read by (assumption || lia).
    unfold is_encapsulation. replace ((sec_type s =? 1) || (sec_type s =? 2)) with true by lia. rewrite X.
    assert (IN := IH fuel [] ltac:(lia)). change ([] ++ inner) with inner in IN. change (blen []) with 0 in IN. rewrite IN.
    rewrite existsb_app. cbn [existsb failed orb]. rewrite orb_true_r. reflexivity.
  - destruct IH as (n & IH). exists (S n). intros [|fuel] pre FU; [lia|]. pose proof (section_bytes_min long s) as B4. pose proof F as (_ & SZ & _).
    cbn [sections_from]. rewrite !blen_app. replace (_ <? blen pre) with false by lia. replace (_ <? 4) with false by lia.
    rewrite from_pre by reflexivity. rewrite section_read by (assumption || lia).
    unfold is_encapsulation. replace (sec_type s =? 1) with false by lia. replace (sec_type s =? 2) with false by lia. cbn [orb].
    rewrite up4. replace (blen pre + _) with (blen (pre ++ section_bytes long s ++ pad)) by (rewrite !blen_app; lia).
    replace (pre ++ section_bytes long s ++ pad ++ rest) with ((pre ++ section_bytes long s ++ pad) ++ rest) by (rewrite <- !app_assoc; reflexivity).
    rewrite IH by lia. reflexivity.
  - destruct IH as (n & IH). destruct (sections_read _ _ _ I) as (ni & IHI). exists (S (ni + n)).
    intros [|fuel] pre FU; [lia|]. pose proof (section_bytes_min long s) as B4. pose proof F as (_ & SZ & _).
    cbn [sections_from]. rewrite !blen_app. replace (_ <? blen pre) with false by lia. replace (_ <? 4) with false by lia.
    rewrite from_pre by reflexivity. rewrite section_read by (assumption || lia).
    unfold is_encapsulation. replace ((sec_type s =? 1) || (sec_type s =? 2)) with true by lia. rewrite X.
    assert (IN := IHI fuel [] ltac:(lia)). change ([] ++ inner) with inner in IN. change (blen []) with 0 in IN. rewrite IN, got_none_failed.
    rewrite up4. replace (blen pre + _) with (blen (pre ++ section_bytes long s ++ pad)) by (rewrite !blen_app; lia).
    replace (pre ++ section_bytes long s ++ pad ++ rest) with ((pre ++ section_bytes long s ++ pad) ++ rest) by (rewrite <- !app_assoc; reflexivity).
    rewrite IH by lia. cbn [map app]. rewrite map_app, app_assoc. reflexivity.
Qed.

Lemma files_read_until : forall fs e t er pre fuel, e = 0 \/ e = 0xff -> Forall file_fits fs ->
  24 <= blen t -> forallb (fun y => y =? e) (firstn 24 t) = false -> file_new t = Err er ->
  forallb check_passes fs = true -> blen pre mod 8 = 0 -> (length fs < fuel)%nat ->
  files_from fuel (pre ++ area e fs t) e (blen pre) = (map (fun f => Got (the_file f)) fs ++ [Failed er], Done).
Proof.
  induction fs as [|f fs IH]; intros e t er pre fuel E FF T NE FE CP P8 FU.
  - destruct fuel; [cbn in FU; lia|]. cbn [area files_from map app]. rewrite blen_app.
    replace (_ <? blen pre) with false by lia. replace (_ <? 24) with false by lia.
    rewrite from_pre by reflexivity. rewrite NE, FE. reflexivity.
  - destruct fuel as [|fuel]; [lia|]. cbn [length] in FU. cbn [forallb] in CP. apply andb_true_iff in CP. destruct CP as [CP CR].
    inversion FF as [|? ? F1 F2]; subst. pose proof F1 as (L & _). pose proof (file_bytes_len f L) as FL.
    assert (B24 : 24 <= file_len f) by (unfold file_len, header_len; destruct (large f); lia).
    cbn [files_from area map app]. rewrite !blen_app.
    set (pad := repeat e _). set (more := area e fs t).
    replace (_ <? blen pre) with false by lia. replace (_ - blen pre <? 24) with false by lia.
    rewrite from_pre by reflexivity. rewrite not_erased by assumption. rewrite file_read by assumption. rewrite CP.
    cbn [pf_size].
    assert (Q : up (blen pre + file_len f) 8 = blen (pre ++ file_bytes f ++ pad)).
    { rewrite up8, to_next_8_add by assumption. rewrite !blen_app. unfold pad. rewrite blen_repeat. lia. }
    rewrite Q.
    replace (pre ++ file_bytes f ++ pad ++ more) with ((pre ++ file_bytes f ++ pad) ++ more) by (rewrite <- !app_assoc; reflexivity).
    unfold more. rewrite (IH e t er); [reflexivity|assumption..| |lia].
    rewrite <- Q, up8. apply to_next_done. lia.
Qed.

Lemma file_bytes_ok : forall f, file_fits f -> bytes_ok (file_bytes f).
Proof.
  intros f (L & BN & BT & BA & BC & _). unfold file_bytes, bytes_ok. rewrite !Forall_app. split; [exact BN|]. split.
  - repeat constructor; try assumption; [unfold header_check; apply complement8_lt|apply content_check_lt].
  - split; [apply le_bytes_ok|]. split; [constructor; [unfold state_byte; destruct (f_inverted f); lia|constructor]|].
    split; [|exact BC]. unfold long_size_bytes. destruct (large f); [apply le_bytes_ok|constructor].
Qed.
Lemma altered_app : forall a b i x, (i < length a)%nat -> altered (a ++ b) i x = altered a i x ++ b.
Proof.
  intros a b i x L. unfold altered. rewrite firstn_app, skipn_app.
  replace (i - length a)%nat with 0%nat by lia. replace (S i - length a)%nat with 0%nat by lia. cbn [firstn skipn].
  rewrite app_nil_r, <- app_assoc. reflexivity.
Qed.

Lemma bad_file_reported : forall fs e f i x rest fuel, e = 0 \/ e = 0xff -> Forall file_fits fs -> forallb check_passes fs = true ->
  file_fits f -> check_passes f = true -> x < 256 -> x <> nth i (file_bytes f) 0 ->
  (i < 24)%nat \/ (large f = true /\ (i < 32)%nat) -> i <> 17%nat -> i <> 19%nat -> i <> 23%nat -> bytes_ok rest ->
  (length fs < fuel)%nat ->
  files_from fuel (area e fs (altered (file_bytes f) i x ++ rest)) e 0 =
  (map (fun f => Got (the_file f)) fs ++ [Failed VolumeCorrupted], Done).
Proof.
  intros fs e f i x rest fuel E FF CP F CF X NE I N17 N19 N23 OKR FU.
  pose proof F as (L & _). pose proof (file_bytes_len f L) as FL.
  assert (B24 : header_len f <= blen (file_bytes f)) by (rewrite FL; unfold file_len; lia).
  assert (H24 : 24 <= header_len f) by (unfold header_len; destruct (large f); lia).
  assert (IL : (i < length (file_bytes f))%nat).
  { unfold blen in B24. unfold header_len in *. destruct I as [I|[LG I]]; [lia|]. rewrite LG in B24. lia. }
  rewrite <- altered_app by assumption.
  assert (OK : bytes_ok (file_bytes f ++ rest)) by (apply bytes_ok_app; split; [now apply file_bytes_ok|assumption]).
  apply (files_read_until fs e (altered (file_bytes f ++ rest) i x) VolumeCorrupted [] fuel); try assumption; try reflexivity.
  - unfold blen in *. rewrite altered_len by (rewrite app_length; lia). rewrite app_length. lia.
  - destruct (forallb (fun y : N => y =? e) _) eqn:A; [|reflexivity]. exfalso. rewrite forallb_forall in A.
    assert (Q : nth 23 (firstn 24 (altered (file_bytes f ++ rest) i x)) 0 = state_byte f).
    { rewrite nth_firstn by lia. rewrite altered_nth by (rewrite app_length; lia). destruct (Nat.eqb_spec i 23); [congruence|].
      destruct (file_fields f rest L) as (_ & _ & _ & _ & F23 & _). rewrite <- fld1. exact F23. }
    specialize (A (state_byte f)). assert (In (state_byte f) (firstn 24 (altered (file_bytes f ++ rest) i x))).
    { rewrite <- Q. apply nth_In. rewrite firstn_length, altered_len by (rewrite app_length; lia). rewrite app_length. unfold blen in *. lia. }
    specialize (A H). unfold state_byte in A. destruct (f_inverted f); destruct E; subst e; cbn in A; discriminate.
  - apply (altered_caught _ (the_file f)); try assumption.
    + rewrite file_read by assumption. rewrite CF. reflexivity.
    + rewrite app_nth1 by assumption. exact NE.
    + cbn [pf_header the_file]. unfold header_len. destruct I as [I|[LG I]]; [now left|right; rewrite LG; now split].
Qed.

(** ** Volumes of any bytes *)

Lemma entries_bytes : forall n m, bytes_ok m -> length m = (8 * n)%nat -> block_bytes (entries m n) = m.
Proof.
  induction n as [|n IH]; intros m OK L; [destruct m; [reflexivity|cbn in L; lia]|].
  do 8 (destruct m as [|? m]; [cbn in L; lia|]). cbn [entries]. change (skipn 8 _) with m.
  unfold block_bytes. cbn [flat_map fst snd]. fold (block_bytes (entries m n)).
  rewrite IH; [|unfold bytes_ok in *; repeat (match goal with H : Forall _ (_ :: _) |- _ => inversion H; clear H; subst end); assumption|cbn [length] in L; lia].
  assert (O8 : bytes_ok [n0; n1; n2; n3] /\ bytes_ok [n4; n5; n6; n7]).
  { unfold bytes_ok in *. repeat (match goal with H : Forall _ (_ :: _) |- _ => inversion H; clear H; subst end). split; repeat (constructor; [assumption|]); constructor. }
  destruct O8 as [O1 O2]. pose proof (le_bytes_val _ O1) as E1. pose proof (le_bytes_val _ O2) as E2.
  unfold fld, le_at. cbn [skipn firstn]. cbn [length] in E1, E2. rewrite E1, E2. reflexivity.
Qed.

Lemma guid_eq_is : forall a b, guid_eq a b = true -> a = b.
Proof. intros a b. unfold guid_eq. destruct (list_eq_dec _ _ _); [auto|discriminate]. Qed.

Lemma ext_header_inv : forall b o r, ext_header b o = Ok r ->
  match r with
  | None => o = 0
  | Some (name, d) => o <> 0 /\ o + 20 <= blen b /\ name = range b o 16 /\
      o + le_val (range b (o + 16) 4) <= blen b /\ d = range b o (le_val (range b (o + 16) 4))
  end.
Proof.
  intros b o r. unfold ext_header. cbv zeta. intros H. revert H. destruct (o =? 0) eqn:Z; [intros [= <-]; lia|].
  destruct (blen b <? o + 20) eqn:L; [discriminate|]. destruct (blen b <? o + fld (from b o) 16 4) eqn:L2; [discriminate|].
  destruct (cut _ _ _) as [d| |] eqn:C; cbn [bind]; [|discriminate|discriminate]. intros [= <-].
  apply cut_inv in C. destruct C as (_ & C & ->). rewrite range_from. unfold fld, le_at in *. change (N.to_nat 16) with 16%nat.
  change (N.to_nat 4) with 4%nat. repeat split; try lia. unfold range. fold (from b o). f_equal. lia.
Qed.

Lemma volume_new_at : forall b r, bytes_ok b -> volume_new b = Ok r -> volume_at b r.
Proof.
  intros b r OK. unfold volume_new. destruct (blen b <? 56) eqn:L56; [discriminate|].
  destruct (fld b 40 4 =? 0x4856465F) eqn:SG; [|discriminate]. cbn [negb].
  destruct (fld b 48 2 <? 56) eqn:H56; [discriminate|]. destruct (blen b <? fld b 48 2) eqn:LH; [discriminate|].
  destruct (N.land (fld b 48 2) 1 =? 0) eqn:EV; [|discriminate]. cbn [negb].
  destruct (cut b 0 (fld b 48 2)) as [h| |] eqn:C; cbn [bind]; [|discriminate|discriminate].
  destruct (sum16 h =? 0) eqn:SU; [|discriminate]. cbn [negb].
  destruct (fld b 55 1 <? 2) eqn:RV; [discriminate|].
  destruct (negb (guid_eq (guid_at b 16) FFS2) && negb (guid_eq (guid_at b 16) FFS3)) eqn:G; [discriminate|].
  destruct (fld b 32 8 <? fld b 48 2) eqn:FL; [discriminate|]. destruct (blen b <? fld b 32 8) eqn:FB; [discriminate|].
  destruct (fld b 32 8 <? fld b 52 2) eqn:FX; [discriminate|].
  destruct (ext_header b (fld b 52 2)) as [x| |] eqn:X; cbn [bind]; [|discriminate|discriminate].
  destruct (cut b 56 (fld b 48 2)) as [m| |] eqn:C2; cbn [bind]; [|discriminate|discriminate].
  destruct (N.land (blen m) 7 =? 0) eqn:M8; [|discriminate]. cbn [negb].
  destruct (rev (entries m (N.to_nat (blen m / 8)))) as [|last rest] eqn:RE; [discriminate|].
  destruct (zero_entry last) eqn:ZL; [|discriminate]. cbn [negb].
  destruct (rev rest) as [|e0 es] eqn:RR; [discriminate|]. rewrite <- RR.
  destruct (existsb zero_entry (rev rest)) eqn:EZ; [discriminate|].
  intros Q. match type of Q with Ok ?t = Ok r => assert (QR : r = t) by congruence end. clear Q.
  assert (Q1 : pv_data r = b) by (rewrite QR; reflexivity). assert (Q2 : pv_attributes r = fld b 44 4) by (rewrite QR; reflexivity).
  assert (Q3 : pv_blocks r = rev rest) by (rewrite QR; reflexivity). assert (Q4 : pv_ext r = x) by (rewrite QR; reflexivity). clear QR.
  apply ext_header_inv in X. apply cut_inv in C, C2. destruct C as (_ & _ & C). destruct C2 as (_ & _ & C2).
  unfold volume_at. change (le_val (range b 48 2)) with (fld b 48 2). change (le_val (range b 32 8)) with (fld b 32 8).
  change (le_val (range b 52 2)) with (fld b 52 2). change (le_val (range b 44 4)) with (fld b 44 4).
  rewrite Q1, Q2, Q3, Q4.
  split; [lia|]. split; [lia|]. split; [lia|]. split.
  { apply N.eqb_eq in SG. assert (LE : length (range b 40 4) = 4%nat).
    { unfold range. rewrite firstn_length, skipn_length. unfold blen in L56. lia. }
    assert (OKR : bytes_ok (range b 40 4)).
    { unfold range. assert (A := from_ok b 40 OK). unfold from in A. unfold bytes_ok in *. rewrite Forall_forall in *. intros y I.
      apply A. rewrite <- (firstn_skipn (N.to_nat 4)). apply in_or_app. now left. }
    rewrite <- (le_bytes_val (range b 40 4) OKR), LE. change (le_val (range b 40 4)) with (fld b 40 4). rewrite SG. reflexivity. }
  split.
  { apply N.eqb_eq in SU. rewrite (sum16_is _ _ (le_n _)) in SU. rewrite C, N.sub_0_r in SU. exact SU. }
  split. { unfold byte_at. change (N.to_nat 55) with 55%nat. rewrite <- fld1. lia. }
  split. { apply andb_false_iff in G. change (range b 16 16) with (guid_at b 16).
    destruct G as [G|G]; apply negb_false_iff in G; apply guid_eq_is in G; auto. }
  split; [reflexivity|]. split; [reflexivity|]. split.
  { assert (OKM : bytes_ok m).
    { rewrite C2. assert (A := from_ok b 56 OK). unfold bytes_ok in *. rewrite Forall_forall in *. intros y I. apply A.
      rewrite <- (firstn_skipn (N.to_nat (fld b 48 2 - 56))). apply in_or_app. now left. }
    assert (ML : length m = (8 * N.to_nat (blen m / 8))%nat).
    { apply N.eqb_eq in M8. change 7 with (2 ^ 3 - 1) in M8. rewrite land_mask_mod in M8. change (2 ^ 3) with 8 in M8. unfold blen in *. lia. }
    assert (EB := entries_bytes _ _ OKM ML).
    assert (EE : entries m (N.to_nat (blen m / 8)) = rev rest ++ [(0, 0)]).
    { rewrite <- (rev_involutive (entries _ _)), RE. cbn [rev]. f_equal. f_equal. destruct last as [a c]. unfold zero_entry in ZL. cbn in ZL.
      assert (a = 0) by lia. assert (c = 0) by lia. subst. reflexivity. }
    rewrite <- EE, EB, C2. reflexivity. }
  split; [rewrite RR; discriminate|]. split.
  { intros I. assert (existsb zero_entry (rev rest) = true) by (apply existsb_exists; exists (0, 0); split; [assumption|reflexivity]). congruence. }
  exact X.
Qed.
