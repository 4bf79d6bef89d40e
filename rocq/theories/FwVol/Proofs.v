(** Lemmas for the firmware volume services. *)
From Verif Require Import Base.Prelude Base.Bytes Mm.Model Mm.Spec Mm.Props Ffs.Model Ffs.Spec Ffs.SectionProofs Ffs.SectionRead Ffs.FileProofs Ffs.VolumeProofs Ffs.Props
  FwVol.Model FwVol.Spec.
From Coq Require Import ZifyBool ZifyNat ZifyN.
Local Open Scope N_scope.

Lemma list_eqb_eq : forall a b, list_eqb a b = true <-> a = b.
Proof.
  induction a as [|x a IH]; intros [|y b]; cbn [list_eqb]; try (split; [discriminate|discriminate]); [split; reflexivity|].
  rewrite andb_true_iff, N.eqb_eq, IH. split; [intros (-> & ->); reflexivity|intros E; injection E as -> ->; auto].
Qed.

(** ** The volume in memory *)

Lemma nth_firstn_skipn : forall (l : list N) i n o, (i < n)%nat -> nth i (firstn n (skipn o l)) 0 = nth (o + i) l 0.
Proof.
  intros l i n o L. revert i n L. induction o as [|o IH] in l |- *; intros i n L.
  - cbn [skipn Nat.add]. revert i n L. induction l as [|x l IH]; intros i n L; [rewrite firstn_nil; reflexivity|]. destruct n; [lia|]. destruct i; [reflexivity|]. cbn [firstn nth]. apply IH. lia.
  - destruct l as [|x l]; [cbn [skipn]; rewrite firstn_nil; destruct i; reflexivity|]. cbn [skipn Nat.add nth]. now apply IH.
Qed.
Lemma holds_bytes_at : forall m base out o n, holds m base out -> o + n <= blen out -> readm m (base + o) (N.to_nat n) = bytes_at out o n.
Proof.
  intros m base out o n H L. unfold blen in L. apply nth_ext with (d := 0) (d' := 0).
  - rewrite readm_length. unfold bytes_at. rewrite firstn_length, skipn_length. lia.
  - intros i I. rewrite readm_length in I. rewrite nth_readm by exact I. unfold bytes_at. rewrite nth_firstn_skipn by lia. rewrite <- H by lia. f_equal. lia.
Qed.

Lemma volume_found : forall m base out r, holds m base out -> volume_ref_new out = Ok r -> vh_length (vr_header r) = blen out ->
  new_from_address m base = Ok r.
Proof.
  intros m base out r H R L. assert (HD : vr_header r = read_vheader out /\ 56 <= blen out /\ vh_signature (read_vheader out) = FVH).
  { unfold volume_ref_new in R. destruct (blen out <? 56) eqn:B; [discriminate|]. cbv zeta in R.
    destruct (vh_signature (read_vheader out) =? FVH) eqn:SG; cbn [negb] in R; [|discriminate].
    repeat match type of R with (if ?c then _ else _) = _ => destruct c; [discriminate|] end.
    destruct (if negb (vh_ext_offset (read_vheader out) =? 0) then _ else _) as [ext|e|]; try discriminate. cbn [bind] in R.
    destruct (Ffs.Model.slice out 56 (vh_header_length (read_vheader out))) as [mb|e|]; try discriminate. cbn [bind] in R.
    destruct (negb (N.land (blen mb) 7 =? 0)); [discriminate|]. destruct (rev (read_blocks mb)) as [|z q]; [discriminate|].
    destruct (is_zero_block z); cbn [negb] in R; [|discriminate]. destruct (rev q) as [|b bs]; [discriminate|].
    destruct (existsb is_zero_block (b :: bs)); [discriminate|].
    match type of R with match ?e with _ => _ end = _ => destruct e; try discriminate end. injection R as <-. cbn [vr_header].
    split; [reflexivity|]. split; [apply N.ltb_ge in B; exact B|now apply N.eqb_eq]. }
  destruct HD as (HD & B & SG). unfold new_from_address.
  pose proof (holds_bytes_at m base out 40 4 H ltac:(lia)) as B4. change (N.to_nat 4) with 4%nat in B4. rewrite B4.
  pose proof (holds_bytes_at m base out 32 8 H ltac:(lia)) as B8. change (N.to_nat 8) with 8%nat in B8. rewrite B8.
  pose proof (rd_bytes out 40 4) as R4. pose proof (rd_bytes out 32 8) as R8. change (N.of_nat 4) with 4 in R4. change (N.of_nat 8) with 8 in R8.
  rewrite <- R4, <- R8. change (rd out 40 4) with (vh_signature (read_vheader out)). rewrite SG, N.eqb_refl. cbn [negb].
  change (rd out 32 8) with (vh_length (read_vheader out)). rewrite <- HD, L.
  assert (E : readm m base (N.to_nat (blen out)) = out). { apply (readm_holds m base out); [unfold blen; lia|exact H]. }
  rewrite E. exact R.
Qed.

(** ** Files *)

Lemma nth_file_collect : forall next p fuel o l key, collect next fuel o = Some (Ok l) ->
  nth_file next p (S fuel) key (Some o) = Some (Ok (nth_error (filter p (filter (fun a => negb (FwVol.Model.is_pad a)) l)) (N.to_nat key))).
Proof.
  intros next p fuel. induction fuel as [|fuel IH]; intros o l key C; [discriminate|].
  change (nth_file next p (S (S fuel)) key (Some o)) with
    (match next o with
     | Stop => Some (Ok None) | StepPanic => Some Panic
     | Yield (Ok a) o' => if negb (FwVol.Model.is_pad a) && p a then if key =? 0 then Some (Ok (Some a)) else nth_file next p (S fuel) (key - 1) o'
                          else nth_file next p (S fuel) key o'
     | Yield (Err e) o' => if key =? 0 then Some (Err e) else nth_file next p (S fuel) (key - 1) o'
     | Yield Panic _ => Some Panic end).
  cbn [collect] in C. destruct (next o) as [|[a|e|] [o'|]|]; try discriminate.
  - injection C as <-. destruct (N.to_nat key); reflexivity.
  - destruct (collect next fuel o') as [[l'|e|]|] eqn:CL; try discriminate. injection C as <-. cbn [filter].
    destruct (FwVol.Model.is_pad a) eqn:PA; cbn [negb andb]; [apply (IH _ _ _ CL)|]. cbn [filter].
    destruct (p a); [|apply (IH _ _ _ CL)]. destruct (N.eqb_spec key 0) as [->|K]; [reflexivity|].
    rewrite (IH _ _ _ CL). replace (N.to_nat key) with (S (N.to_nat (key - 1))) by lia. reflexivity.
  - injection C as <-. cbn [filter]. destruct (FwVol.Model.is_pad a); cbn [negb andb filter].
    + cbn [nth_file]. destruct (N.to_nat key); reflexivity.
    + destruct (p a); [|cbn [nth_file]; destruct (N.to_nat key); reflexivity].
      destruct (N.eqb_spec key 0) as [->|K]; [reflexivity|]. replace (N.to_nat key) with (S (N.to_nat (key - 1))) by lia. cbn [nth_file nth_error].
      destruct (N.to_nat (key - 1)); reflexivity.
Qed.

Lemma vr_nth_files : forall fuel v l p key, vr_files fuel v = Some (Ok l) ->
  vr_nth (S fuel) v p key = Some (Ok (nth_error (filter p l) (N.to_nat key))).
Proof.
  intros fuel v l p key H. unfold vr_files in H. unfold vr_nth. destruct (Ffs.Model.slice _ _ _); try discriminate.
  destruct (collect _ fuel 0) as [[l0|e|]|] eqn:C; try discriminate. injection H as <-. now apply nth_file_collect.
Qed.

Lemma filter_forall2 : forall A B (R : A -> B -> Prop) f g l l', Forall2 R l l' -> (forall a b, R a b -> f a = g b) -> Forall2 R (filter f l) (filter g l').
Proof.
  intros A B R f g l l' H E. induction H as [|a b l l' X H IH]; [constructor|]. cbn [filter]. rewrite (E a b X). destruct (g b); [now constructor|exact IH].
Qed.
Lemma forall2_nth : forall A B (R : A -> B -> Prop) l l', Forall2 R l l' -> forall i,
  match nth_error l i, nth_error l' i with Some a, Some b => R a b | None, None => True | _, _ => False end.
Proof. intros A B R l l' H. induction H as [|a b l l' X H IH]; intros [|i]; cbn [nth_error]; auto; apply IH. Qed.

(** The attributes as the service gives them. *)
Lemma fv_attributes_ok : forall f r, file_ok f -> reads_as r f -> fv_attributes r = file_attributes f.
Proof.
  intros f r (_ & _ & _ & A & _) (_ & _ & _ & E). unfold fv_attributes, file_attributes.
  assert (G : forall a, a < 256 ->
    (forall x, x = a \/ x = N.lor a 1 ->
     (if negb (N.land x FIXED =? 0) then N.lor (if N.land x DATA_ALIGNMENT_2 =? DATA_ALIGNMENT_2 then 17 + N.shiftr (N.land x DATA_ALIGNMENT) 3
        else nth (N.to_nat (N.shiftr (N.land x DATA_ALIGNMENT) 3)) [0; 4; 7; 9; 10; 12; 15; 16] 0) 0x100
      else (if N.land x DATA_ALIGNMENT_2 =? DATA_ALIGNMENT_2 then 17 + N.shiftr (N.land x DATA_ALIGNMENT) 3
        else nth (N.to_nat (N.shiftr (N.land x DATA_ALIGNMENT) 3)) [0; 4; 7; 9; 10; 12; 15; 16] 0)) =
     asked_alignment a + (if bit a 2 then 0x100 else 0))).
  { intros a L.
    assert (C : forall n, (n < 256)%nat -> let a := N.of_nat n in
      (let t x := (if negb (N.land x FIXED =? 0) then N.lor (if N.land x DATA_ALIGNMENT_2 =? DATA_ALIGNMENT_2 then 17 + N.shiftr (N.land x DATA_ALIGNMENT) 3
        else nth (N.to_nat (N.shiftr (N.land x DATA_ALIGNMENT) 3)) [0; 4; 7; 9; 10; 12; 15; 16] 0) 0x100
      else (if N.land x DATA_ALIGNMENT_2 =? DATA_ALIGNMENT_2 then 17 + N.shiftr (N.land x DATA_ALIGNMENT) 3
        else nth (N.to_nat (N.shiftr (N.land x DATA_ALIGNMENT) 3)) [0; 4; 7; 9; 10; 12; 15; 16] 0)) in
       (t a =? asked_alignment a + (if bit a 2 then 0x100 else 0)) && (t (N.lor a 1) =? asked_alignment a + (if bit a 2 then 0x100 else 0))) = true).
    { intros n LT. cbv zeta. revert n LT.
      assert (ALL : forallb (fun n => let a := N.of_nat n in
        (let t x := (if negb (N.land x FIXED =? 0) then N.lor (if N.land x DATA_ALIGNMENT_2 =? DATA_ALIGNMENT_2 then 17 + N.shiftr (N.land x DATA_ALIGNMENT) 3
          else nth (N.to_nat (N.shiftr (N.land x DATA_ALIGNMENT) 3)) [0; 4; 7; 9; 10; 12; 15; 16] 0) 0x100
        else (if N.land x DATA_ALIGNMENT_2 =? DATA_ALIGNMENT_2 then 17 + N.shiftr (N.land x DATA_ALIGNMENT) 3
          else nth (N.to_nat (N.shiftr (N.land x DATA_ALIGNMENT) 3)) [0; 4; 7; 9; 10; 12; 15; 16] 0)) in
         (t a =? asked_alignment a + (if bit a 2 then 0x100 else 0)) && (t (N.lor a 1) =? asked_alignment a + (if bit a 2 then 0x100 else 0)))) (seq 0 256) = true) by (vm_compute; reflexivity).
      intros n LT. rewrite forallb_forall in ALL. apply ALL. apply in_seq. lia. }
    specialize (C (N.to_nat a) ltac:(lia)). rewrite N2Nat.id in C. cbv zeta in C. apply andb_true_iff in C. destruct C as (C1 & C2).
    intros x [->| ->]; now apply N.eqb_eq. }
  apply (G (f_attr f) A). destruct E as [E|(E & _)]; auto.
Qed.

(** ** What the volume in memory shows *)

Lemma volume_seen : forall dbg m base v out, volume_at dbg m base v out ->
  exists r ps, new_from_address m base = Ok r /\ volume_ref_new out = Ok r /\ vh_attr (vr_header r) = v_attr v /\ vh_length (vr_header r) = blen out /\
    vr_blocks r = v_blocks v /\ vr_ext_header r = Ok (v_ext v) /\ Forall2 (stored dbg out) (v_files v) ps /\
    eventually (fun fuel => forall p key, vr_nth fuel r p key = Some (Ok (nth_error (filter p (map snd ps)) (N.to_nat key)))).
Proof.
  intros dbg m base v out (VO & VF & SE & L & H). destruct (C33_round_trip dbg v VO VF) as (out' & SE' & _ & RT).
  rewrite SE in SE'. injection SE' as <-. destruct (RT L) as (r & R & _ & A & LN & _ & _ & BL & EX & ps & ST & _ & FI & _).
  exists r, ps. split; [now apply (volume_found m base out)|]. split; [exact R|]. split; [exact A|]. split; [exact LN|]. split; [exact BL|]. split; [exact EX|].
  split; [exact ST|]. exists (S (S (2 * length (v_files v)))). intros fuel FU p key. destruct fuel as [|fuel]; [lia|]. apply vr_nth_files. apply FI. lia.
Qed.

Lemma files_chosen : forall dbg out v ps p q key, Forall2 (stored dbg out) (v_files v) ps ->
  (forall f o r, stored dbg out f (o, r) -> p f = q r) ->
  match nth_error (filter p (v_files v)) key, nth_error (filter q (map snd ps)) key with
  | Some f, Some r => exists o, stored dbg out f (o, r)
  | None, None => True
  | _, _ => False
  end.
Proof.
  intros dbg out v ps p q key ST E.
  assert (S2 : Forall2 (fun f r => exists o, stored dbg out f (o, r)) (v_files v) (map snd ps)).
  { clear E. induction ST as [|f [o r] fs ps X ST IH]; cbn [map snd]; constructor; eauto. }
  apply (forall2_nth _ _ _ _ _ (filter_forall2 _ _ _ p q _ _ S2 ltac:(intros f r (o & X); eauto)) key).
Qed.

Lemma read_status_bit : forall a, (N.land a READ_STATUS =? 0) = negb (bit a 2).
Proof.
  intros a. unfold READ_STATUS, bit. change 0x4 with (2 ^ 2). destruct (N.testbit a 2) eqn:B; cbn [negb].
  - apply N.eqb_neq. intros E. assert (X : N.testbit (N.land a (2 ^ 2)) 2 = false) by (rewrite E; reflexivity).
    rewrite N.land_spec, B, N.pow2_bits_true in X. discriminate.
  - apply N.eqb_eq. apply N.bits_inj. intros n. rewrite N.land_spec, N.bits_0. destruct (N.eq_dec n 2) as [->|D]; [now rewrite B|].
    rewrite N.pow2_bits_false by congruence. apply andb_false_r.
Qed.
Lemma mapped_bit : forall a, (N.land a FVB_MEMORY_MAPPED =? FVB_MEMORY_MAPPED) = bit a 10.
Proof.
  intros a. unfold FVB_MEMORY_MAPPED, bit. change 0x400 with (2 ^ 10). destruct (N.testbit a 10) eqn:B.
  - apply N.eqb_eq. apply N.bits_inj. intros n. rewrite N.land_spec. destruct (N.eq_dec n 10) as [->|D]; [now rewrite B|].
    rewrite N.pow2_bits_false by congruence. apply andb_false_r.
  - apply N.eqb_neq. intros E. assert (X : N.testbit (N.land a (2 ^ 10)) 10 = true) by (rewrite E; reflexivity). rewrite N.land_spec, B in X. discriminate.
Qed.
Lemma attributes_small : forall f, file_ok f -> file_attributes f < 0x200.
Proof.
  intros f (_ & _ & _ & A & _). unfold file_attributes.
  assert (X : asked_alignment (f_attr f) < 32).
  { unfold asked_alignment. assert (V : N.land (N.shiftr (f_attr f) 3) 7 < 8) by (change 7 with (N.ones 3); rewrite N.land_ones; apply N.mod_lt; discriminate).
    destruct (bit (f_attr f) 1); [lia|]. set (k := N.to_nat _). assert (K : (k < 8)%nat) by lia. clearbody k.
    do 8 (destruct k as [|k]; [cbn; lia|]). lia. }
  destruct (bit (f_attr f) 2); lia.
Qed.
Lemma lor_mapped : forall a, a < 0x200 -> N.lor a FILE_MEMORY_MAPPED = a + 0x200.
Proof.
  intros a L. unfold FILE_MEMORY_MAPPED.
  rewrite <- N.lxor_lor, <- N.add_nocarry_lxor; [reflexivity| |].
  all: apply N.bits_inj; intros n; rewrite N.land_spec, N.bits_0; change 0x200 with (2 ^ 9); destruct (N.eq_dec n 9) as [->|D];
    [|rewrite N.pow2_bits_false by congruence; apply andb_false_r].
  all: replace (N.testbit a 9) with false; [reflexivity|]; symmetry; destruct (N.eq_dec a 0) as [->|Z]; [reflexivity|];
    apply N.bits_above_log2; apply N.log2_lt_pow2; [lia|exact L].
Qed.

(** ** The data of a file *)

Lemma parsed_unread : forall dbg b s, new_from_buffer dbg b = Ok s -> s = unread (s_header s) (s_bytes s).
Proof.
  intros dbg b s H.
  assert (G : forall buf h o e x, finish_section buf h o e = Ok x -> x = unread (s_header x) (s_bytes x)).
  { intros buf h o e x F. unfold finish_section in F. destruct (Ffs.Model.slice buf o e) as [d|?|]; try discriminate. cbn [bind] in F. injection F as <-.
    destruct h; reflexivity. }
  unfold new_from_buffer in H. destruct (blen b <? 4); [discriminate|]. destruct (read_size b) as [[sz off]|e|]; try discriminate. cbn [bind] in H.
  destruct (blen b <? sz); [discriminate|]. unfold parse_typed in H.
  repeat match type of H with
         | (if ?c then _ else _) = _ => destruct c
         | Err _ = _ => discriminate
         | bind ?e _ = _ => destruct e; try discriminate; cbn [bind] in H
         | (let _ := _ in _) = _ => cbv zeta in H
         end; eapply G; exact H.
Qed.
Lemma collected_unread : forall dbg data fuel o l, collect (section_next dbg data) fuel o = Some (Ok l) -> Forall (fun s => s = unread (s_header s) (s_bytes s)) l.
Proof.
  intros dbg data fuel. induction fuel as [|fuel IH]; intros o l H; [discriminate|]. cbn [collect] in H.
  destruct (section_next dbg data o) as [|[s|e|] [o'|]|] eqn:SN; try discriminate.
  - injection H as <-. constructor.
  - destruct (collect (section_next dbg data) fuel o') as [[l'|e|]|] eqn:C; try discriminate. injection H as <-. constructor; [|now apply IH in C].
    unfold section_next in SN. destruct (blen data <=? o); [discriminate|]. destruct (new_from_buffer dbg _) as [s0|e|] eqn:P; try discriminate.
    destruct (section_size dbg s0); try discriminate. match type of SN with match ?e with _ => _ end = _ => destruct e; try discriminate end.
    injection SN as <- _. now apply parsed_unread in P.
  - unfold section_next in SN. destruct (blen data <=? o); [discriminate|]. destruct (new_from_buffer dbg _) as [s0|e|] eqn:P; try discriminate.
    destruct (section_size dbg s0); try discriminate. match type of SN with match ?e with _ => _ end = _ => destruct e; discriminate end.
Qed.
Lemma unread_list : forall l fs, Forall (fun s => s = unread (s_header s) (s_bytes s)) l -> Forall2 same_section (flat_map with_subs l) fs ->
  flat_map with_subs l = l /\ l = map (fun s => unread (s_header s) (s_bytes s)) fs.
Proof.
  intros l fs U F. assert (E : flat_map with_subs l = l).
  { clear F. induction U as [|s l E U IH]; [reflexivity|]. cbn [flat_map]. rewrite IH. rewrite E. destruct (s_header s); reflexivity. }
  split; [exact E|]. rewrite E in F. clear E. revert U. induction F as [|a b l fs (S1 & S2) F IH]; intros U; [reflexivity|].
  inversion U as [|? ? U1 U2]; subst. cbn [map]. rewrite <- (IH U2), <- S1, <- S2, <- U1. reflexivity.
Qed.

Lemma stored_data : forall dbg out f o r, stored dbg out f (o, r) ->
  exists c, fr_content r = Ok c /\ data_of dbg out f c /\ sections_of dbg (S (length (f_sections f))) c = Some (Ok (map (fun s => unread (s_header s) (s_bytes s)) (f_sections f))).
Proof.
  intros dbg out f o r ((x & y & W & XL) & (L1 & L2 & L3) & _ & _ & _ & ST).
  assert (GET : forall fuel c, (length (f_sections f) < fuel)%nat -> fr_content r = Ok c ->
     sections_of dbg fuel c = Some (Ok (map (fun s => unread (s_header s) (s_bytes s)) (f_sections f)))).
  { intros fuel c FU C. destruct (ST fuel FU) as (l & SE & F). unfold fr_sections in SE. rewrite C in SE.
    destruct (sections_of dbg fuel c) as [[l0|e|]|] eqn:SO; try discriminate. injection SE as <-.
    destruct (unread_list l0 _ (collected_unread _ _ _ _ _ SO) F) as (E1 & E2). now rewrite E2. }
  destruct (ST (S (length (f_sections f))) (Nat.lt_succ_diag_r _)) as (l & SE & _). unfold fr_sections in SE.
  destruct (fr_content r) as [c|e|] eqn:C; try discriminate. clear SE. exists c. split; [reflexivity|]. split; [|apply GET; [lia|reflexivity]].
  unfold fr_content in C. apply slice_inv in C. destruct C as (C1 & _ & C).
  split. { rewrite C. rewrite bytes_at_len by lia. lia. }
  split.
  - exists (x ++ firstn (N.to_nat (fr_content_offset r)) (fr_data r)), y. rewrite W, <- app_assoc. f_equal. rewrite app_assoc. f_equal.
    rewrite C. unfold bytes_at. rewrite (firstn_all2 (n := N.to_nat (blen (fr_data r) - fr_content_offset r)) (skipn (N.to_nat (fr_content_offset r)) (fr_data r))) by (rewrite skipn_length; unfold blen in *; lia). symmetry. apply firstn_skipn.
  - exists (S (length (f_sections f))). intros fuel FU. eexists. split; [apply GET; [lia|reflexivity]|].
    clear. induction (f_sections f) as [|s l IH]; constructor; [|exact IH]. split; [apply unread_header|apply unread_bytes].
Qed.

(** ** Opening sections *)

Lemma extracted_ok : forall dbg ex fuel data n o l l', collect (section_next dbg data) n o = Some (Ok l) ->
  Forall2 (fun s s' => extract dbg ex fuel s = Some (Ok s')) l l' -> extracted dbg ex fuel n data o = Some (Ok l').
Proof.
  intros dbg ex fuel data. induction n as [|n IH]; intros o l l' C F; [discriminate|]. cbn [collect extracted] in *.
  destruct (section_next dbg data o) as [|[s|e|] [o'|]|]; try discriminate.
  - injection C as <-. inversion F. reflexivity.
  - destruct (collect (section_next dbg data) n o') as [[l0|e|]|] eqn:CL; try discriminate. injection C as <-. inversion F as [|? s' ? l0' E F']; subst.
    rewrite E, (IH _ _ _ CL F'). reflexivity.
  - injection C as <-. inversion F as [|? s' ? l0' E F']; subst. inversion F'; subst. now rewrite E.
Qed.

Lemma same_trans : forall a b c, same_section a b -> same_section b c -> same_section a c.
Proof. intros a b c (A1 & A2) (B1 & B2). split; congruence. Qed.

Lemma eventually_all : forall A (P : A -> nat -> Prop) l, (forall x, In x l -> eventually (P x)) -> eventually (fun fuel => forall x, In x l -> P x fuel).
Proof.
  intros A P. induction l as [|x l IH]; intros H; [exists 0%nat; intros fuel _ y []|].
  destruct (H x (or_introl eq_refl)) as (n & N1). destruct IH as (k & K1); [intros y Y; apply H; now right|].
  exists (Nat.max n k). intros fuel FU y [<-|Y]; [apply N1|apply K1; [|exact Y]]; lia.
Qed.

Lemma extract_opens : forall dbg ex d s subs, opens dbg ex d s subs ->
  eventually (fun fuel => exists s', extract dbg ex fuel (unread (s_header s) (s_bytes s)) = Some (Ok s') /\ same_section s' s /\ dirty s' = false /\
    Forall2 same_section (s_subs s') subs /\ Forall (fun x => dirty x = false) (s_subs s')).
Proof.
  intros dbg ex. induction d as [|d IH]; intros s subs O.
  - destruct O as [(L & ->)|(_ & [])]. exists 1%nat. intros [|fuel] FU; [lia|]. exists (unread (s_header s) (s_bytes s)).
    assert (U : unread (s_header s) (s_bytes s) = Section (s_header s) (Leaf (s_bytes s)) false) by (unfold unread; destruct (s_header s); (discriminate || reflexivity)).
    rewrite U. repeat split; constructor.
  - destruct O as [(L & ->)|(L & O)].
    { exists 1%nat. intros [|fuel] FU; [lia|]. exists (unread (s_header s) (s_bytes s)).
      assert (U : unread (s_header s) (s_bytes s) = Section (s_header s) (Leaf (s_bytes s)) false) by (unfold unread; destruct (s_header s); (discriminate || reflexivity)).
      rewrite U. repeat split; constructor. }
    assert (U : unread (s_header s) (s_bytes s) = Section (s_header s) (Encapsulation [] (s_bytes s) false) false) by (unfold unread; destruct (s_header s); (discriminate || reflexivity)).
    destruct O as [(E & ->)|(bytes & E & FC & W & I)].
    + exists 2%nat. intros [|[|fuel]] FU; try lia. rewrite U in *. cbn [extract]. rewrite E.
      change (sections_of dbg (S fuel) []) with (Some (Ok []) : option (res ferr (list section))). cbv iota.
      eexists. split; [reflexivity|]. cbn [s_subs dirty existsb]. repeat split; constructor.
    + assert (EV : eventually (fun fuel => forall x, In x subs -> exists x', extract dbg ex fuel (unread (s_header x) (s_bytes x)) = Some (Ok x') /\ same_section x' x /\ dirty x' = false)).
      { apply (eventually_all _ (fun x fuel => exists x', extract dbg ex fuel (unread (s_header x) (s_bytes x)) = Some (Ok x') /\ same_section x' x /\ dirty x' = false)).
        intros x X. destruct (I x X) as (l & O). destruct (IH x l O) as (n & H). exists n. intros fuel FU. destruct (H fuel FU) as (x' & X1 & X2 & X3 & _). eauto. }
      destruct EV as (n & EV). exists (S (Nat.max n (S (length subs)))). intros [|fuel] FU; [lia|]. rewrite U in *. cbn [extract]. rewrite E.
      rewrite (file_content_ok dbg subs [] eq_refl W) in FC. injection FC as <-. cbn [app].
      rewrite (sections_of_joined dbg subs fuel W) by lia.
      assert (GO : exists l', (fix go (l : list section) : option (res ferr (list section)) :=
                           match l with
                           | [] => Some (Ok [])
                           | s :: l' =>
                               match extract dbg ex fuel s with
                               | Some (Ok s') => match go l' with Some (Ok r) => Some (Ok (s' :: r)) | r => r end
                               | Some (Err e) => Some (Err e)
                               | Some Panic => Some Panic
                               | None => None
                               end
                           end) (map (fun s => unread (s_header s) (s_bytes s)) subs) = Some (Ok l') /\ Forall2 same_section l' subs /\ Forall (fun x => dirty x = false) l').
      { assert (EV' : forall x, In x subs -> exists x', extract dbg ex fuel (unread (s_header x) (s_bytes x)) = Some (Ok x') /\ same_section x' x /\ dirty x' = false) by (apply EV; lia).
        clear - EV'. induction subs as [|x l IHl]; [exists []; repeat split; constructor|]. destruct (EV' x (or_introl eq_refl)) as (x' & X1 & X2 & X3).
        destruct IHl as (l' & L1 & L2 & L3); [intros y Y; apply EV'; now right|]. exists (x' :: l'). cbn [map]. rewrite X1, L1. split; [reflexivity|]. split; constructor; assumption. }
      destruct GO as (l' & G1 & G2 & G3). rewrite G1. eexists. split; [reflexivity|]. split; [split; reflexivity|]. cbn [s_subs dirty orb].
      split; [|split; assumption]. clear - G3. induction G3 as [|x l D G IHl]; [reflexivity|]. cbn [existsb]. now rewrite D.
Qed.
