(** C70: firmware volume services. *)
From Verif Require Import Base.Prelude Base.Bytes Mm.Model Mm.Spec Mm.Props Ffs.Model Ffs.Spec Ffs.SectionProofs Ffs.FileProofs Ffs.VolumeProofs Ffs.Props
  FwVol.Model FwVol.Spec FwVol.Proofs.
From Coq Require Import ZifyBool ZifyNat ZifyN.
Local Open Scope N_scope.

(** ** Attributes, address *)

(** Both protocols of a volume give its attributes, and the block protocol its address. *)
Theorem c70_attributes : forall dbg m base v out t p q, volume_at dbg m base v out -> serves t base p q ->
  fvb_get_attributes m t p true = Ok (v_attr v) /\ fv_get_volume_attributes m t q true = Ok (v_attr v) /\ fvb_get_physical_address t p true = Ok base.
Proof.
  intros dbg m base v out t p q VA (S1 & S2). destruct (volume_seen _ _ _ _ _ VA) as (r & ps & NF & _ & A & _).
  unfold fvb_get_attributes, fv_get_volume_attributes, fvb_get_physical_address, fvb_base, fv_base. rewrite S1, S2. cbn [negb bind]. rewrite NF. cbn [lift bind]. now rewrite A.
Qed.

(** ** Files by key *)

(** GetNextFile with key [k] gives the [k]th file of the type, in the order they have in the volume. *)
Theorem c70_next_file : forall dbg m base v out t q ty key, volume_at dbg m base v out -> readable v -> lookup t q = Some (Fv base) -> ty < 0xF1 ->
  eventually (fun fuel => fv_get_next_file fuel m t q key ty true =
    Some (match nth_error (of_type ty v) (N.to_nat key) with
          | Some f => Ok (key + 1, f_name f, file_attributes f + mapped v, file_len f, f_type f)
          | None => Err NotFound
          end)).
Proof.
  intros dbg m base v out t q ty key VA RD S TY. destruct (volume_seen _ _ _ _ _ VA) as (r & ps & NF & _ & A & _ & _ & _ & ST & (n & EV)).
  exists n. intros fuel FU. unfold fv_get_next_file, fv_base, select. cbn [negb]. rewrite (proj2 (N.leb_gt 0xF1 ty) TY), S. cbv iota. rewrite NF. cbn [lift].
  rewrite read_status_bit, A. unfold readable in RD. rewrite RD. cbn [negb]. rewrite (EV fuel FU).
  pose proof (files_chosen dbg out v ps (fun f => (ty =? 0) || (f_type f =? ty)) (fun f => (ty =? 0) || (fh_type (fr_header f) =? ty)) (N.to_nat key) ST) as CH.
  unfold of_type. destruct VA as (VO & _). assert (FO : forall f, In f (v_files v) -> file_ok f).
  { destruct VO as (_ & _ & _ & _ & F & _). rewrite Forall_forall in F. intros f I. now apply F in I. }
  destruct (nth_error (filter _ (v_files v)) (N.to_nat key)) as [f|] eqn:N1, (nth_error (filter _ (map snd ps)) (N.to_nat key)) as [a|] eqn:N2;
    try (exfalso; apply CH; intros f' o r' (_ & _ & _ & _ & (_ & E & _) & _); now rewrite E).
  - destruct CH as (o & X). { intros f' o r' (_ & _ & _ & _ & (_ & E & _) & _); now rewrite E. }
    destruct X as (_ & (L1 & L2 & _) & _ & _ & RA & _). apply nth_error_In, filter_In in N1. destruct N1 as (I & _).
    rewrite !mapped_bit. rewrite (fv_attributes_ok f a (FO f I) RA). pose proof (attributes_small f (FO f I)) as SM.
    assert (B10 : forall x, x < 0x400 -> bit x 10 = false).
    { intros x X. unfold bit. destruct (N.eq_dec x 0) as [->|Z]; [reflexivity|]. apply N.bits_above_log2. apply N.log2_lt_pow2; [lia|exact X]. }
    unfold mapped. destruct RA as (R1 & R2 & _). rewrite R1, R2, L1, L2.
    destruct (bit (v_attr v) 10); [rewrite (lor_mapped _ SM)|rewrite N.add_0_r]; rewrite B10 by lia; reflexivity.
  - reflexivity.
Qed.

(** Asking again and again gives every file of the type once, in order. *)
Theorem c70_enumerate : forall dbg m base v out t q ty, volume_at dbg m base v out -> readable v -> lookup t q = Some (Fv base) -> ty < 0xF1 ->
  eventually (fun fuel => walk (fun key => fv_get_next_file fuel m t q key ty true) (S (length (of_type ty v))) 0 =
    Some (map (fun f => (f_name f, f_type f)) (of_type ty v))).
Proof.
  intros dbg m base v out t q ty VA RD S TY.
  assert (EV : eventually (fun fuel => forall k, In k (seq 0 (Datatypes.S (length (of_type ty v)))) ->
     fv_get_next_file fuel m t q (N.of_nat k) ty true =
     Some (match nth_error (of_type ty v) k with
          | Some f => Ok (N.of_nat k + 1, f_name f, file_attributes f + mapped v, file_len f, f_type f)
          | None => Err NotFound
          end))).
  { apply (eventually_all _ (fun k fuel => fv_get_next_file fuel m t q (N.of_nat k) ty true =
     Some (match nth_error (of_type ty v) k with
          | Some f => Ok (N.of_nat k + 1, f_name f, file_attributes f + mapped v, file_len f, f_type f)
          | None => Err NotFound
          end))). intros k _. pose proof (c70_next_file dbg m base v out t q ty (N.of_nat k) VA RD S TY) as H. rewrite Nat2N.id in H. exact H. }
  destruct EV as (n & EV). exists n. intros fuel FU. specialize (EV fuel FU). set (l := of_type ty v) in *. clearbody l.
  assert (G : forall suf pre, l = pre ++ suf -> walk (fun key => fv_get_next_file fuel m t q key ty true) (Datatypes.S (length suf)) (N.of_nat (length pre)) =
     Some (map (fun f => (f_name f, f_type f)) suf)).
  { induction suf as [|f suf IH]; intros pre E.
    - cbn [walk length]. rewrite EV by (apply in_seq; rewrite E, app_length; cbn [length]; lia).
      replace (nth_error l (length pre)) with (@None file); [reflexivity|]. symmetry. apply nth_error_None. rewrite E, app_length. cbn [length]. lia.
    - cbn [length]. change (walk (fun key => fv_get_next_file fuel m t q key ty true) (Datatypes.S (Datatypes.S (length suf))) (N.of_nat (length pre))) with
        (match fv_get_next_file fuel m t q (N.of_nat (length pre)) ty true with
         | Some (Ok (key', name, _, _, ty')) => match walk (fun key => fv_get_next_file fuel m t q key ty true) (Datatypes.S (length suf)) key' with Some l => Some ((name, ty') :: l) | None => None end
         | Some (Err NotFound) => Some []
         | _ => None
         end).
      rewrite EV by (apply in_seq; rewrite E, app_length; cbn [length]; lia).
      replace (nth_error l (length pre)) with (Some f) by (rewrite E, nth_error_app2, Nat.sub_diag by lia; reflexivity). cbv iota.
      specialize (IH (pre ++ [f])). rewrite app_length in IH. cbn [length] in IH. replace (N.of_nat (length pre) + 1) with (N.of_nat (length pre + 1)) by lia.
      rewrite IH by (rewrite <- app_assoc; exact E). reflexivity. }
  apply (G l []). reflexivity.
Qed.

(** ** Files by name *)

Lemma find_first : forall (P : file -> bool) l, match filter P l with [] => forall g, In g l -> P g = false
  | f :: _ => exists p q, l = p ++ f :: q /\ P f = true /\ forall g, In g p -> P g = false end.
Proof.
  intros P. induction l as [|f l IH]; cbn [filter]; [intros g []|]. destruct (P f) eqn:E; [exists [], l; repeat split; auto; intros g []|].
  destruct (filter P l) as [|a r]; [intros g [<-|I]; auto|]. destruct IH as (p & q & -> & A & B). exists (f :: p), q. repeat split; auto. intros g [<-|I]; auto.
Qed.
Lemma first_named_filter : forall v name f, first_named v name f -> nth_error (filter (fun g => list_eqb (f_name g) name) (v_files v)) 0 = Some f.
Proof.
  intros v name f (p & q & E & F & N). pose proof (find_first (fun g => list_eqb (f_name g) name) (v_files v)) as H.
  rewrite E. assert (FP : filter (fun g => list_eqb (f_name g) name) p = []).
  { clear - N. induction p as [|g p IH]; [reflexivity|]. cbn [filter]. destruct (list_eqb (f_name g) name) eqn:X; [exfalso; apply (N g (or_introl eq_refl)); now apply list_eqb_eq|].
    apply IH. intros h I. apply N. now right. }
  rewrite filter_app, FP. cbn [app filter]. rewrite (proj2 (list_eqb_eq _ _) F). reflexivity.
Qed.

Lemma selected : forall dbg m base v out t q name, volume_at dbg m base v out -> readable v -> lookup t q = Some (Fv base) ->
  exists r, new_from_address m base = Ok r /\
  (forall f, first_named v name f -> exists o a, stored dbg out f (o, a) /\ In f (v_files v) /\ eventually (fun fuel => select fuel r (named name) 0 = Some (Ok a))) /\
  ((forall f, In f (v_files v) -> f_name f <> name) -> eventually (fun fuel => select fuel r (named name) 0 = Some (Err NotFound))).
Proof.
  intros dbg m base v out t q name VA RD S. destruct (volume_seen _ _ _ _ _ VA) as (r & ps & NF & _ & A & _ & _ & _ & ST & (n & EV)).
  exists r. split; [exact NF|].
  pose proof (files_chosen dbg out v ps (fun g => list_eqb (f_name g) name) (named name) 0 ST) as CH.
  assert (E0 : forall f o r0, stored dbg out f (o, r0) -> list_eqb (f_name f) name = named name r0).
  { intros f' o r' (_ & _ & _ & _ & (E & _) & _). unfold named. now rewrite E. }
  specialize (CH E0). unfold select, readable in *. split.
  - intros f F. pose proof (first_named_filter v name f F) as FF. rewrite FF in CH. destruct (nth_error (filter (named name) (map snd ps)) 0) as [a|] eqn:N2; [|destruct CH].
    destruct CH as (o & X). exists o, a. split; [exact X|]. split; [apply nth_error_In, filter_In in FF; apply FF|].
    exists n. intros fuel FU. rewrite read_status_bit, A, RD. cbn [negb]. rewrite (EV fuel FU). change (N.to_nat 0) with 0%nat. now rewrite N2.
  - intros NN. exists n. intros fuel FU. rewrite read_status_bit, A, RD. cbn [negb]. rewrite (EV fuel FU). change (N.to_nat 0) with 0%nat.
    destruct (nth_error (filter (named name) (map snd ps)) 0) as [a|] eqn:N2; [|reflexivity].
    destruct (nth_error (filter (fun g => list_eqb (f_name g) name) (v_files v)) 0) as [f|] eqn:N1; [|destruct CH].
    apply nth_error_In, filter_In in N1. destruct N1 as (I & E). apply list_eqb_eq in E. exfalso. exact (NN f I E).
Qed.

(** ReadFile gives the data of the first file of that name. *)
Theorem c70_read_file : forall dbg m base v out t q name f alloc buffer size, volume_at dbg m base v out -> readable v -> lookup t q = Some (Fv base) ->
  first_named v name f -> (forall n, alloc n <> Panic) ->
  exists c, data_of dbg out f c /\
    eventually (fun fuel => exists o, fv_read_file fuel alloc m t q name buffer size true = Some (Ok o) /\ file_read m c (f_type f) (file_attributes f) alloc buffer size o).
Proof.
  intros dbg m base v out t q name f alloc buffer size VA RD S F NP. destruct (selected _ _ _ _ _ _ _ name VA RD S) as (r & NF & SEL & _).
  destruct (SEL f F) as (o & a & X & I & (n & EV)). destruct (stored_data _ _ _ _ _ X) as (c & C & D & _). exists c. split; [exact D|].
  assert (FO : file_ok f). { destruct VA as ((_ & _ & _ & _ & FF & _) & _). rewrite Forall_forall in FF. now apply FF in I. }
  destruct X as (_ & _ & _ & _ & RA & _). pose proof (fv_attributes_ok f a FO RA) as AT. destruct RA as (_ & TY & _).
  exists n. intros fuel FU. unfold fv_read_file, fv_base. cbn [negb]. rewrite S, NF. cbn [lift]. rewrite (EV fuel FU), C. cbv zeta. rewrite TY, AT.
  destruct buffer as [p|]; [|eexists; split; [reflexivity|]; repeat split].
  assert (BL : blen c = N.of_nat (length c)) by reflexivity.
  unfold file_read. destruct (N.eqb_spec size 0) as [->|Z].
  - change (0 <? 0) with false. cbv iota. specialize (NP (blen c)). destruct (alloc (blen c)) as [b|e|]; [|eexists; split; [reflexivity|repeat split]|contradiction].
    eexists. split; [reflexivity|]. cbn [fo_meta fo_status fo_buffer fo_mem]. split; [reflexivity|]. split; [reflexivity|]. split; [reflexivity|].
    split; [apply writem_holds|rewrite BL; apply writem_within].
  - replace (0 <? size) with true by (symmetry; apply N.ltb_lt; lia). destruct (size <? blen c); [eexists; split; [reflexivity|repeat split]|].
    destruct (p =? 0); [eexists; split; [reflexivity|repeat split]|]. eexists. split; [reflexivity|]. cbn [fo_meta fo_status fo_buffer fo_mem].
    split; [reflexivity|]. split; [reflexivity|]. split; [reflexivity|]. split; [apply writem_holds|rewrite BL; apply writem_within].
Qed.

Lemma section_found : forall dbg ex m base v out t q name f ty inst ps,
  volume_at dbg m base v out -> readable v -> lookup t q = Some (Fv base) ->
  first_named v name f -> map fst ps = f_sections f -> Forall (fun p => exists d, opens dbg ex d (fst p) (snd p)) ps ->
  eventually (fun fuel => match section_at ty inst (shown ps) with
    | Some y => exists x, core_fv_read_section dbg ex fuel m t q name ty inst = Some (Ok x) /\ s_bytes x = s_bytes y /\ dirty x = false
    | None => core_fv_read_section dbg ex fuel m t q name ty inst = Some (Err NotFound) end).
Proof.
  intros dbg ex m base v out t q name f ty inst ps VA RD S F PS OP. destruct (selected _ _ _ _ _ _ _ name VA RD S) as (r & NF & SEL & _).
  destruct (SEL f F) as (o & a & X & I & (n & EV)). destruct (stored_data _ _ _ _ _ X) as (c & C & D & SO).
  assert (EX : eventually (fun fuel => exists l', Forall2 (fun s s' => extract dbg ex fuel s = Some (Ok s')) (map (fun s => unread (s_header s) (s_bytes s)) (f_sections f)) l' /\
      Forall2 same_section (flat_map with_subs l') (shown ps) /\ Forall (fun x => dirty x = false) (flat_map with_subs l'))).
  { rewrite <- PS. clear - OP. induction OP as [|[s subs] ps (d & O) OP IH].
    - exists 0%nat. intros fuel _. exists []. repeat split; constructor.
    - destruct IH as (n1 & IH). destruct (extract_opens dbg ex d s subs O) as (n2 & E). cbn [fst snd] in *. exists (Nat.max n1 n2). intros fuel FU.
      destruct (IH fuel ltac:(lia)) as (l' & L1 & L2 & L3). destruct (E fuel ltac:(lia)) as (s' & S1 & S2 & S3 & S4 & S5). exists (s' :: l'). cbn [map fst]. split; [constructor; assumption|].
      unfold shown. cbn [flat_map fst snd]. unfold with_subs at 1 3. cbn [app]. split.
      + constructor; [exact S2|]. apply Forall2_app; [exact S4|exact L2].
      + constructor; [exact S3|]. apply Forall_app. split; assumption. }
  destruct EX as (n2 & EX).
  assert (K : forall fuel, (Nat.max n (Nat.max n2 (Datatypes.S (length (f_sections f)))) <= fuel)%nat -> exists l,
     core_fv_read_section dbg ex fuel m t q name ty inst =
       match nth_error (filter (fun s => section_type_raw (s_header s) =? ty) l) (N.to_nat inst) with Some s => Some (Ok s) | None => Some (Err NotFound) end /\
     Forall2 same_section l (shown ps) /\ Forall (fun x => dirty x = false) l).
  { intros fuel FU. destruct (EX fuel ltac:(lia)) as (l' & L1 & L2 & L3). exists (flat_map with_subs l'). split; [|split; assumption].
    unfold core_fv_read_section, fv_base. rewrite S, NF. cbn [lift]. rewrite (EV fuel ltac:(lia)). unfold sections_with_extractor. rewrite C.
    assert (SO' : sections_of dbg fuel c = Some (Ok (map (fun s => unread (s_header s) (s_bytes s)) (f_sections f)))).
    { unfold sections_of in *. apply (Ffs.SectionRead.collect_more _ _ (Datatypes.S (length (f_sections f)))); [lia|exact SO]. }
    rewrite (extracted_ok dbg ex fuel c fuel 0 _ _ SO' L1). reflexivity. }
  assert (NT : forall l, Forall2 same_section l (shown ps) -> Forall (fun x => dirty x = false) l ->
     match nth_error (filter (fun s => section_type_raw (s_header s) =? ty) l) (N.to_nat inst), section_at ty inst (shown ps) with
     | Some x, Some y => s_bytes x = s_bytes y /\ dirty x = false | None, None => True | _, _ => False end).
  { intros l F2 FD. unfold section_at.
    pose proof (forall2_nth _ _ _ _ _ (filter_forall2 _ _ _ (fun s => section_type_raw (s_header s) =? ty) (fun s => section_type_raw (s_header s) =? ty) _ _ F2
      ltac:(intros x y (E & _); now rewrite E)) (N.to_nat inst)) as H.
    destruct (nth_error (filter _ l) _) as [x|] eqn:N1, (nth_error (filter _ (shown ps)) _) as [y|]; try exact H. destruct H as (_ & H). split; [exact H|].
    apply nth_error_In, filter_In in N1. rewrite Forall_forall in FD. now apply FD. }
  eexists. intros fuel FU. destruct (K fuel FU) as (l & KE & K2 & K3). specialize (NT l K2 K3). rewrite KE.
  destruct (nth_error _ (N.to_nat inst)) as [x|], (section_at ty inst (shown ps)) as [y|]; try destruct NT; [|reflexivity]. exists x. auto.
Qed.

(** ReadSection gives the data of the section with that number among those of the type: the sections of the file, each followed by
    those directly inside.  A buffer that is longer than the section is not covered: see [c70_section_long_buffer_refuted]. *)
Theorem c70_read_section_partial : forall dbg ex m base v out t q name f ty inst ps alloc buffer size,
  volume_at dbg m base v out -> readable v -> lookup t q = Some (Fv base) ->
  first_named v name f -> (forall n, alloc n <> Panic) -> map fst ps = f_sections f -> Forall (fun p => exists d, opens dbg ex d (fst p) (snd p)) ps ->
  match section_at ty inst (shown ps) with
  | Some s => buffer = 0 \/ size <= blen (s_bytes s) ->
      eventually (fun fuel => exists o, fv_read_section dbg ex fuel alloc m t q name ty inst buffer size true = Some (Ok o) /\ section_read m (s_bytes s) alloc buffer size o)
  | None =>
      eventually (fun fuel => fv_read_section dbg ex fuel alloc m t q name ty inst buffer size true = Some (Ok (SectionOut (FErr NotFound) size buffer m)))
  end.
Proof.
  intros dbg ex m base v out t q name f ty inst ps alloc buffer size VA RD S F NP PS OP.
  destruct (section_found dbg ex m base v out t q name f ty inst ps VA RD S F PS OP) as (n & H). destruct (section_at ty inst (shown ps)) as [y|].
  - intros SZ. exists n. intros fuel FU. destruct (H fuel FU) as (x & KE & E & DX).
    unfold fv_read_section. cbn [negb]. rewrite KE.
    unfold try_content. rewrite DX. cbn [lift]. rewrite E. set (b := s_bytes y) in *. assert (BL : blen b = N.of_nat (length b)) by reflexivity.
    unfold section_read. destruct (buffer =? 0) eqn:B0.
    + specialize (NP (blen b)). destruct (alloc (blen b)) as [p|e|]; [| |contradiction]; eexists; (split; [reflexivity|]); cbn [so_status so_size so_buffer so_mem];
        [|repeat split]. split; [reflexivity|]. split; [reflexivity|]. split; [reflexivity|]. split; [apply writem_holds|rewrite BL; apply writem_within].
    + assert (SZ' : size <= blen b) by (destruct SZ as [->|]; [discriminate|assumption]). rewrite (proj2 (N.ltb_ge _ _) SZ'). eexists. split; [reflexivity|].
      cbn [so_status so_size so_buffer so_mem]. split; [reflexivity|]. split; [reflexivity|]. split; [reflexivity|]. split; [apply writem_holds|].
      pose proof (writem_within m buffer (firstn (N.to_nat size) b)) as W. rewrite firstn_length in W. replace (N.of_nat (Nat.min (N.to_nat size) (length b))) with size in W by lia. exact W.
  - exists n. intros fuel FU. specialize (H fuel FU). unfold fv_read_section. cbn [negb]. now rewrite H.
Qed.

(** A buffer that is longer than the section makes ReadSection panic, where the specification has it fill the buffer. *)
Theorem c70_section_long_buffer_refuted : forall dbg ex m base v out t q name f ty inst ps alloc buffer size s,
  volume_at dbg m base v out -> readable v -> lookup t q = Some (Fv base) ->
  first_named v name f -> map fst ps = f_sections f -> Forall (fun p => exists d, opens dbg ex d (fst p) (snd p)) ps ->
  section_at ty inst (shown ps) = Some s -> buffer <> 0 -> blen (s_bytes s) < size ->
  eventually (fun fuel => fv_read_section dbg ex fuel alloc m t q name ty inst buffer size true = Some Panic).
Proof.
  intros dbg ex m base v out t q name f ty inst ps alloc buffer size s VA RD S F PS OP SA B SZ.
  destruct (section_found dbg ex m base v out t q name f ty inst ps VA RD S F PS OP) as (n & H). rewrite SA in H. exists n. intros fuel FU.
  destruct (H fuel FU) as (x & KE & E & DX). unfold fv_read_section. cbn [negb]. rewrite KE. unfold try_content. rewrite DX. cbn [lift].
  rewrite (proj2 (N.eqb_neq _ _) B), E, (proj2 (N.ltb_lt _ _) SZ). reflexivity.
Qed.

(** ** Refusals *)

(** A file that is not there; a volume that cannot be read; a pointer that is no volume's. *)
Theorem c70_no_such_file : forall dbg ex m base v out t q name ty inst alloc buffer fbuffer size, volume_at dbg m base v out -> readable v -> lookup t q = Some (Fv base) ->
  (forall f, In f (v_files v) -> f_name f <> name) ->
  eventually (fun fuel => fv_read_file fuel alloc m t q name fbuffer size true = Some (Ok (FileOut (FErr NotFound) None fbuffer m)) /\
    fv_read_section dbg ex fuel alloc m t q name ty inst buffer size true = Some (Ok (SectionOut (FErr NotFound) size buffer m))).
Proof.
  intros dbg ex m base v out t q name ty inst alloc buffer fbuffer size VA RD S NN. destruct (selected _ _ _ _ _ _ _ name VA RD S) as (r & NF & _ & SEL).
  destruct (SEL NN) as (n & EV). exists n. intros fuel FU. unfold fv_read_file, fv_read_section, core_fv_read_section, fv_base. cbn [negb]. rewrite S, NF. cbn [lift].
  rewrite (EV fuel FU). split; reflexivity.
Qed.
Theorem c70_not_readable : forall dbg ex m base v out t q name ty inst key alloc buffer fbuffer size fuel, volume_at dbg m base v out -> bit (v_attr v) 2 = false -> lookup t q = Some (Fv base) -> 
  fv_read_file fuel alloc m t q name fbuffer size true = Some (Ok (FileOut (FErr AccessDenied) None fbuffer m)) /\
  fv_read_section dbg ex fuel alloc m t q name ty inst buffer size true = Some (Ok (SectionOut (FErr AccessDenied) size buffer m)) /\
  (ty < 0xF1 -> fv_get_next_file fuel m t q key ty true = Some (Err AccessDenied)).
Proof.
  intros dbg ex m base v out t q name ty inst key alloc buffer fbuffer size fuel VA RD S. destruct (volume_seen _ _ _ _ _ VA) as (r & ps & NF & _ & A & _).
  unfold fv_read_file, fv_read_section, core_fv_read_section, fv_get_next_file, fv_base, select. cbn [negb]. rewrite S, NF. cbn [lift]. rewrite !read_status_bit, A, RD. cbn [negb].
  split; [reflexivity|]. split; [reflexivity|]. intros TY. now rewrite (proj2 (N.leb_gt 0xF1 ty) TY).
Qed.
Theorem c70_unknown : forall dbg ex m t q name ty inst key alloc buffer fbuffer size fuel lba o k b, lookup t q = None -> b <> 0 ->
  fv_read_file fuel alloc m t q name fbuffer size true = Some (Ok (FileOut (FErr NotFound) None fbuffer m)) /\
  fv_read_section dbg ex fuel alloc m t q name ty inst buffer size true = Some (Ok (SectionOut (FErr NotFound) size buffer m)) /\
  fv_get_next_file fuel m t q key ty true = Some (Err NotFound) /\ fv_get_volume_attributes m t q true = Err NotFound /\
  fvb_get_attributes m t q true = Err NotFound /\ fvb_get_physical_address t q true = Err NotFound /\ fvb_get_block_size dbg m t q lba true = Err NotFound /\
  fvb_read dbg m t q lba o (Some k) b = Err NotFound.
Proof.
  intros dbg ex m t q name ty inst key alloc buffer fbuffer size fuel lba o k b S B.
  unfold fv_read_file, fv_read_section, core_fv_read_section, fv_get_next_file, fv_get_volume_attributes, fvb_get_attributes, fvb_get_physical_address, fvb_get_block_size, fvb_read,
    core_fvb_read, fv_base, fvb_base. cbn [negb]. rewrite S, (proj2 (N.eqb_neq _ _) B). cbn [bind]. destruct (0xF1 <=? ty); repeat split; reflexivity.
Qed.
(** A pointer of one protocol is not one of the other. *)
Theorem c70_wrong_kind : forall dbg ex m t q base name ty inst key alloc buffer fbuffer size fuel lba o k b, b <> 0 ->
  (lookup t q = Some (Fvb base) ->
    fv_read_file fuel alloc m t q name fbuffer size true = Some (Ok (FileOut (FErr NotFound) None fbuffer m)) /\
    fv_read_section dbg ex fuel alloc m t q name ty inst buffer size true = Some (Ok (SectionOut (FErr NotFound) size buffer m)) /\
    fv_get_next_file fuel m t q key ty true = Some (Err NotFound) /\ fv_get_volume_attributes m t q true = Err NotFound) /\
  (lookup t q = Some (Fv base) ->
    fvb_get_attributes m t q true = Err NotFound /\ fvb_get_physical_address t q true = Err NotFound /\ fvb_get_block_size dbg m t q lba true = Err NotFound /\
    fvb_read dbg m t q lba o (Some k) b = Err NotFound).
Proof.
  intros dbg ex m t q base name ty inst key alloc buffer fbuffer size fuel lba o k b B.
  unfold fv_read_file, fv_read_section, core_fv_read_section, fv_get_next_file, fv_get_volume_attributes, fvb_get_attributes, fvb_get_physical_address, fvb_get_block_size, fvb_read,
    core_fvb_read, fv_base, fvb_base. cbn [negb]. rewrite (proj2 (N.eqb_neq _ _) B).
  split; intros S; rewrite S; cbn [bind]; [destruct (0xF1 <=? ty)|]; repeat split; reflexivity.
Qed.

(** ** Blocks *)

Lemma uadd_small : forall dbg a b, a + b < 2 ^ 64 -> @uadd efi_error dbg a b = Ok (a + b).
Proof. intros dbg a b L. unfold uadd, two64. now rewrite (proj2 (N.ltb_lt _ _) L). Qed.

(** Reading within a block of the first region of the block map gives its bytes.  Blocks of further regions are read from the wrong
    place: see [c70_second_region_refuted]. *)
Theorem c70_block_read_partial : forall dbg m base v out t p n len l lba o k buffer, volume_at dbg m base v out -> lookup t p = Some (Fvb base) ->
  v_blocks v = (n, len) :: l -> lba < n -> n < 2 ^ 32 -> n * len < 2 ^ 32 -> n * len <= blen out -> base + blen out < 2 ^ 64 -> o + k <= len -> buffer <> 0 ->
  exists m', fvb_read dbg m t p lba o (Some k) buffer = Ok (FSuccess, k, m') /\
    block_of (v_blocks v) lba = Some (lba * len, len, n - lba) /\
    holds m' buffer (part out (lba * len + o) k) /\ N.of_nat (length (part out (lba * len + o) k)) = k /\ only_within m m' buffer k.
Proof.
  intros dbg m base v out t p n len l lba o k buffer VA S BL L N32 M IN B64 OK BU. destruct (volume_seen _ _ _ _ _ VA) as (r & ps & NF & _ & _ & _ & BS & _).
  rewrite BL in BS. pose proof (C33_lba_first_region dbg r lba n len l BS L M N32) as LI. rewrite BS in LI. cbn [block_start] in LI. rewrite (proj2 (N.ltb_lt _ _) L) in LI.
  assert (LE : lba * len + len <= n * len). { clear - L. nia. }
  unfold fvb_read. rewrite (proj2 (N.eqb_neq _ _) BU). unfold core_fvb_read, fvb_base. rewrite S. cbn [bind]. rewrite NF. cbn [lift bind].
  assert (L32 : lba < 2 ^ 32) by lia. unfold two32. rewrite (proj2 (N.leb_gt _ _) L32). rewrite LI. cbn [lift bind].
  rewrite (uadd_small dbg o k) by lia. cbn [bind]. rewrite (proj2 (N.ltb_ge len (o + k)) OK). cbn [bind]. rewrite (uadd_small dbg base) by lia. cbn [bind].
  rewrite (uadd_small dbg (base + lba * len) o) by lia. cbn [bind]. rewrite N.ltb_irrefl, N.eqb_refl. cbn [negb].
  destruct VA as (_ & _ & _ & _ & H). replace (base + lba * len + o) with (base + (lba * len + o)) by lia.
  rewrite (holds_bytes_at m base out (lba * len + o) k H) by lia. eexists. split; [reflexivity|].
  split. { rewrite BL. cbn [block_of]. now rewrite (proj2 (N.ltb_lt _ _) L). }
  change (bytes_at out (lba * len + o) k) with (part out (lba * len + o) k). split; [apply writem_holds|].
  assert (LP : N.of_nat (length (part out (lba * len + o) k)) = k).
  { change (N.of_nat (length (part out (lba * len + o) k))) with (blen (bytes_at out (lba * len + o) k)). apply bytes_at_len. lia. }
  split; [exact LP|]. pose proof (writem_within m buffer (part out (lba * len + o) k)) as W. rewrite LP in W. exact W.
Qed.

(** Reading past the end of a block gives what is left of the block and says so; a checked build panics. *)
Theorem c70_block_end : forall m base v out t p n len l lba o k buffer, volume_at false m base v out -> lookup t p = Some (Fvb base) ->
  v_blocks v = (n, len) :: l -> lba < n -> n < 2 ^ 32 -> n * len < 2 ^ 32 -> n * len <= blen out -> base + blen out < 2 ^ 64 -> o <= len -> len < o + k -> o + k < 2 ^ 64 -> buffer <> 0 ->
  exists m', fvb_read false m t p lba o (Some k) buffer = Ok (FErr BadBufferSize, len - o, m') /\
    holds m' buffer (part out (lba * len + o) (len - o)) /\ only_within m m' buffer (len - o).
Proof.
  intros m base v out t p n len l lba o k buffer VA S BL L N32 M IN B64 OL OK K64 BU. destruct (volume_seen _ _ _ _ _ VA) as (r & ps & NF & _ & _ & _ & BS & _).
  rewrite BL in BS. pose proof (C33_lba_first_region false r lba n len l BS L M N32) as LI. rewrite BS in LI. cbn [block_start] in LI. rewrite (proj2 (N.ltb_lt _ _) L) in LI.
  assert (LE : lba * len + len <= n * len). { clear - L. nia. }
  unfold fvb_read. rewrite (proj2 (N.eqb_neq _ _) BU). unfold core_fvb_read, fvb_base. rewrite S. cbn [bind]. rewrite NF. cbn [lift bind].
  assert (L32 : lba < 2 ^ 32) by lia. unfold two32. rewrite (proj2 (N.leb_gt _ _) L32). rewrite LI. cbn [lift bind].
  rewrite (uadd_small false o k) by lia. cbn [bind]. rewrite (proj2 (N.ltb_lt len (o + k)) OK). unfold debug_fail, usub. rewrite (proj2 (N.leb_le o len) OL) || idtac.
  cbn [bind]. rewrite (uadd_small false base) by lia. cbn [bind].
  rewrite (uadd_small false (base + lba * len) o) by lia. cbn [bind]. replace (k <? len - o) with false by (symmetry; apply N.ltb_ge; lia).
  replace (len - o =? k) with false by (symmetry; apply N.eqb_neq; lia). cbn [negb].
  destruct VA as (_ & _ & _ & _ & H). replace (base + lba * len + o) with (base + (lba * len + o)) by lia.
  rewrite (holds_bytes_at m base out (lba * len + o) (len - o) H) by lia. eexists. split; [reflexivity|].
  change (bytes_at out (lba * len + o) (len - o)) with (part out (lba * len + o) (len - o)). split; [apply writem_holds|].
  assert (LP : N.of_nat (length (part out (lba * len + o) (len - o))) = len - o).
  { change (N.of_nat (length (part out (lba * len + o) (len - o)))) with (blen (bytes_at out (lba * len + o) (len - o))). apply bytes_at_len. lia. }
  pose proof (writem_within m buffer (part out (lba * len + o) (len - o))) as W. rewrite LP in W. exact W.
Qed.

(** GetBlockSize gives the place of the block for its size, and the size for the number of blocks. *)
Theorem c70_block_size_refuted : forall dbg m base v out t p n len l lba, volume_at dbg m base v out -> lookup t p = Some (Fvb base) ->
  v_blocks v = (n, len) :: l -> lba < n -> n < 2 ^ 32 -> n * len < 2 ^ 32 ->
  block_of (v_blocks v) lba = Some (lba * len, len, n - lba) /\ fvb_get_block_size dbg m t p lba true = Ok (lba * len, len).
Proof.
  intros dbg m base v out t p n len l lba VA S BL L N32 M. destruct (volume_seen _ _ _ _ _ VA) as (r & ps & NF & _ & _ & _ & BS & _).
  rewrite BL in BS. pose proof (C33_lba_first_region dbg r lba n len l BS L M N32) as LI. rewrite BS in LI. cbn [block_start] in LI. rewrite (proj2 (N.ltb_lt _ _) L) in LI.
  split. { rewrite BL. cbn [block_of]. now rewrite (proj2 (N.ltb_lt _ _) L). }
  unfold fvb_get_block_size, fvb_base. rewrite S. cbn [negb bind]. rewrite NF. cbn [lift bind]. assert (L32 : lba < 2 ^ 32) by lia. unfold two32. rewrite (proj2 (N.leb_gt _ _) L32), LI.
  reflexivity.
Qed.

(** ** Installing *)

Lemma lookup_insert : forall t p i x, lookup (insert t p i) x = if x =? p then Some i else lookup t x.
Proof.
  intros t p i x. unfold lookup, insert. cbn [find fst]. rewrite N.eqb_sym. destruct (N.eqb_spec x p) as [->|D]; [reflexivity|].
  replace (find (fun e => fst e =? x) (filter (fun e => negb (fst e =? p)) t)) with (find (fun e => fst e =? x) t); [reflexivity|].
  induction t as [|[y j] t IH]; [reflexivity|]. cbn [find filter fst]. destruct (N.eqb_spec y x) as [->|Y].
  - rewrite (proj2 (N.eqb_neq x p) D). cbn [negb find fst]. now rewrite N.eqb_refl.
  - destruct (y =? p); cbn [negb find fst]; [exact IH|]. rewrite (proj2 (N.eqb_neq y x) Y). exact IH.
Qed.

(** The path of a volume: its name if it has one, and else the memory it takes up ("memory mapped", type 11). *)
Definition volume_path (base len : N) (v : volume) : list N :=
  match v_ext v with
  | Some (e, _) => node 4 7 (eh_name e) ++ end_node
  | None => node 1 3 (le_bytes 4 11 ++ le_bytes 8 base ++ le_bytes 8 (base + len)) ++ end_node
  end.

(** A new volume is served by its two protocols from then on; the others as before. *)
Theorem c70_install : forall dbg m base v out t p q, volume_at dbg m base v out -> base + blen out < 2 ^ 64 -> p <> q ->
  exists t', install_volume dbg m t base p q = Ok (t', volume_path base (blen out) v) /\ serves t' base p q /\
    forall x, x <> p -> x <> q -> lookup t' x = lookup t x.
Proof.
  intros dbg m base v out t p q VA B64 D. destruct (volume_seen _ _ _ _ _ VA) as (r & ps & NF & _ & _ & LN & _ & EX & _).
  unfold install_volume, fv_device_path. rewrite NF. cbn [lift bind]. rewrite EX. cbn [lift bind]. eexists. split.
  - unfold volume_path. destruct VA as ((_ & _ & _ & _ & _ & XO) & _). destruct (v_ext v) as [[e d]|].
    + cbn [bind]. do 2 f_equal. unfold piwg_path, node, end_node. destruct XO as ((GL & _) & _).
      assert (BL : blen (eh_name e) = 16) by (unfold blen; rewrite GL; reflexivity). rewrite BL. cbn [app]. reflexivity.
    + rewrite LN, uadd_small by exact B64. cbn [bind]. reflexivity.
  - split.
    + unfold serves. rewrite !lookup_insert. rewrite (proj2 (N.eqb_neq _ _) D), !N.eqb_refl. auto.
    + intros x X1 X2. rewrite !lookup_insert. now rewrite (proj2 (N.eqb_neq _ _) X1), (proj2 (N.eqb_neq _ _) X2).
Qed.

(** The volumes that the HOBs name are all served, if each is a volume as written, of the length the HOB gives. *)
Definition good_hob (dbg : bool) (m : mem) (h : N * N * (N * N)) : Prop :=
  let '(base, len, _) := h in exists v out, volume_at dbg m base v out /\ blen out = len /\ base + len < 2 ^ 64.
Definition hob_pointers (l : list (N * N * (N * N))) : list N := flat_map (fun h => [fst (snd h); snd (snd h)]) l.

Lemma hobs_frame : forall dbg m l t x, Forall (good_hob dbg m) l -> ~ In x (hob_pointers l) -> NoDup (hob_pointers l) -> lookup (fst (parse_hob_fvs dbg m t l)) x = lookup t x.
Proof.
  intros dbg m. induction l as [|[[base len] [p q]] l IH]; intros t x F NI ND; [reflexivity|]. inversion F as [|? ? G F']; subst. unfold good_hob in G. destruct G as (v & out & VA & <- & B).
  cbn [hob_pointers flat_map snd fst app] in NI, ND. inversion ND as [|? ? N1 ND1]; subst. inversion ND1 as [|? ? N2 ND2]; subst.
  destruct (volume_seen _ _ _ _ _ VA) as (r & ps & _ & R & _). cbn [parse_hob_fvs].
  assert (RM : readm m base (N.to_nat (blen out)) = out). { apply (readm_holds m base out); [unfold blen; lia|apply VA]. }
  rewrite RM, R. cbn [lift]. assert (D : p <> q) by (intros ->; apply N1; now left).
  destruct (c70_install dbg m base v out t p q VA B D) as (t' & I & _ & FR). rewrite I. rewrite (IH t' x F'); [|intros Z; apply NI; right; now right|exact ND2].
  apply FR; intros ->; apply NI; [now left|right; now left].
Qed.
Theorem c70_hobs : forall dbg m l t, Forall (good_hob dbg m) l -> NoDup (hob_pointers l) ->
  snd (parse_hob_fvs dbg m t l) = Ok tt /\
  (forall base len p q, In (base, len, (p, q)) l -> serves (fst (parse_hob_fvs dbg m t l)) base p q) /\
  forall x, ~ In x (hob_pointers l) -> lookup (fst (parse_hob_fvs dbg m t l)) x = lookup t x.
Proof.
  intros dbg m l t F ND. split; [|split; [|intros x NI; now apply hobs_frame]].
  - clear ND. revert t. induction F as [|[[base len] [p q]] l G F IH]; intros t; [reflexivity|]. unfold good_hob in G. destruct G as (v & out & VA & <- & B). cbn [parse_hob_fvs].
    destruct (volume_seen _ _ _ _ _ VA) as (r & ps & NF & R & _ & LH & _ & EX & _).
    assert (RM : readm m base (N.to_nat (blen out)) = out). { apply (readm_holds m base out); [unfold blen; lia|apply VA]. }
    rewrite RM, R. cbn [lift]. unfold install_volume, fv_device_path. rewrite NF. cbn [lift bind]. rewrite EX. cbn [lift bind]. destruct (v_ext v) as [[e d]|]; cbn [bind]; [apply IH|].
    rewrite LH, uadd_small by exact B. cbn [bind]. apply IH.
  - revert t ND. induction F as [|[[base len] [p q]] l G F IH]; intros t ND base' len' p' q' I; [destruct I|]. unfold good_hob in G. destruct G as (v & out & VA & <- & B).
    cbn [hob_pointers flat_map snd fst app] in ND. inversion ND as [|? ? N1 ND1]; subst. inversion ND1 as [|? ? N2 ND2]; subst.
    destruct (volume_seen _ _ _ _ _ VA) as (r & ps & _ & R & _). cbn [parse_hob_fvs].
    assert (RM : readm m base (N.to_nat (blen out)) = out). { apply (readm_holds m base out); [unfold blen; lia|apply VA]. }
    rewrite RM, R. cbn [lift]. assert (D : p <> q) by (intros ->; apply N1; now left).
    destruct (c70_install dbg m base v out t p q VA B D) as (t' & IN & (S1 & S2) & FR). rewrite IN.
    destruct I as [E|I].
    + injection E as <- <- <- <-. split; rewrite hobs_frame; auto. intros Z. apply N1. now right.
    + apply (IH t' ND2 base' len' p' q' I).
Qed.

(** ** Cases *)

(** The extractor of the core, without decompression: it opens sections that are stored as they are. *)
Definition plain : section -> res ferr (list N) := core_extract [] (fun _ _ _ => None) None.
Definition demo_leaf (ty : N) (l : list N) : section := Section (HStandard ty (blen l)) (Leaf l) false.
Definition demo_wrap (l : list section) : section :=
  match file_content false [] l with
  | Ok b => Section (HCompression (Compression (blen b) 0) (blen b)) (Encapsulation [] b false) false
  | _ => demo_leaf 0x19 []
  end.
Definition demo_name (k : N) : list N := k :: repeat 0x11 15.
Definition demo_sections : list section := [demo_leaf 0x13 [8; 9]; demo_wrap [demo_leaf 0x10 [0x4D; 0x5A; 1; 2; 3]; demo_leaf 0x15 [65; 0]]; demo_leaf 0x10 [7]].
Definition demo_deep : list section := [demo_wrap [demo_wrap [demo_leaf 0x10 [1; 2; 3]]]].
Definition demo_volume : volume :=
  Volume FFS2_GUID 0xC04 None [(4, 0x80); (2, 0x40)] [File (demo_name 1) 2 0 true [demo_leaf 0x19 [5; 6; 7]]; File (demo_name 2) 7 0x1C true demo_sections; File (demo_name 3) 2 0 true demo_deep] (Some 0x280).
Definition demo_out : list N := Eval vm_compute in match serialize_volume false demo_volume with Ok l => l | _ => [] end.
Definition demo_mem : mem := fun x => if (0x1000 <=? x) && (x <? 0x1280) then nth (N.to_nat (x - 0x1000)) demo_out 0 else 0.

Lemma bytes_ok_dec : forall l, forallb (fun x => x <? 256) l = true -> bytes_ok l.
Proof. intros l H. unfold bytes_ok. rewrite forallb_forall in H. apply Forall_forall. intros x I. apply N.ltb_lt. now apply H. Qed.
Ltac writes := unfold writable, disk_len, short_len, common_len, short_len; vm_compute; repeat split; try (intros E; discriminate E); try (intros E; repeat destruct E as [E|E]; discriminate E || contradiction);
  try (repeat constructor).
Lemma demo_at : forall dbg, volume_at dbg demo_mem 0x1000 demo_volume demo_out.
Proof.
  intros dbg. split; [|split; [|split; [destruct dbg; vm_compute; reflexivity|split; [vm_compute; reflexivity|]]]].
  - split; [now left|]. split; [vm_compute; reflexivity|]. split; [discriminate|]. split; [repeat constructor; discriminate|]. split; [|exact I].
    repeat constructor; try discriminate; try (apply bytes_ok_dec; vm_compute; reflexivity); try (vm_compute; reflexivity); writes.
  - split; [vm_compute; reflexivity|]. exists false. split; [split; discriminate|]. repeat constructor.
  - intros i L. change (length demo_out) with 640%nat in L. unfold demo_mem.
    replace (0x1000 <=? 0x1000 + N.of_nat i) with true by (symmetry; apply N.leb_le; lia). replace (0x1000 + N.of_nat i <? 0x1280) with true by (symmetry; apply N.ltb_lt; lia).
    cbn [andb]. f_equal. lia.
Qed.
Definition demo_table : table := insert (insert [] 0x50 (Fvb 0x1000)) 0x60 (Fv 0x1000).
Example c70_demo_serves : serves demo_table 0x1000 0x50 0x60 /\ readable demo_volume.
Proof. repeat split. Qed.
Example c70_demo_opens : exists ps, map fst ps = demo_sections /\ Forall (fun p => exists d, opens false plain d (fst p) (snd p)) ps /\
  map (fun s => section_type_raw (s_header s)) (shown ps) = [0x13; 0x01; 0x10; 0x15; 0x10].
Proof.
  exists [(demo_leaf 0x13 [8; 9], []); (demo_wrap [demo_leaf 0x10 [0x4D; 0x5A; 1; 2; 3]; demo_leaf 0x15 [65; 0]], [demo_leaf 0x10 [0x4D; 0x5A; 1; 2; 3]; demo_leaf 0x15 [65; 0]]); (demo_leaf 0x10 [7], [])].
  split; [reflexivity|]. split; [|vm_compute; reflexivity].
  constructor; [exists 0%nat; left; split; reflexivity|]. constructor; [|constructor; [exists 0%nat; left; split; reflexivity|constructor]].
  exists 1%nat. right. split; [vm_compute; reflexivity|]. right. eexists. split; [vm_compute; reflexivity|]. split; [vm_compute; reflexivity|].
  split; [repeat constructor; writes|]. intros x [<-|[<-|[]]]; exists []; left; split; reflexivity.
Qed.
(** The second section of type 0x10 stands after the one inside the encapsulation. *)
Definition status_of (o : option (res efi_error section_out)) : option (res efi_error (fstatus * N * list N)) :=
  match o with Some (Ok o) => Some (Ok (so_status o, so_size o, readm (so_mem o) 0x9000 8)) | Some (Err e) => Some (Err e) | Some Panic => Some Panic | None => None end.
Example c70_demo_section :
  status_of (fv_read_section false plain 20 (fun _ => Err OutOfResources) demo_mem demo_table 0x60 (demo_name 2) 0x10 0 0x9000 5 true) = Some (Ok (FSuccess, 5, [0x4D; 0x5A; 1; 2; 3; 0; 0; 0])) /\
  status_of (fv_read_section false plain 20 (fun _ => Err OutOfResources) demo_mem demo_table 0x60 (demo_name 2) 0x10 0 0x9000 2 true) = Some (Ok (FWarnBufferTooSmall, 5, [0x4D; 0x5A; 0; 0; 0; 0; 0; 0])) /\
  status_of (fv_read_section false plain 20 (fun _ => Err OutOfResources) demo_mem demo_table 0x60 (demo_name 2) 0x10 1 0x9000 1 true) = Some (Ok (FSuccess, 1, [7; 0; 0; 0; 0; 0; 0; 0])) /\
  status_of (fv_read_section false plain 20 (fun _ => Ok 0x9000) demo_mem demo_table 0x60 (demo_name 2) 0x15 0 0 0 true) = Some (Ok (FSuccess, 2, [65; 0; 0; 0; 0; 0; 0; 0])).
Proof. vm_compute. repeat split. Qed.
Example c70_demo_files :
  fv_get_next_file 20 demo_mem demo_table 0x60 0 7 true = Some (Ok (1, demo_name 2, 0x300 + 9, 65, 7)) /\
  fv_get_next_file 20 demo_mem demo_table 0x60 1 2 true = Some (Ok (2, demo_name 3, 0x200, 49, 2)) /\
  fv_get_next_file 20 demo_mem demo_table 0x60 2 2 true = Some (Err NotFound) /\
  walk (fun key => fv_get_next_file 20 demo_mem demo_table 0x60 key 0 true) 9 0 = Some [(demo_name 1, 2); (demo_name 2, 7); (demo_name 3, 2)].
Proof. vm_compute. repeat split. Qed.

(** A section two levels down is not found, although every section can be opened. *)
Theorem c70_nested_refuted : exists inner, (exists d, opens false plain d (demo_wrap [inner]) [inner]) /\ (exists d, opens false plain d inner [demo_leaf 0x10 [1; 2; 3]]) /\
  f_sections (nth 2 (v_files demo_volume) (file_new [] 0)) = [demo_wrap [inner]] /\
  status_of (fv_read_section false plain 20 (fun _ => Ok 0x9000) demo_mem demo_table 0x60 (demo_name 3) 0x10 0 0 0 true) = Some (Ok (FErr NotFound, 0, repeat 0 8)).
Proof.
  exists (demo_wrap [demo_leaf 0x10 [1; 2; 3]]).
  assert (O1 : opens false plain 1 (demo_wrap [demo_leaf 0x10 [1; 2; 3]]) [demo_leaf 0x10 [1; 2; 3]]).
  { right. split; [vm_compute; reflexivity|]. right. eexists. split; [vm_compute; reflexivity|]. split; [vm_compute; reflexivity|]. split; [repeat constructor; writes|].
    intros x [<-|[]]. exists []. left. split; reflexivity. }
  split; [|split; [exists 1%nat; exact O1|split; [reflexivity|vm_compute; reflexivity]]].
  exists 2%nat. right. split; [vm_compute; reflexivity|]. right. eexists. split; [vm_compute; reflexivity|]. split; [vm_compute; reflexivity|]. split; [repeat constructor; writes|].
  intros x [<-|[]]. exists [demo_leaf 0x10 [1; 2; 3]]. exact O1.
Qed.

(** The two services give different sizes for one file: with its header, and without. *)
Theorem c70_sizes_refuted : (exists a b c d, fv_get_next_file 20 demo_mem demo_table 0x60 0 0 true = Some (Ok (a, demo_name 1, b, c, d)) /\ c = 31) /\
  match fv_read_file 20 (fun _ => Err OutOfResources) demo_mem demo_table 0x60 (demo_name 1) None 0 true with Some (Ok o) => fo_meta o = Some (7, 2, 0) | _ => False end.
Proof. split; [do 4 eexists; split; vm_compute; reflexivity|vm_compute; reflexivity]. Qed.

(** A null buffer with a size that is large enough is refused, where the specification has it allocated; a buffer of size zero is replaced by
    an allocated one, where the specification has the size reported. *)
Theorem c70_allocation_refuted :
  match fv_read_file 20 (fun _ => Ok 0x9000) demo_mem demo_table 0x60 (demo_name 1) (Some 0) 7 true with Some (Ok o) => fo_status o = FErr InvalidParameter | _ => False end /\
  match fv_read_file 20 (fun _ => Ok 0x9000) demo_mem demo_table 0x60 (demo_name 1) (Some 0x8000) 0 true with Some (Ok o) => fo_status o = FSuccess /\ fo_buffer o = Some 0x9000 | _ => False end.
Proof. vm_compute. repeat split. Qed.

(** The blocks of a second region are looked for in the wrong place, here outside the volume. *)
Theorem c70_second_region_refuted : block_of (v_blocks demo_volume) 4 = Some (0x200, 0x40, 2) /\ blen demo_out = 0x280 /\
  core_fvb_read true demo_mem demo_table 0x50 4 0 8 = Ok (0x1300, 8).
Proof. vm_compute. repeat split. Qed.
(** An offset behind the end of the block asks for a buffer of almost 2^64 bytes. *)
Theorem c70_offset_refuted :
  match fvb_read false demo_mem demo_table 0x50 0 0x81 (Some 8) 0x9000 with Ok (s, n, _) => s = FErr BufferTooSmall /\ n = 2 ^ 64 - 1 | _ => False end /\
  fvb_read true demo_mem demo_table 0x50 0 0x81 (Some 8) 0x9000 = Panic.
Proof. vm_compute. repeat split. Qed.
(** One HOB without a volume hides all that follow. *)
Theorem c70_bad_hob_refuted : good_hob false demo_mem (0x1000, 0x280, (0x50, 0x60)) /\
  parse_hob_fvs false demo_mem [] [(0x5000, 0x280, (0x10, 0x20)); (0x1000, 0x280, (0x50, 0x60))] = ([], Err VolumeCorrupted) /\
  lookup (fst (parse_hob_fvs false demo_mem [] [(0x1000, 0x280, (0x50, 0x60)); (0x5000, 0x280, (0x10, 0x20))])) 0x60 = Some (Fv 0x1000).
Proof.
  split; [exists demo_volume, demo_out; split; [apply demo_at|]; split; vm_compute; reflexivity|]. split; vm_compute; reflexivity.
Qed.

(** ** The extractor of the core *)

(** A section that is stored as it is opens to its content; one that the core cannot open goes to the other extractor, if there is one. *)
Theorem c70_stored_section : forall tiano dec extra z n b, compression_type z = 0 -> core_extract tiano dec extra (unread (HCompression z n) b) = Ok b.
Proof. intros tiano dec extra z n b Z. unfold core_extract, uefi_extract. cbn [s_header unread]. rewrite Z. reflexivity. Qed.
Theorem c70_other_extractor : forall tiano dec ex s,
  (is_leaf (s_header s) = true \/ (exists g i n, s_header s = HGuidDefined g i n /\ section_definition_guid g <> tiano) \/
   (exists z n, s_header s = HCompression z n /\ 2 <= compression_type z)) ->
  core_extract tiano dec (Some ex) s = ex s /\ core_extract tiano dec None s = Err FUnsupported.
Proof.
  intros tiano dec ex s H. assert (U : uefi_extract tiano dec s = Err FUnsupported).
  { unfold uefi_extract. destruct H as [H|[(g & i & n & -> & G)|(z & n & -> & Z)]].
    - destruct (s_header s); try discriminate; reflexivity.
    - destruct (list_eqb (section_definition_guid g) tiano) eqn:E; [apply list_eqb_eq in E; contradiction|reflexivity].
    - rewrite (proj2 (N.eqb_neq (compression_type z) 0)) by lia. rewrite (proj2 (N.eqb_neq (compression_type z) 1)) by lia. reflexivity. }
  unfold core_extract. rewrite U. auto.
Qed.
(** What is compressed is decompressed, if it is as long as it says: bytes 0 to 3 are the compressed length, 4 to 7 the length after. *)
Theorem c70_decompressed : forall tiano dec extra z n b, compression_type z = 1 -> 8 <= blen b -> le_val (firstn 4 b) <= blen b ->
  core_extract tiano dec extra (unread (HCompression z n) b) =
    match dec true b (le_val (firstn 4 (skipn 4 b))) with Some l => Ok l | None => Err FDataCorrupt end.
Proof.
  intros tiano dec extra z n b Z L8 LE. unfold core_extract, uefi_extract. cbn [s_header unread]. rewrite Z. change (1 =? 0) with false. change (1 =? 1) with true. cbv iota.
  unfold try_content, unread. cbv zeta. cbn [dirty s_bytes bind unread]. rewrite (proj2 (N.ltb_ge _ _) L8).
  pose proof (rd_bytes b 0 4) as R0. pose proof (rd_bytes b 4 4) as R4. change (N.of_nat 4) with 4 in *. unfold bytes_at in R0, R4.
  change (N.to_nat 4) with 4%nat in *. change (N.to_nat 0) with 0%nat in R0. cbn [skipn] in R0. rewrite R0, R4. rewrite (proj2 (N.ltb_ge _ _) LE).
  destruct (dec true b _); reflexivity.
Qed.
(** A section with the GUID of the Tiano compression is decompressed with the other algorithm, whatever else there is. *)
Theorem c70_decompressed_tiano : forall tiano dec extra g i n b, section_definition_guid g = tiano -> 8 <= blen b -> le_val (firstn 4 b) <= blen b ->
  core_extract tiano dec extra (unread (HGuidDefined g i n) b) =
    match dec false b (le_val (firstn 4 (skipn 4 b))) with Some l => Ok l | None => Err FDataCorrupt end.
Proof.
  intros tiano dec extra g i n b G L8 LE. unfold core_extract, uefi_extract. cbn [s_header unread]. rewrite (proj2 (list_eqb_eq _ _) G). 
  unfold try_content, unread. cbv zeta. cbn [dirty s_bytes bind unread]. rewrite (proj2 (N.ltb_ge _ _) L8).
  pose proof (rd_bytes b 0 4) as R0. pose proof (rd_bytes b 4 4) as R4. change (N.of_nat 4) with 4 in *. unfold bytes_at in R0, R4.
  change (N.to_nat 4) with 4%nat in *. change (N.to_nat 0) with 0%nat in R0. cbn [skipn] in R0. rewrite R0, R4. rewrite (proj2 (N.ltb_ge _ _) LE).
  destruct (dec false b _); reflexivity.
Qed.

Print Assumptions c70_attributes.
Print Assumptions c70_decompressed_tiano.
Print Assumptions c70_next_file.
Print Assumptions c70_enumerate.
Print Assumptions c70_read_file.
Print Assumptions c70_read_section_partial.
Print Assumptions c70_section_long_buffer_refuted.
Print Assumptions c70_no_such_file.
Print Assumptions c70_not_readable.
Print Assumptions c70_unknown.
Print Assumptions c70_wrong_kind.
Print Assumptions c70_block_read_partial.
Print Assumptions c70_block_end.
Print Assumptions c70_block_size_refuted.
Print Assumptions c70_install.
Print Assumptions c70_hobs.
Print Assumptions c70_nested_refuted.
Print Assumptions c70_sizes_refuted.
Print Assumptions c70_allocation_refuted.
Print Assumptions c70_second_region_refuted.
Print Assumptions c70_offset_refuted.
Print Assumptions c70_bad_hob_refuted.
Print Assumptions c70_stored_section.
Print Assumptions c70_other_extractor.
Print Assumptions c70_decompressed.
