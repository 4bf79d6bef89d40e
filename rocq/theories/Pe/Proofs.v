(** Lemmas for Pe.Props. *)
From Verif Require Import Base.Prelude Base.Bytes Pe.Model Pe.Spec.
From Coq Require Import ZifyNat ZifyN ZifyBool.
Local Open Scope N_scope.

(** ** Bytes *)
Lemma put_length b o l : o + blen l <= blen b -> length (put b o l) = length b.
Proof. unfold put, blen. intros H. rewrite !app_length, firstn_length, skipn_length. lia. Qed.

Lemma put_byte b o l i : o + blen l <= blen b ->
  byte (put b o l) i = if (o <=? i) && (i <? o + blen l) then byte l (i - o) else byte b i.
Proof.
  unfold put, blen, byte. intros H. destruct (i <? o) eqn:E1.
  - assert (E : (o <=? i) = false) by lia. rewrite E. cbn [andb].
    rewrite app_nth1 by (rewrite firstn_length; lia). apply nth_firstn. lia.
  - assert (E : (o <=? i) = true) by lia. rewrite E. cbn [andb].
    rewrite app_nth2 by (rewrite firstn_length; lia). rewrite firstn_length. replace (N.to_nat i - Nat.min (N.to_nat o) (length b))%nat with (N.to_nat (i - o)) by lia.
    destruct (i <? o + N.of_nat (length l)) eqn:E2.
    + rewrite app_nth1 by lia. reflexivity.
    + rewrite app_nth2 by lia. rewrite nth_skipn. f_equal. lia.
Qed.

Lemma put_bytes_ok b o l : bytes_ok b -> bytes_ok l -> bytes_ok (put b o l).
Proof.
  unfold put, bytes_ok. intros Hb Hl. rewrite !Forall_app. split; [|split; [exact Hl|]].
  - apply Forall_forall. intros x Hx. rewrite Forall_forall in Hb. apply Hb. rewrite <- (firstn_skipn (N.to_nat o) b). apply in_app_iff. left. exact Hx.
  - apply Forall_forall. intros x Hx. rewrite Forall_forall in Hb. apply Hb. rewrite <- (firstn_skipn (N.to_nat o + length l) b). apply in_app_iff. right. exact Hx.
Qed.

Lemma bytes_ext a b : length a = length b -> (forall i, byte a i = byte b i) -> a = b.
Proof.
  intros L H. apply (nth_ext _ _ 0 0 L). intros n _. specialize (H (N.of_nat n)). unfold byte in H. rewrite Nat2N.id in H. exact H.
Qed.

Lemma slice_ext a b o w : length a = length b -> (forall i, (i < w)%nat -> nth (o + i) a 0 = nth (o + i) b 0) ->
  firstn w (skipn o a) = firstn w (skipn o b).
Proof.
  intros L H. apply (nth_ext _ _ 0 0); [rewrite !firstn_length, !skipn_length, L; reflexivity|].
  intros n Hn. rewrite firstn_length in Hn. rewrite !nth_firstn, !nth_skipn by lia. apply H. lia.
Qed.

Lemma value_ext a b p : length a = length b -> (forall i, inside i p -> byte a i = byte b i) -> value_at a p = value_at b p.
Proof.
  intros L H. unfold value_at, le_at. f_equal. apply slice_ext; [exact L|]. intros i Hi.
  specialize (H (fst p + N.of_nat i)). unfold inside, byte in H. rewrite N2Nat.inj_add, Nat2N.id in H. apply H. lia.
Qed.

Lemma value_put b o w v : o + N.of_nat w <= blen b -> value_at (put b o (le_bytes w v)) (o, w) = v mod 256 ^ N.of_nat w.
Proof.
  intros H. unfold value_at, le_at. cbn [fst snd]. rewrite <- le_val_bytes_mod. f_equal.
  unfold put, blen in *. rewrite skipn_app. assert (F : length (firstn (N.to_nat o) b) = N.to_nat o) by (rewrite firstn_length; lia).
  rewrite (skipn_all2 (firstn _ _)) by lia. rewrite F, Nat.sub_diag. cbn [app skipn].
  rewrite <- (le_bytes_length w v) at 1. apply firstn_app_exact.
Qed.

Lemma value_put_apart b o w v p : o + N.of_nat w <= blen b -> apart (o, w) p ->
  value_at (put b o (le_bytes w v)) p = value_at b p.
Proof.
  intros H A. assert (Hb : o + blen (le_bytes w v) <= blen b) by (unfold blen in *; rewrite le_bytes_length; exact H).
  apply value_ext; [apply put_length; exact Hb|]. intros i Hi. rewrite put_byte by exact Hb. unfold blen. rewrite le_bytes_length.
  destruct ((o <=? i) && (i <? o + N.of_nat w)) eqn:E; [|reflexivity].
  unfold apart, inside in *. cbn [fst snd] in A. lia.
Qed.

Lemma value_bytes a b p : bytes_ok a -> bytes_ok b -> fst p + N.of_nat (snd p) <= blen a -> length a = length b ->
  value_at a p = value_at b p -> forall i, inside i p -> byte a i = byte b i.
Proof.
  intros Ha Hb H L V i Hi. unfold value_at, le_at in V. set (x := firstn (snd p) (skipn (N.to_nat (fst p)) a)) in *. set (y := firstn (snd p) (skipn (N.to_nat (fst p)) b)) in *.
  assert (Lx : length x = snd p) by (unfold x, blen in *; rewrite firstn_length, skipn_length; lia).
  assert (Ly : length y = snd p) by (unfold y, blen in *; rewrite firstn_length, skipn_length; lia).
  assert (S : forall n m l, bytes_ok l -> bytes_ok (firstn n (skipn m l))).
  { intros n m l Hl. apply Forall_forall. intros z Hz. unfold bytes_ok in Hl. rewrite Forall_forall in Hl. apply Hl.
    rewrite <- (firstn_skipn m l). apply in_app_iff. right. rewrite <- (firstn_skipn n (skipn m l)). apply in_app_iff. left. exact Hz. }
  assert (E : x = y).
  { rewrite <- (le_bytes_val x) by (apply S; exact Ha). rewrite <- (le_bytes_val y) by (apply S; exact Hb). rewrite Lx, Ly, V. reflexivity. }
  unfold inside in Hi. assert (G : forall l, nth (N.to_nat i - N.to_nat (fst p)) (firstn (snd p) (skipn (N.to_nat (fst p)) l)) 0 = byte l i).
  { intros l. rewrite nth_firstn by lia. rewrite nth_skipn. unfold byte. f_equal. lia. }
  rewrite <- (G a), <- (G b). fold x. fold y. rewrite E. reflexivity.
Qed.

Lemma value_bound b p : bytes_ok b -> value_at b p < 256 ^ N.of_nat (snd p).
Proof.
  intros H. unfold value_at, le_at. set (l := firstn _ _). assert (Hl : bytes_ok l).
  { unfold l. apply Forall_forall. intros z Hz. unfold bytes_ok in H. rewrite Forall_forall in H. apply H.
    rewrite <- (firstn_skipn (N.to_nat (fst p)) b). apply in_app_iff. right.
    rewrite <- (firstn_skipn (snd p) (skipn (N.to_nat (fst p)) b)). apply in_app_iff. left. exact Hz. }
  eapply N.lt_le_trans; [apply le_val_bound; exact Hl|]. apply N.pow_le_mono_r; [lia|]. unfold l. rewrite firstn_length. lia.
Qed.

Lemma put_put b o l l' : length l = length l' -> o + blen l <= blen b -> put (put b o l) o l' = put b o l'.
Proof.
  intros L H. assert (H' : o + blen l' <= blen b) by (unfold blen in *; lia).
  assert (H1 : o + blen l' <= blen (put b o l)) by (unfold blen in *; rewrite put_length; unfold blen; lia).
  apply bytes_ext; [rewrite !put_length; auto|]. intros i. rewrite (put_byte _ _ l') by exact H1. rewrite (put_byte b o l') by exact H'.
  rewrite put_byte by exact H. unfold blen. rewrite L. destruct ((o <=? i) && (i <? o + N.of_nat (length l'))); reflexivity.
Qed.

Lemma get_some b o n : o + n <= blen b -> get b o n = Some (firstn (N.to_nat n) (skipn (N.to_nat o) b)).
Proof. intros H. unfold get. rewrite (proj2 (N.leb_le _ _) H). reflexivity. Qed.
Lemma get_none b o n : ~ o + n <= blen b -> get b o n = None.
Proof. intros H. unfold get. rewrite (proj2 (N.leb_gt _ _)); [reflexivity|lia]. Qed.

(** ** Loading *)
Lemma copied_size s : copy_size s = copied s.
Proof. unfold copy_size, copied. destruct (sc_vsize s =? 0) eqn:E; [reflexivity|]. cbn [orb]. destruct (sc_rawsize s <? sc_vsize s) eqn:F; lia. Qed.

Definition section_fits (image : list N) (len : N) (s : section) : Prop :=
  sc_va s + copied s <= len /\ sc_rawptr s + copied s <= blen image.

Lemma load_sections_ok image : forall l buf, Forall (section_fits image (blen buf)) l ->
  exists out, load_sections image l buf = Ok out /\ length out = length buf /\
    forall i, byte out i = match find (fun s => covers s i) (rev l) with
                           | Some s => byte image (sc_rawptr s + (i - sc_va s))
                           | None => byte buf i
                           end.
Proof.
  induction l as [|s t IH]; intros buf F; cbn [load_sections].
  - exists buf. split; [reflexivity|]. split; reflexivity.
  - inversion F as [|? ? [F1 F2] Ft]; subst. rewrite copied_size, (get_some _ _ _ F1), (get_some _ _ _ F2).
    set (src := firstn _ _). assert (Ls : blen src = copied s) by (unfold src, blen in *; rewrite firstn_length, skipn_length; lia).
    assert (Hp : sc_va s + blen src <= blen buf) by lia.
    destruct (IH (put buf (sc_va s) src)) as (out & E & L & B).
    { unfold blen at 1. rewrite put_length by exact Hp. exact Ft. }
    exists out. split; [exact E|]. split; [rewrite L; apply put_length; exact Hp|]. intros i. rewrite B. cbn [rev].
    assert (FA : forall (f : section -> bool) l1 l2, find f (l1 ++ l2) = match find f l1 with Some x => Some x | None => find f l2 end).
    { intros f. induction l1 as [|x l1 IHl]; intros l2; cbn [find app]; [reflexivity|]. destruct (f x); [reflexivity|apply IHl]. }
    rewrite FA. destruct (find (fun s0 => covers s0 i) (rev t)) as [s'|]; [reflexivity|]. cbn [find].
    rewrite put_byte by exact Hp. rewrite Ls. unfold covers. destruct ((sc_va s <=? i) && (i <? sc_va s + copied s)) eqn:C; [|reflexivity].
    unfold src, byte. rewrite nth_firstn by lia. rewrite nth_skipn. f_equal. lia.
Qed.

Lemma load_sections_bad image : forall l buf, ~ Forall (section_fits image (blen buf)) l -> load_sections image l buf = Err PTooShort.
Proof.
  induction l as [|s t IH]; intros buf F; cbn [load_sections]; [exfalso; apply F; constructor|]. rewrite copied_size.
  destruct (N.le_decidable (sc_va s + copied s) (blen buf)) as [F1|F1]; [|rewrite (get_none _ _ _ F1); reflexivity].
  rewrite (get_some _ _ _ F1).
  destruct (N.le_decidable (sc_rawptr s + copied s) (blen image)) as [F2|F2]; [|rewrite (get_none _ _ _ F2); reflexivity].
  rewrite (get_some _ _ _ F2). set (src := firstn _ _).
  assert (Ls : blen src = copied s) by (unfold src, blen in *; rewrite firstn_length, skipn_length; lia).
  apply IH. unfold blen at 1. rewrite put_length by lia. intros X. apply F. constructor; [split; assumption|exact X].
Qed.

Lemma load_image_spec info image buf :
  (fits info image (blen buf) -> exists out, load_image info image buf = Ok out /\ length out = length buf /\
     forall i, byte out i = loaded_byte info image i) /\
  (~ fits info image (blen buf) -> load_image info image buf = Err PTooShort).
Proof.
  unfold load_image. assert (Lz : blen (repeat 0 (length buf)) = blen buf) by (unfold blen; rewrite repeat_length; reflexivity).
  split.
  - intros (H1 & H2 & H3). rewrite get_some by lia. rewrite get_some by lia. set (src := firstn _ _).
    assert (Ls : blen src = pe_headers info) by (unfold src, blen in *; rewrite firstn_length, skipn_length; lia).
    assert (Hp : 0 + blen src <= blen (repeat 0 (length buf))) by lia.
    destruct (load_sections_ok image (pe_sections info) (put (repeat 0 (length buf)) 0 src)) as (out & E & L & B).
    { apply Forall_forall. intros s Hs. unfold section_fits, blen at 1. rewrite put_length by exact Hp. rewrite repeat_length. apply H3. exact Hs. }
    exists out. split; [exact E|]. split; [rewrite L, put_length, repeat_length by exact Hp; reflexivity|]. intros i. rewrite B. unfold loaded_byte.
    destruct (find _ _); [reflexivity|]. rewrite put_byte by exact Hp. rewrite Ls, N.add_0_l.
    assert (Z0 : forall n k, nth k (repeat 0 n) 0 = 0) by (induction n as [|n IH]; intros [|k]; cbn; auto).
    destruct (i <? pe_headers info) eqn:C; cbn [andb]; [|unfold byte; rewrite andb_false_r; apply Z0].
    rewrite andb_true_r. assert (Hz : (0 <=? i) = true) by lia. rewrite Hz. unfold src, byte. rewrite nth_firstn by lia. rewrite nth_skipn. f_equal. lia.
  - intros F. destruct (N.le_decidable (0 + pe_headers info) (blen (repeat 0 (length buf)))) as [F1|F1]; [|rewrite (get_none _ _ _ F1); reflexivity].
    rewrite (get_some _ _ _ F1). destruct (N.le_decidable (0 + pe_headers info) (blen image)) as [F2|F2]; [|rewrite (get_none _ _ _ F2); reflexivity].
    rewrite (get_some _ _ _ F2). set (src := firstn _ _).
    assert (Ls : blen src = pe_headers info) by (unfold src, blen in *; rewrite firstn_length, skipn_length; lia).
    apply load_sections_bad. unfold blen at 1. rewrite put_length by lia. rewrite repeat_length. intros X. apply F.
    split; [lia|]. split; [lia|]. rewrite Forall_forall in X. exact X.
Qed.

(** ** Parsing relocation tables *)
Lemma parse_entries_ok : forall l rest, (forall k o, In (k, o) l -> k * 4096 + o < two16) ->
  parse_entries (2 * N.of_nat (length l)) (flat_map entry_bytes l ++ rest) =
  Ok (map (fun e => (fst e * 4096 + snd e, 0)) l, 2 * N.of_nat (length l), rest).
Proof.
  induction l as [|[k o] t IH]; intros rest H.
  - destruct rest; reflexivity.
  - cbn [flat_map length map fst snd]. set (v := k * 4096 + o). assert (Hv : v < two16) by (apply H; left; reflexivity).
    unfold entry_bytes at 1. cbn [fst snd]. fold v. cbn [le_bytes app parse_entries].
    assert (E0 : 2 * N.of_nat (S (length t)) =? 0 = false) by lia. rewrite E0.
    assert (E1 : 2 * N.of_nat (S (length t)) - 2 = 2 * N.of_nat (length t)) by lia. rewrite E1.
    rewrite IH by (intros; apply H; right; assumption). cbn [bind].
    assert (E2 : v mod 256 + 256 * (v / 256 mod 256) = v).
    { unfold two16 in Hv. clearbody v. clear - Hv. rewrite (N.mod_small (v / 256)) by (apply N.div_lt_upper_bound; lia).
      pose proof (N.div_mod v 256). lia. }
    rewrite E2. f_equal. f_equal. f_equal. lia.
Qed.

Definition block_of (p : N * list (N * N)) : rblock :=
  Block (fst p) (8 + 2 * N.of_nat (length (snd p))) (map (fun e => (fst e * 4096 + snd e, 0)) (snd p)).

Lemma known_entry k o : known k -> o < 4096 -> k * 4096 + o < two16.
Proof. unfold two16. intros [->|[->| ->]] H; lia. Qed.

Lemma flat_entry_length l : length (flat_map entry_bytes l) = (2 * length l)%nat.
Proof. induction l as [|e t IH]; cbn [flat_map length]; [reflexivity|]. rewrite app_length, IH. unfold entry_bytes. rewrite le_bytes_length. lia. Qed.

Lemma parse_blocks_ok : forall t fuel offset, table_ok t -> offset mod 4 = 0 -> (length (table_bytes t) <= fuel)%nat ->
  parse_blocks fuel offset (table_bytes t) = Ok (map block_of t).
Proof.
  induction t as [|[p l] t IH]; intros fuel offset T O F; [destruct fuel; reflexivity|].
  destruct (T p l) as (Hp & Hn & He & Hk); [left; reflexivity|].
  assert (EB : table_bytes ((p, l) :: t) = le_bytes 4 p ++ le_bytes 4 (8 + 2 * N.of_nat (length l)) ++ flat_map entry_bytes l ++ table_bytes t).
  { unfold table_bytes. cbn [flat_map]. unfold block_bytes. cbn [fst snd]. rewrite <- !app_assoc. reflexivity. }
  set (size := 8 + 2 * N.of_nat (length l)) in *.
  assert (L8 : length (le_bytes 4 p ++ le_bytes 4 size) = 8%nat) by (rewrite app_length, !le_bytes_length; reflexivity).
  assert (R : table_bytes ((p, l) :: t) = (le_bytes 4 p ++ le_bytes 4 size) ++ flat_map entry_bytes l ++ table_bytes t) by (rewrite EB, <- app_assoc; reflexivity).
  rewrite R in *. set (rest := flat_map entry_bytes l ++ table_bytes t) in *.
  rewrite app_length, L8 in F. destruct fuel as [|k]; [lia|]. cbn [parse_blocks].
  assert (NE : exists x y, (le_bytes 4 p ++ le_bytes 4 size) ++ rest = x :: y) by (cbn [le_bytes app]; eauto).
  destruct NE as (x & y & NE). rewrite NE. rewrite <- NE.
  assert (B8 : blen ((le_bytes 4 p ++ le_bytes 4 size) ++ rest) <? 8 = false) by (unfold blen; rewrite app_length, L8; lia). rewrite B8.
  assert (P1 : le_at ((le_bytes 4 p ++ le_bytes 4 size) ++ rest) 0 4 = p).
  { rewrite <- app_assoc. apply (le_at_app' [] p 4); [reflexivity|exact Hp]. }
  assert (P2 : le_at ((le_bytes 4 p ++ le_bytes 4 size) ++ rest) 4 4 = size).
  { rewrite <- app_assoc. apply (le_at_app' (le_bytes 4 p)); [now rewrite le_bytes_length|]. unfold size. clear - Hn. lia. }
  assert (P3 : skipn 8 ((le_bytes 4 p ++ le_bytes 4 size) ++ rest) = rest) by (rewrite <- L8; apply skipn_app_exact).
  rewrite P1, P2, P3. replace (size - 8) with (2 * N.of_nat (length l)) by (unfold size; lia). unfold rest.
  rewrite parse_entries_ok by (intros k0 o0 Hi; destruct (Hk _ _ Hi); apply known_entry; assumption). cbn [bind].
  apply N.even_spec in He. destruct He as [m Hm].
  assert (O1 : (offset + 8 + 2 * N.of_nat (length l)) mod 4 = 0).
  { rewrite Hm. replace (offset + 8 + 2 * (2 * m)) with (offset + (2 + m) * 4) by lia. rewrite N.mod_add by lia. exact O. }
  set (o := offset + 8 + 2 * N.of_nat (length l)) in *.
  assert (O2 : (o + 3) / 4 * 4 = o).
  { clearbody o. clear - O1. pose proof (N.div_mod o 4). assert (E : o = o / 4 * 4) by lia. rewrite E at 1.
    rewrite N.add_comm, N.div_add by lia. change (3 / 4) with 0. lia. }
  rewrite O2, N.sub_diag. cbn [N.to_nat skipn]. rewrite IH.
  - reflexivity.
  - intros p' l' Hi. apply T. right. exact Hi.
  - exact O1.
  - unfold rest in F. rewrite app_length in F. lia.
Qed.

(** Enough fuel: out-of-fuel never happens. *)
Lemma parse_entries_rest : forall n rest left l used rest', (length rest <= n)%nat -> parse_entries left rest = Ok (l, used, rest') -> (length rest' <= length rest)%nat.
Proof.
  induction n as [|n IH]; intros rest left l used rest' Hn E.
  - destruct rest; [|cbn in Hn; lia]. cbn [parse_entries] in E. destruct (left =? 0); [injection E as <- <- <-; lia|discriminate E].
  - destruct rest as [|a [|b t]]; cbn [parse_entries] in E; destruct (left =? 0); try (injection E as <- <- <-; lia); try discriminate E.
    destruct (parse_entries (left - 2) t) as [[[l0 u0] r0]| |] eqn:P; cbn [bind] in E; try discriminate E.
    injection E as <- <- <-. apply IH in P; cbn [length] in *; lia.
Qed.
Lemma parse_entries_err : forall n rest left, (length rest <= n)%nat -> parse_entries left rest <> Err PFuel /\ parse_entries left rest <> Panic.
Proof.
  induction n as [|n IH]; intros rest left Hn.
  - destruct rest; [|cbn in Hn; lia]. cbn [parse_entries]. destruct (left =? 0); split; discriminate.
  - destruct rest as [|a [|b t]]; cbn [parse_entries]; destruct (left =? 0); try (split; discriminate).
    destruct (IH t (left - 2)) as [I1 I2]; [cbn [length] in *; lia|].
    destruct (parse_entries (left - 2) t) as [[[l0 u0] r0]| |]; cbn [bind]; split; congruence.
Qed.
Lemma parse_blocks_fuel : forall fuel offset rest, (length rest <= fuel)%nat -> parse_blocks fuel offset rest <> Err PFuel /\ parse_blocks fuel offset rest <> Panic.
Proof.
  induction fuel as [|k IH]; intros offset rest F.
  - destruct rest; [split; discriminate|cbn in F; lia].
  - destruct rest as [|a t] eqn:R; [split; discriminate|]. rewrite <- R in *. assert (Hne : rest <> []) by (rewrite R; discriminate). clear R.
    cbn [parse_blocks]. destruct rest as [|a' t'] eqn:R; [congruence|]. rewrite <- R in *. clear Hne.
    destruct (blen rest <? 8) eqn:B8; [split; discriminate|].
    destruct (parse_entries_err (length (skipn 8 rest)) (skipn 8 rest) (le_at rest 4 4 - 8) (le_n _)) as [I1 I2].
    destruct (parse_entries (le_at rest 4 4 - 8) (skipn 8 rest)) as [[[l u] r]| |] eqn:P; cbn [bind]; try (split; congruence).
    apply (parse_entries_rest _ _ _ _ _ _ (le_n _)) in P. rewrite skipn_length in P.
    match goal with |- context [parse_blocks k ?o ?r] => destruct (IH o r) as [J1 J2] end.
    { rewrite skipn_length. unfold blen in B8. lia. }
    destruct (parse_blocks k _ _) as [bs| |]; cbn [bind]; split; congruence.
Qed.

(** ** Fixing up *)
Definition add_at (adj : N) (im : list N) (p : N * nat) : list N := put im (fst p) (le_bytes (snd p) ((value_at im p + adj) mod 256 ^ N.of_nat (snd p))).

Lemma add_at_length adj im p : fst p + N.of_nat (snd p) <= blen im -> length (add_at adj im p) = length im.
Proof. intros H. unfold add_at. apply put_length. unfold blen in *. rewrite le_bytes_length. exact H. Qed.

(** Adding at places that are apart. *)
Lemma fold_add adj : forall ps im,
  ForallOrdPairs apart ps -> (forall p, In p ps -> fst p + N.of_nat (snd p) <= blen im) ->
  length (fold_left (add_at adj) ps im) = length im /\
  (bytes_ok im -> bytes_ok (fold_left (add_at adj) ps im)) /\
  (forall p, In p ps -> value_at (fold_left (add_at adj) ps im) p = (value_at im p + adj) mod 256 ^ N.of_nat (snd p)) /\
  (forall i, (forall p, In p ps -> ~ inside i p) -> byte (fold_left (add_at adj) ps im) i = byte im i) /\
  (forall q, (forall p, In p ps -> apart p q) -> value_at (fold_left (add_at adj) ps im) q = value_at im q).
Proof.
  induction ps as [|p t IH]; intros im A B; cbn [fold_left].
  - split; [reflexivity|]. split; [auto|]. split; [intros p []|]. split; reflexivity.
  - inversion A as [|? ? Hp At]; subst. assert (Bp : fst p + N.of_nat (snd p) <= blen im) by (apply B; left; reflexivity).
    assert (L1 : length (add_at adj im p) = length im) by (apply add_at_length; exact Bp).
    destruct (IH (add_at adj im p) At) as (I1 & I2 & I3 & I4 & I5).
    { intros q Hq. unfold blen. rewrite L1. apply B. right. exact Hq. }
    assert (Vp : value_at (add_at adj im p) p = (value_at im p + adj) mod 256 ^ N.of_nat (snd p)).
    { destruct p as [a w]. unfold add_at. cbn [fst snd]. rewrite value_put by exact Bp. apply N.mod_mod. apply N.pow_nonzero. discriminate. }
    assert (Vq : forall q, apart p q -> value_at (add_at adj im p) q = value_at im q).
    { intros q Hq. destruct p as [a w]. apply value_put_apart; [exact Bp|exact Hq]. }
    rewrite Forall_forall in Hp.
    split; [rewrite I1; exact L1|]. split.
    { intros Hb. apply I2. unfold add_at. apply put_bytes_ok; [exact Hb|apply le_bytes_ok]. }
    split; [|split].
    + intros q [<-|Hq].
      * rewrite I5; [exact Vp|]. intros q Hq. specialize (Hp q Hq). unfold apart in *. tauto.
      * rewrite (I3 q Hq). f_equal. f_equal. apply Vq. apply Hp. exact Hq.
    + intros i Hi. rewrite I4 by (intros q Hq; apply Hi; right; exact Hq). unfold add_at. rewrite put_byte by (unfold blen in *; rewrite le_bytes_length; exact Bp).
      unfold blen. rewrite le_bytes_length. specialize (Hi p (or_introl eq_refl)). unfold inside in Hi.
      destruct ((fst p <=? i) && (i <? fst p + N.of_nat (snd p))) eqn:C; [exfalso; apply Hi; lia|reflexivity].
    + intros q Hq. rewrite I5 by (intros r Hr; apply Hq; right; exact Hr). apply Vq. apply Hq. left. reflexivity.
Qed.

Definition width_ok (p : N * nat) : Prop := snd p = 4%nat \/ snd p = 8%nat.

(** What an entry's record becomes: the new value for a 64-bit place, nothing otherwise. *)
Definition recorded (rva page : N) (im : list N) (e : N * N) : N * N :=
  (fst e * 4096 + snd e, if fst e =? 10 then value_at im (page + snd e - rva, 8%nat) else 0).

Lemma entry_split k o : o < 4096 -> (k * 4096 + o) / 4096 = k /\ (k * 4096 + o) mod 4096 = o.
Proof.
  intros H. split.
  - rewrite N.div_add_l by lia. rewrite N.div_small by exact H. lia.
  - rewrite N.add_comm, N.mod_add by lia. apply N.mod_small. exact H.
Qed.

Lemma fix_entries_ok dbg adj rva page : forall l im,
  page < two32 -> blen im < 2 ^ 63 ->
  (forall k o, In (k, o) l -> known k /\ o < 4096 /\ rva <= page + o) ->
  (forall p, In p (page_places rva (page, l)) -> fst p + N.of_nat (snd p) <= blen im) ->
  ForallOrdPairs apart (page_places rva (page, l)) ->
  fix_entries dbg adj rva page None (map (fun e => (fst e * 4096 + snd e, 0)) l) im =
  Ok (fold_left (add_at adj) (page_places rva (page, l)) im,
      map (recorded rva page (fold_left (add_at adj) (page_places rva (page, l)) im)) l).
Proof.
  induction l as [|[k o] t IH]; intros im Hp Hl Hk Hb Ha; cbn [map fix_entries fst snd]; [reflexivity|].
  destruct (Hk k o) as (K & O & R); [left; reflexivity|]. destruct (entry_split k o O) as [E1 E2]. rewrite E1, E2.
  unfold usub. rewrite (proj2 (N.leb_le _ _) R). cbn [bind].
  unfold page_places in *. cbn [fst snd flat_map] in *.
  change (flat_map (fun e => match kind_width (fst e) with O => [] | S _ as w => [(page + snd e - rva, w)] end) t) with (page_places rva (page, t)) in *.
  assert (Hk' : forall k o, In (k, o) t -> known k /\ o < 4096 /\ rva <= page + o) by (intros; apply Hk; right; assumption).
  destruct K as [->|[->| ->]].
  - cbn [N.eqb kind_width app bind fold_left] in *. cbn [Pos.eqb app] in *. rewrite IH by assumption. cbn [bind]. unfold recorded at 2. cbn [fst snd N.eqb].
    reflexivity.
  - change (kind_width 3) with 4%nat in *. cbn [app fold_left] in *. set (a := page + o - rva) in *.
    change (3 =? 0) with false. change (3 =? 3) with true. cbn iota.
    assert (Ba : a + 4 <= blen im) by (specialize (Hb (a, 4%nat) (or_introl eq_refl)); cbn [fst snd] in Hb; lia).
    unfold pread, pwrite. change (N.of_nat 4) with 4. rewrite (proj2 (N.leb_le _ _) Ba). cbn [bind].
    change (put im a (le_bytes 4 ((le_at im (N.to_nat a) 4 + adj) mod two32))) with (add_at adj im (a, 4%nat)).
    assert (L1 : length (add_at adj im (a, 4%nat)) = length im) by (apply add_at_length; cbn [fst snd]; lia).
    inversion Ha as [|? ? Ha1 Ha2]; subst. rewrite IH; auto.
    + unfold blen. rewrite L1. exact Hl.
    + intros p Hi. unfold blen. rewrite L1. apply Hb. right. exact Hi.
  - change (kind_width 10) with 8%nat in *. cbn [app fold_left] in *. set (a := page + o - rva) in *.
    change (10 =? 0) with false. change (10 =? 3) with false. change (10 =? 10) with true. cbn iota.
    assert (Ba : a + 8 <= blen im) by (specialize (Hb (a, 8%nat) (or_introl eq_refl)); cbn [fst snd] in Hb; lia).
    unfold pread, pwrite. change (N.of_nat 8) with 8. rewrite (proj2 (N.leb_le _ _) Ba). cbn [bind].
    change (put im a (le_bytes 8 ((le_at im (N.to_nat a) 8 + adj) mod two64))) with (add_at adj im (a, 8%nat)).
    assert (L1 : length (add_at adj im (a, 8%nat)) = length im) by (apply add_at_length; cbn [fst snd]; lia).
    assert (Bb : a + 8 <=? blen (add_at adj im (a, 8%nat)) = true) by (unfold blen in *; rewrite L1; lia). rewrite Bb. cbn [bind].
    assert (PP : put (add_at adj im (a, 8%nat)) a (le_bytes 8 ((le_at im (N.to_nat a) 8 + adj) mod two64)) = add_at adj im (a, 8%nat)).
    { unfold add_at. cbn [fst snd]. apply put_put; [rewrite !le_bytes_length; reflexivity|]. unfold blen in *. rewrite le_bytes_length. lia. }
    rewrite PP. inversion Ha as [|? ? Ha1 Ha2]; subst.
    assert (Bt : forall p, In p (page_places rva (page, t)) -> fst p + N.of_nat (snd p) <= blen (add_at adj im (a, 8%nat))).
    { intros p Hi. unfold blen. rewrite L1. apply Hb. right. exact Hi. }
    rewrite IH; auto.
    2:{ unfold blen. rewrite L1. exact Hl. }
    cbn [bind]. unfold recorded at 2. cbn [fst snd N.eqb Pos.eqb]. fold a.
    destruct (fold_add adj (page_places rva (page, t)) (add_at adj im (a, 8%nat)) Ha2 Bt) as (_ & _ & _ & _ & F5).
    rewrite F5. 2:{ intros p Hi. rewrite Forall_forall in Ha1. specialize (Ha1 p Hi). unfold apart in *. tauto. }
    do 3 f_equal. unfold add_at. cbn [fst snd]. rewrite value_put by exact Ba. change (256 ^ N.of_nat 8) with two64.
    rewrite N.mod_mod by discriminate. reflexivity.
Qed.

Lemma ord_app {A} (R : A -> A -> Prop) (a b : list A) : ForallOrdPairs R (a ++ b) ->
  ForallOrdPairs R a /\ ForallOrdPairs R b /\ forall x y, In x a -> In y b -> R x y.
Proof.
  induction a as [|x t IH]; cbn [app]; intros H.
  - split; [constructor|]. split; [exact H|]. intros x y [].
  - inversion H as [|? ? H1 H2]; subst. destruct (IH H2) as (I1 & I2 & I3). rewrite Forall_forall in H1. split; [|split; [exact I2|]].
    + constructor; [|exact I1]. apply Forall_forall. intros y Hy. apply H1, in_app_iff. left. exact Hy.
    + intros y z [<-|Hy] Hz; [apply H1, in_app_iff; right; exact Hz|apply I3; assumption].
Qed.

Definition recorded_block (rva : N) (im : list N) (p : N * list (N * N)) : rblock :=
  Block (fst p) (8 + 2 * N.of_nat (length (snd p))) (map (recorded rva (fst p) im) (snd p)).

Lemma fix_blocks_ok dbg adj rva : forall t im,
  table_ok t -> blen im < 2 ^ 63 ->
  (forall p l k o, In (p, l) t -> In (k, o) l -> rva <= p + o) ->
  (forall p, In p (places rva t) -> fst p + N.of_nat (snd p) <= blen im) ->
  ForallOrdPairs apart (places rva t) ->
  fix_blocks dbg adj rva None (map block_of t) im =
  Ok (fold_left (add_at adj) (places rva t) im, map (recorded_block rva (fold_left (add_at adj) (places rva t) im)) t).
Proof.
  induction t as [|[p l] t IH]; intros im T Hl Hr Hb Ha; cbn [map fix_blocks]; [reflexivity|].
  destruct (T p l) as (Tp & Tn & _ & Tk); [left; reflexivity|].
  unfold places in *. cbn [flat_map] in *. change (flat_map (page_places rva) t) with (places rva t) in *.
  destruct (ord_app _ _ _ Ha) as (A1 & A2 & A3). unfold block_of at 1 2 3 4. cbn [rb_page rb_relocs rb_size fst snd].
  rewrite fix_entries_ok; auto.
  2:{ intros k o Hi. destruct (Tk k o Hi). split; [assumption|]. split; [assumption|]. apply (Hr p l k o); [left; reflexivity|exact Hi]. }
  2:{ intros q Hq. apply Hb, in_app_iff. left. exact Hq. }
  cbn [bind]. rewrite fold_left_app. set (im1 := fold_left (add_at adj) (page_places rva (p, l)) im) in *.
  assert (B1 : forall q, In q (page_places rva (p, l)) -> fst q + N.of_nat (snd q) <= blen im) by (intros q Hq; apply Hb, in_app_iff; left; exact Hq).
  destruct (fold_add adj (page_places rva (p, l)) im A1 B1) as (F1 & _). fold im1 in F1.
  assert (B2 : forall q, In q (places rva t) -> fst q + N.of_nat (snd q) <= blen im1).
  { intros q Hq. unfold blen. rewrite F1. apply Hb, in_app_iff. right. exact Hq. }
  rewrite IH; auto.
  - cbn [bind]. f_equal. f_equal. f_equal. unfold recorded_block at 1. cbn [fst snd]. f_equal. apply map_ext_in. intros [k o] Hi.
    unfold recorded. cbn [fst snd]. f_equal. destruct (k =? 10) eqn:K; [|reflexivity]. apply N.eqb_eq in K. subst k.
    destruct (fold_add adj (places rva t) im1 A2 B2) as (_ & _ & _ & _ & G5). symmetry. apply G5. intros q Hq.
    assert (X : apart (p + o - rva, 8%nat) q).
    { apply A3; [|exact Hq]. unfold page_places. apply in_flat_map. exists (10, o). split; [exact Hi|]. left. reflexivity. }
    unfold apart in *. tauto.
  - intros p' l' Hi. apply T. right. exact Hi.
  - unfold blen. rewrite F1. exact Hl.
  - intros p' l' k o H1 H2. apply (Hr p' l' k o); [right; exact H1|exact H2].
Qed.
