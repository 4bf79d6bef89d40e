(** Files and volumes, as written and as read. *)
From Verif Require Import Base.Prelude Base.Bytes Align.Proofs PiFs.Model PiFs.Spec.
Local Open Scope N_scope.
Local Ltac Zify.zify_post_hook ::= Z.div_mod_to_equations.

(** ** Bytes *)

Lemma blen_app : forall (a b : list N), blen (a ++ b) = blen a + blen b.
Proof. intros. unfold blen. rewrite app_length. lia. Qed.
Lemma blen_cons : forall x (a : list N), blen (x :: a) = 1 + blen a.
Proof. intros. unfold blen. cbn [length]. lia. Qed.
Lemma blen_le : forall w v, blen (le_bytes w v) = N.of_nat w.
Proof. intros. unfold blen. now rewrite le_bytes_length. Qed.
Lemma blen_repeat : forall (x : N) n, blen (repeat x (N.to_nat n)) = n.
Proof. intros. unfold blen. rewrite repeat_length. lia. Qed.

Lemma from_pre : forall a b o, blen a = o -> from (a ++ b) o = b.
Proof. intros a b o <-. unfold from, blen. rewrite Nnat.Nat2N.id. apply skipn_app_exact. Qed.
Lemma from_pre_add : forall a b o k, blen a = o -> from (a ++ b) (o + k) = from b k.
Proof.
  intros a b o k <-. unfold from, blen. rewrite skipn_app. rewrite skipn_all2 by lia. cbn [app]. f_equal. lia.
Qed.
Lemma from_0 : forall a, from a 0 = a.
Proof. reflexivity. Qed.
Lemma blen_from : forall l o, blen (from l o) = blen l - o.
Proof. intros. unfold blen, from. rewrite skipn_length. lia. Qed.
Lemma from_from : forall l a b, from (from l a) b = from l (a + b).
Proof.
  intros l a b. unfold from. replace (N.to_nat (a + b)) with (N.to_nat a + N.to_nat b)%nat by lia.
  generalize (N.to_nat a) (N.to_nat b). clear. intros n m. revert l. induction n; intros l; [reflexivity|].
  destruct l; cbn [Nat.add skipn]; [now rewrite skipn_nil|apply IHn].
Qed.

Lemma cut_mid : forall a b c s e, blen a = s -> blen a + blen b = e -> cut (a ++ b ++ c) s e = Ok b.
Proof.
  intros a b c s e <- <-. unfold cut. rewrite !blen_app.
  replace ((blen a <=? blen a + blen b) && (blen a + blen b <=? blen a + (blen b + blen c))) with true by lia.
  rewrite from_pre by reflexivity. f_equal. unfold blen. replace (N.to_nat _) with (length b) by lia. apply firstn_app_exact.
Qed.
Lemma cut_head : forall b c e, blen b = e -> cut (b ++ c) 0 e = Ok b.
Proof. intros. apply (cut_mid [] b c); [reflexivity|assumption]. Qed.
Lemma cut_inv : forall l a b d, cut l a b = Ok d -> a <= b /\ b <= blen l /\ d = firstn (N.to_nat (b - a)) (from l a).
Proof.
  intros l a b d. unfold cut. destruct ((a <=? b) && (b <=? blen l)) eqn:E; [|discriminate].
  intros [= <-]. repeat split; lia.
Qed.

Lemma up_next : forall x k, up x (2 ^ k) = x + to_next (2 ^ k) x.
Proof.
  intros x k. unfold up, to_next. pose proof (pow2_pos k). rewrite land_mask_mod, lor_mask.
  destruct (x mod 2 ^ k =? 0) eqn:E.
  - replace (x mod 2 ^ k) with 0 by lia. rewrite N.sub_0_r, N.mod_same by lia. lia.
  - rewrite (N.mod_small (2 ^ k - _)) by lia. pose proof (N.div_mod x (2 ^ k)). pose proof (N.mod_lt x (2 ^ k)).
    rewrite (N.mul_comm (x / 2 ^ k)). lia.
Qed.
Lemma up8 : forall x, up x 8 = x + to_next 8 x.
Proof. intros. apply (up_next x 3). Qed.
Lemma up4 : forall x, up x 4 = x + to_next 4 x.
Proof. intros. apply (up_next x 2). Qed.
Lemma to_next_8_add : forall a x, a mod 8 = 0 -> to_next 8 (a + x) = to_next 8 x.
Proof. intros a x. unfold to_next. lia. Qed.
Lemma to_next_done : forall a x, 0 < a -> (x + to_next a x) mod a = 0.
Proof.
  intros a x P. unfold to_next. pose proof (N.mod_lt x a).
  destruct (N.eq_dec (x mod a) 0) as [E|E].
  - rewrite E, N.sub_0_r, N.mod_same, N.add_0_r by lia. exact E.
  - rewrite (N.mod_small (a - _)) by lia. rewrite (N.div_mod x a) at 1 by lia.
    replace (a * (x / a) + x mod a + (a - x mod a)) with ((x / a + 1) * a) by lia. apply N.mod_mul. lia.
Qed.

(** ** Sums *)

Lemma sum8_acc : forall l s, fold_left (fun s v => (s + v) mod 256) l (s mod 256) = (s + total l) mod 256.
Proof.
  induction l as [|x l IH]; intros s; cbn [fold_left total fold_right]; [now rewrite N.add_0_r|].
  rewrite N.add_mod_idemp_l by lia. rewrite IH. f_equal. unfold total. lia.
Qed.
Lemma sum8_is : forall l, sum8 l = total l mod 256.
Proof. intros l. unfold sum8. change 0 with (0 mod 256) at 1. rewrite sum8_acc. reflexivity. Qed.
Lemma tot_app : forall a b, total (a ++ b) = total a + total b.
Proof. induction a as [|x a IH]; intros b; cbn [app]; [reflexivity|]. change (total (x :: a ++ b)) with (x + total (a ++ b)). rewrite IH. change (total (x :: a)) with (x + total a). lia. Qed.
Lemma tot_cons : forall x a, total (x :: a) = x + total a.
Proof. reflexivity. Qed.
Lemma sum16_is : forall n l, (length l <= n)%nat -> sum16 l = words l mod 2 ^ 16.
Proof.
  induction n as [|n IH]; intros l L.
  - destruct l; [reflexivity|cbn in L; lia].
  - destruct l as [|a [|b r]]; [reflexivity|reflexivity|]. cbn [sum16 words]. cbn [length] in L.
    rewrite IH by lia. rewrite N.add_mod_idemp_r by lia. reflexivity.
Qed.
Lemma words_app : forall n a b, (length a <= n)%nat -> Nat.even (length a) = true -> words (a ++ b) = words a + words b.
Proof.
  induction n as [|n IH]; intros a b L E.
  - destruct a; [reflexivity|cbn in L; lia].
  - destruct a as [|x [|y r]]; [reflexivity|discriminate|]. cbn [app words]. cbn [length Nat.even] in *.
    rewrite IH by (assumption || lia). lia.
Qed.

(** ** Files *)

Lemma testbit_land : forall a k, (N.land a (2 ^ k) =? 0) = negb (N.testbit a k).
Proof.
  intros a k. assert (E : N.land a (2 ^ k) = if N.testbit a k then 2 ^ k else 0).
  { apply N.bits_inj. intros i. rewrite N.land_spec, N.pow2_bits_eqb. destruct (N.eqb_spec k i) as [->|D].
    - destruct (N.testbit a i) eqn:T; [rewrite N.pow2_bits_true; reflexivity|rewrite N.bits_0; reflexivity].
    - rewrite andb_false_r. destruct (N.testbit a k); [rewrite N.pow2_bits_false by congruence; reflexivity|now rewrite N.bits_0]. }
  rewrite E. pose proof (pow2_pos k). destruct (N.testbit a k); cbn [negb]; lia.
Qed.

Definition file_head (f : file) : list N :=
  f_name f ++ [header_check f; content_check f; f_type f; f_attributes f] ++ size_bytes f ++ [state_byte f] ++ long_size_bytes f.
Lemma file_bytes_head : forall f, file_bytes f = file_head f ++ f_content f.
Proof. intros f. unfold file_bytes, file_head. rewrite <- !app_assoc. reflexivity. Qed.
Lemma file_head_len : forall f, length (f_name f) = 16%nat -> blen (file_head f) = header_len f.
Proof.
  intros f L. unfold file_head, header_len, size_bytes, long_size_bytes. rewrite !blen_app, !blen_cons, blen_le.
  unfold blen at 1 2 3. rewrite L. cbn [length]. destruct (large f); [rewrite blen_le; reflexivity|reflexivity].
Qed.
Lemma file_bytes_len : forall f, length (f_name f) = 16%nat -> blen (file_bytes f) = file_len f.
Proof. intros f L. rewrite file_bytes_head, blen_app, file_head_len by assumption. reflexivity. Qed.

Lemma complement8_lt : forall n, complement8 n < 256.
Proof. intros. unfold complement8. lia. Qed.
Lemma content_check_lt : forall f, content_check f < 256.
Proof. intros. unfold content_check. destruct (summed f); [apply complement8_lt|lia]. Qed.

Lemma head_sums : forall f, sub8 (sub8 (sum8 (file_head f)) (content_check f)) (state_byte f) = 0.
Proof.
  intros f. rewrite sum8_is. unfold file_head. rewrite !tot_app, !tot_cons.
  change (total []) with 0. unfold header_check, complement8, sub8.
  pose proof (content_check_lt f). assert (state_byte f < 256) by (unfold state_byte; destruct (f_inverted f); lia).
  generalize dependent (content_check f). generalize dependent (state_byte f). intros st Hs ck Hc.
  generalize (total (f_name f)) (f_type f) (f_attributes f) (total (size_bytes f)) (total (long_size_bytes f)).
  intros a b c d e. lia.
Qed.

Lemma file_fields : forall f rest, length (f_name f) = 16%nat ->
  let b := file_bytes f ++ rest in
  fld b 17 1 = content_check f /\ fld b 18 1 = f_type f /\ fld b 19 1 = f_attributes f /\
  fld b 20 3 = le_val (size_bytes f) /\ fld b 23 1 = state_byte f /\ guid_at b 0 = f_name f /\
  (large f = true -> fld b 24 8 = le_val (long_size_bytes f)).
Proof.
  intros f rest L. unfold file_bytes, fld, le_at, guid_at.
  remember (header_check f) as hc. remember (content_check f) as cc. remember (state_byte f) as st.
  remember (size_bytes f) as sb. remember (long_size_bytes f) as lb.
  assert (LS : length sb = 3%nat) by (subst sb; unfold size_bytes; apply le_bytes_length).
  destruct f as [nm ty at_ ct iv]. cbn [f_name f_type f_attributes f_content] in *.
  do 16 (destruct nm as [|? nm]; [discriminate|]). destruct nm; [|discriminate].
  do 3 (destruct sb as [|? sb]; [discriminate|]). destruct sb; [|discriminate].
  cbn [app skipn firstn le_val]. repeat split; try lia.
  intros B. assert (LL : length lb = 8%nat) by (subst lb; unfold long_size_bytes; rewrite B; apply le_bytes_length).
  clear Heqlb. do 8 (destruct lb as [|? lb]; [discriminate|]). destruct lb; [|discriminate]. reflexivity.
Qed.

Lemma state_ok : forall f, state_valid (state_byte f) = true.
Proof. intros f. unfold state_byte. destruct (f_inverted f); reflexivity. Qed.

(** Whether the data check passes: the sum of the content is compared with
    zero, its check left out. *)
Definition check_passes (f : file) : bool := negb (summed f) || (total (f_content f) mod 256 =? 0).

Lemma file_read : forall f rest, file_fits f ->
  file_new (file_bytes f ++ rest) =
  (if check_passes f then Ok (PF (file_bytes f) (f_name f) (f_type f) (f_attributes f) (header_len f) (file_len f))
   else Err VolumeCorrupted).
Proof.
  intros f rest (L & BN & BT & BA & BC & SZ). destruct (file_fields f rest L) as (F17 & F18 & F19 & F20 & F23 & G & F24).
  pose proof (file_bytes_len f L) as FL.
  assert (B24 : 24 <= file_len f) by (unfold file_len, header_len; destruct (large f); lia).
  unfold file_new. rewrite F17, F18, F19, F23, G.
  replace (blen (file_bytes f ++ rest) <? 24) with false by (rewrite blen_app; lia).
  assert (FS : file_size (file_bytes f ++ rest) = Ok (header_len f, file_len f)).
  { unfold file_size. rewrite F19, F20. change 1 with (2 ^ 0). rewrite testbit_land. fold (large f).
    unfold header_len. destruct (large f) eqn:E; cbn [negb].
    - rewrite F24 by reflexivity. replace (blen _ - 24 <? 8) with false.
      + unfold long_size_bytes. rewrite E, le_val_bytes; [reflexivity|]. change (256 ^ N.of_nat 8) with (2 ^ 64). lia.
      + rewrite blen_app, FL. unfold file_len, header_len. rewrite E. lia.
    - unfold size_bytes. rewrite E, le_val_bytes; [reflexivity|]. exact SZ. }
  rewrite FS. cbn [bind]. replace (blen (file_bytes f ++ rest) <? file_len f) with false by (rewrite blen_app; lia).
  rewrite state_ok. cbn [negb].
  assert (C1 : cut (file_bytes f ++ rest) 0 (header_len f) = Ok (file_head f)).
  { rewrite file_bytes_head, <- app_assoc. apply cut_head. now apply file_head_len. }
  rewrite C1. cbn [bind]. rewrite head_sums. cbn [N.eqb negb].
  assert (C2 : cut (file_bytes f ++ rest) (header_len f) (file_len f) = Ok (f_content f)).
  { rewrite file_bytes_head, <- app_assoc. apply cut_mid; rewrite file_head_len by assumption; reflexivity. }
  rewrite C2. rewrite (cut_head _ _ _ FL).
  change 64 with (2 ^ 6). rewrite testbit_land. fold (summed f). unfold check_passes, content_check.
  destruct (summed f); cbn [negb orb bind].
  - rewrite sum8_is. destruct (_ =? 0); reflexivity.
  - reflexivity.
Qed.

Lemma file_read_as : forall f, file_fits f ->
  reads_as f (PF (file_bytes f) (f_name f) (f_type f) (f_attributes f) (header_len f) (file_len f)).
Proof.
  intros f (L & _). repeat split. unfold file_content. cbn. rewrite <- (app_nil_r (file_bytes f)).
  rewrite file_bytes_head, <- app_assoc. apply cut_mid; rewrite file_head_len by assumption; reflexivity.
Qed.

Lemma not_erased : forall f e rest, length (f_name f) = 16%nat -> e = 0 \/ e = 0xff ->
  forallb (fun x => x =? e) (firstn 24 (file_bytes f ++ rest)) = false.
Proof.
  intros f e rest L E. destruct (forallb _ _) eqn:A; [|reflexivity]. rewrite forallb_forall in A.
  specialize (A (state_byte f)). assert (I : In (state_byte f) (firstn 24 (file_bytes f ++ rest))).
  { unfold file_bytes. assert (LS : length (size_bytes f) = 3%nat) by (unfold size_bytes; apply le_bytes_length).
    remember (size_bytes f) as sb. destruct f as [nm ty at_ ct iv]. cbn [f_name f_type f_attributes f_content] in *. clear Heqsb.
    do 16 (destruct nm as [|? nm]; [discriminate|]). destruct nm; [|discriminate].
    do 3 (destruct sb as [|? sb]; [discriminate|]). destruct sb; [|discriminate]. cbn [app firstn].
    do 23 right. left. reflexivity. }
  specialize (A I). unfold state_byte in A. destruct (f_inverted f); destruct E; subst; cbn in A; discriminate.
Qed.

Definition the_file (f : file) : pfile := PF (file_bytes f) (f_name f) (f_type f) (f_attributes f) (header_len f) (file_len f).

Lemma tail_ends : forall pre tail e fuel, (blen tail < 24 \/ firstn 24 tail = repeat e 24) ->
  files_from (S fuel) (pre ++ tail) e (blen pre) = ([], Done).
Proof.
  intros pre tail e fuel T. cbn [files_from]. rewrite blen_app.
  replace (blen pre + blen tail <? blen pre) with false by lia.
  destruct (blen pre + blen tail - blen pre <? 24) eqn:S24; [reflexivity|].
  destruct T as [T|T]; [lia|]. rewrite from_pre by reflexivity. rewrite T.
  replace (forallb _ _) with true; [reflexivity|]. symmetry. apply forallb_forall. intros x I. apply repeat_spec in I. lia.
Qed.

Lemma files_read : forall fs e tail pre fuel, e = 0 \/ e = 0xff -> Forall file_fits fs ->
  (blen tail < 24 \/ firstn 24 tail = repeat e 24) -> forallb check_passes fs = true -> blen pre mod 8 = 0 ->
  (length fs < fuel)%nat ->
  files_from fuel (pre ++ area e fs tail) e (blen pre) = (map (fun f => Got (the_file f)) fs, Done).
Proof.
  induction fs as [|f fs IH]; intros e tail pre fuel E FF T CP P8 FU.
  - destruct fuel; [cbn in FU; lia|]. now apply tail_ends.
  - destruct fuel as [|fuel]; [lia|]. cbn [length] in FU. cbn [forallb] in CP. apply andb_true_iff in CP. destruct CP as [CP CR].
    inversion FF as [|? ? F1 F2]; subst. pose proof F1 as (L & _). pose proof (file_bytes_len f L) as FL.
    assert (B24 : 24 <= file_len f) by (unfold file_len, header_len; destruct (large f); lia).
    cbn [files_from area map]. rewrite !blen_app.
    set (pad := repeat e _). set (more := area e fs tail).
    replace (_ <? blen pre) with false by lia. replace (_ - blen pre <? 24) with false by lia.
    rewrite from_pre by reflexivity. rewrite not_erased by assumption. rewrite file_read by assumption. rewrite CP.
    cbn [pf_size].
    assert (Q : up (blen pre + file_len f) 8 = blen (pre ++ file_bytes f ++ pad)).
    { rewrite up8, to_next_8_add by assumption. rewrite !blen_app. unfold pad. rewrite blen_repeat. lia. }
    rewrite Q.
    replace (pre ++ file_bytes f ++ pad ++ more) with ((pre ++ file_bytes f ++ pad) ++ more) by (rewrite <- !app_assoc; reflexivity).
    unfold more. rewrite IH; [reflexivity|assumption..| |lia].
    rewrite <- Q, up8. apply to_next_done. lia.
Qed.

(** ** Volumes *)

Lemma block_bytes_app : forall a b, block_bytes (a ++ b) = block_bytes a ++ block_bytes b.
Proof. intros. unfold block_bytes. apply flat_map_app. Qed.
Lemma block_bytes_len : forall m, blen (block_bytes m) = 8 * blen m.
Proof.
  induction m as [|e m IH]; [reflexivity|]. unfold block_bytes in *. cbn [flat_map].
  rewrite !blen_app, !blen_le, IH. unfold blen. cbn [length]. lia.
Qed.
Lemma entries_read : forall m rest, Forall (fun e => fst e < 2 ^ 32 /\ snd e < 2 ^ 32) m ->
  entries (block_bytes m ++ rest) (length m) = m.
Proof.
  induction m as [|[a c] m IH]; intros rest F; [reflexivity|]. inversion F as [|? ? [A C] F2]; subst. cbn [fst snd] in *.
  unfold block_bytes. cbn [flat_map length entries fst snd]. fold (block_bytes m).
  rewrite <- !app_assoc.
  assert (E1 : fld (le_bytes 4 a ++ le_bytes 4 c ++ block_bytes m ++ rest) 0 4 = a) by (apply (le_at_app' []); [reflexivity|exact A]).
  assert (E2 : fld (le_bytes 4 a ++ le_bytes 4 c ++ block_bytes m ++ rest) 4 4 = c) by (apply (le_at_app' (le_bytes 4 a)); [now rewrite le_bytes_length|exact C]).
  assert (E3 : skipn 8 (le_bytes 4 a ++ le_bytes 4 c ++ block_bytes m ++ rest) = block_bytes m ++ rest) by reflexivity.
  rewrite E1, E2, E3, IH by assumption. reflexivity.
Qed.

Definition fixed (v : volume) (c : N) : list N :=
  v_zero v ++ (if v_ffs3 v then FFS3 else FFS2) ++ le_bytes 8 (head_len v + blen (body v)) ++ [0x5F; 0x46; 0x56; 0x48] ++
  le_bytes 4 (v_attributes v) ++ le_bytes 2 (head_len v) ++ le_bytes 2 c ++ le_bytes 2 (ext_offset v) ++
  [v_reserved v; v_revision v].
Lemma head_fixed : forall v c, head_with v c = fixed v c ++ block_bytes (v_blocks v ++ [(0, 0)]).
Proof. intros. unfold head_with, fixed. rewrite <- !app_assoc. reflexivity. Qed.
Lemma fixed_len : forall v c, length (v_zero v) = 16%nat -> blen (fixed v c) = 56.
Proof.
  intros v c L. unfold fixed. rewrite !blen_app, !blen_le. unfold blen at 1. rewrite L. destruct (v_ffs3 v); reflexivity.
Qed.
Lemma head_with_len : forall v c, length (v_zero v) = 16%nat -> blen (head_with v c) = head_len v.
Proof.
  intros v c L. rewrite head_fixed, blen_app, fixed_len, block_bytes_len by assumption. unfold head_len.
  f_equal. f_equal. unfold blen. rewrite app_length. cbn [length]. lia.
Qed.

Lemma words_fixed : forall v c, length (v_zero v) = 16%nat -> c < 2 ^ 16 -> words (fixed v c) = words (fixed v 0) + c.
Proof.
  intros v c L C. unfold fixed.
  assert (EV : forall (a : list N) n, length a = (2 * n)%nat -> Nat.even (length a) = true).
  { intros a n ->. rewrite Nat.even_mul. reflexivity. }
  assert (W : forall a b n, length a = (2 * n)%nat -> words (a ++ b) = words a + words b).
  { intros a b n E. apply (words_app (length a)); [lia|]. now apply (EV a n). }
  repeat (rewrite (W (v_zero v) _ 8%nat) by assumption).
  assert (W2 : words (le_bytes 2 c) = c). { cbn [le_bytes words]. lia. }
  assert (W3 : words (le_bytes 2 0) = 0) by reflexivity.
  rewrite !(W (if v_ffs3 v then FFS3 else FFS2) _ 8%nat) by (destruct (v_ffs3 v); reflexivity).
  rewrite !(W (le_bytes 8 _) _ 4%nat) by reflexivity.
  rewrite !(W [_; _; _; _] _ 2%nat) by reflexivity.
  rewrite !(W (le_bytes 4 _) _ 2%nat) by reflexivity.
  rewrite !(W (le_bytes 2 _) _ 1%nat) by reflexivity.
  rewrite W2, W3. lia.
Qed.

Lemma head_words : forall v, length (v_zero v) = 16%nat -> sum16 (head_with v (head_check v)) = 0.
Proof.
  intros v L. rewrite (sum16_is _ _ (le_n _)).
  assert (C : head_check v < 2 ^ 16) by (unfold head_check; apply N.mod_lt; lia).
  assert (EV : forall c, Nat.even (length (fixed v c)) = true).
  { intros c. assert (X := fixed_len v c L). unfold blen in X. replace (length (fixed v c)) with 56%nat by lia. reflexivity. }
  assert (A : words (head_with v (head_check v)) = words (head_with v 0) + head_check v).
  { rewrite !head_fixed. rewrite !(words_app _ _ _ (le_n _)) by apply EV. rewrite (words_fixed v (head_check v)) by assumption. lia. }
  rewrite A. unfold head_check. generalize (words (head_with v 0)). intros w. lia.
Qed.

Lemma head_fields : forall v c rest, length (v_zero v) = 16%nat ->
  let b := head_with v c ++ rest in
  fld b 32 8 = le_val (le_bytes 8 (head_len v + blen (body v))) /\ fld b 40 4 = 0x4856465F /\
  fld b 44 4 = le_val (le_bytes 4 (v_attributes v)) /\ fld b 48 2 = le_val (le_bytes 2 (head_len v)) /\
  fld b 52 2 = le_val (le_bytes 2 (ext_offset v)) /\ fld b 55 1 = v_revision v /\
  guid_at b 16 = (if v_ffs3 v then FFS3 else FFS2).
Proof.
  intros v c rest L b. unfold b, head_with.
  set (e8 := le_bytes 8 _). set (a4 := le_bytes 4 _). set (h2 := le_bytes 2 (head_len v)). set (c2 := le_bytes 2 c).
  set (x2 := le_bytes 2 (ext_offset v)).
  set (bm := block_bytes _). clearbody bm.
  destruct (v_zero v) as [|z0 zs]; [discriminate|].
  do 15 (destruct zs as [|? zs]; [discriminate|]). destruct zs; [|discriminate].
  assert (L8 : length e8 = 8%nat) by apply le_bytes_length. assert (LA : length a4 = 4%nat) by apply le_bytes_length.
  assert (LH : length h2 = 2%nat) by apply le_bytes_length. assert (LC : length c2 = 2%nat) by apply le_bytes_length.
  assert (LX : length x2 = 2%nat) by apply le_bytes_length.
  clearbody e8 a4 h2 c2 x2.
  do 8 (destruct e8 as [|? e8]; [discriminate|]). destruct e8; [|discriminate].
  do 4 (destruct a4 as [|? a4]; [discriminate|]). destruct a4; [|discriminate].
  do 2 (destruct h2 as [|? h2]; [discriminate|]). destruct h2; [|discriminate].
  do 2 (destruct c2 as [|? c2]; [discriminate|]). destruct c2; [|discriminate].
  do 2 (destruct x2 as [|? x2]; [discriminate|]). destruct x2; [|discriminate].
  unfold fld, le_at, guid_at. destruct (v_ffs3 v); unfold FFS2, FFS3; cbn [app skipn firstn le_val]; repeat split; lia.
Qed.

Definition the_ext (v : volume) : option (list N * list N) :=
  match v_ext v with None => None | Some (gap, name, d) => Some (name, name ++ le_bytes 4 (20 + blen d) ++ d) end.

Lemma ext_read : forall v, volume_fits v -> ext_header (volume_bytes v) (ext_offset v) = Ok (the_ext v) /\
  (forall gap name d, v_ext v = Some (gap, name, d) -> fld (from (volume_bytes v) (ext_offset v)) 16 4 = 20 + blen d).
Proof.
  intros v (L & _ & _ & _ & _ & _ & _ & _ & _ & SZ & EX & _). unfold ext_header, the_ext, ext_offset.
  destruct (v_ext v) as [[[gap name] d]|] eqn:E; [|split; [reflexivity|discriminate]].
  destruct (EX gap name d eq_refl) as [LN LD].
  assert (B : exists pre post, volume_bytes v = pre ++ (name ++ le_bytes 4 (20 + blen d) ++ d) ++ post /\ blen pre = head_len v + blen gap).
  { exists (head_with v (head_check v) ++ gap), (v_filler v ++ area (erased v) (v_files v) (v_tail v)).
    split; [|rewrite blen_app, head_with_len by assumption; reflexivity].
    unfold volume_bytes, body, ext_bytes. rewrite E, <- !app_assoc. reflexivity. }
  destruct B as (pre & post & B & PL). rewrite B, <- PL.
  assert (F : fld (from (pre ++ (name ++ le_bytes 4 (20 + blen d) ++ d) ++ post) (blen pre)) 16 4 = 20 + blen d).
  { rewrite from_pre by reflexivity. rewrite <- !app_assoc. apply (le_at_app' name); [now rewrite LN|exact LD]. }
  assert (LB : blen (name ++ le_bytes 4 (20 + blen d) ++ d) = 20 + blen d).
  { rewrite !blen_app, blen_le. unfold blen at 1. rewrite LN. lia. }
  assert (H56 : 56 <= head_len v) by (unfold head_len; lia).
  split; [|intros ? ? ? [= <- <- <-]; exact F].
  replace (blen pre =? 0) with false by lia.
  assert (TL : blen (pre ++ (name ++ le_bytes 4 (20 + blen d) ++ d) ++ post) = blen pre + (20 + blen d + blen post)).
  { rewrite blen_app. f_equal. rewrite blen_app, LB. reflexivity. }
  rewrite F, TL. replace (_ <? blen pre + 20) with false by lia. replace (_ <? blen pre + (20 + blen d)) with false by lia.
  rewrite (cut_mid pre _ post) by (reflexivity || (rewrite LB; reflexivity)). cbn [bind].
  rewrite from_pre by reflexivity. unfold guid_at. cbn [skipn]. rewrite <- app_assoc, <- LN, firstn_app_exact. reflexivity.
Qed.

Definition start (v : volume) : N := head_len v + blen (ext_bytes v) + blen (v_filler v).

Lemma volume_new_read : forall v, volume_fits v ->
  volume_new (volume_bytes v) =
  Ok (PV (volume_bytes v) (v_attributes v) (v_blocks v) (the_ext v) (start v) (erased v)).
Proof.
  intros v V. pose proof (ext_read v V) as [ER EF]. pose proof V as (L & BZ & BA & BR & RV & BN & BF & HL & XO & SZ & EX & FI & FF & TL).
  pose proof (head_with_len v (head_check v) L) as HW.
  assert (TOT : blen (volume_bytes v) = head_len v + blen (body v)) by (unfold volume_bytes; rewrite blen_app, HW; reflexivity).
  destruct (head_fields v (head_check v) (body v) L) as (F32 & F40 & F44 & F48 & F52 & F55 & G16).
  fold (volume_bytes v) in *.
  rewrite le_val_bytes in F32 by (change (256 ^ N.of_nat 8) with (2 ^ 64); lia).
  rewrite le_val_bytes in F44 by exact BA. rewrite le_val_bytes in F48 by exact HL. rewrite le_val_bytes in F52 by exact XO.
  assert (H72 : 72 <= head_len v).
  { unfold head_len. destruct (v_blocks v); [congruence|]. unfold blen. cbn [length]. lia. }
  assert (H8 : head_len v mod 8 = 0) by (unfold head_len; lia).
  unfold volume_new. rewrite F32, F40, F44, F48, F52, F55, G16, TOT.
  replace (_ <? 56) with false by lia. cbn [N.eqb Pos.eqb negb].
  replace (head_len v <? 56) with false by lia.
  replace (head_len v + blen (body v) <? head_len v) with false by lia.
  replace (N.land (head_len v) 1 =? 0) with true
    by (change 1 with (2 ^ 1 - 1); rewrite land_mask_mod; change (2 ^ 1) with 2; lia).
  cbn [negb].
  assert (C1 : cut (volume_bytes v) 0 (head_len v) = Ok (head_with v (head_check v))).
  { apply cut_head. exact HW. }
  rewrite C1. cbn [bind]. rewrite head_words by assumption. cbn [N.eqb negb].
  replace (v_revision v <? 2) with false by lia.
  replace (negb _ && negb _) with false by (destruct (v_ffs3 v); reflexivity).
  replace (head_len v + blen (body v) <? ext_offset v) with false.
  2:{ symmetry. apply N.ltb_ge. unfold ext_offset, body, ext_bytes. destruct (v_ext v) as [[[? ?] ?]|]; [rewrite !blen_app; lia|lia]. }
  rewrite N.ltb_irrefl, ER. cbn [bind].
  assert (C2 : cut (volume_bytes v) 56 (head_len v) = Ok (block_bytes (v_blocks v ++ [(0, 0)]))).
  { unfold volume_bytes. rewrite head_fixed, <- app_assoc. apply cut_mid; [now apply fixed_len|].
    rewrite fixed_len, block_bytes_len by assumption. unfold head_len, blen. rewrite app_length. cbn [length]. lia. }
  rewrite C2. cbn [bind]. rewrite block_bytes_len.
  replace (N.land _ 7 =? 0) with true.
  2:{ symmetry. change 7 with (2 ^ 3 - 1). rewrite land_mask_mod. change (2 ^ 3) with 8. lia. }
  cbn [negb].
  assert (EN : entries (block_bytes (v_blocks v ++ [(0, 0)])) (N.to_nat (8 * blen (v_blocks v ++ [(0, 0)]) / 8)) = v_blocks v ++ [(0, 0)]).
  { rewrite N.mul_comm, N.div_mul by lia. unfold blen. rewrite Nnat.Nat2N.id. rewrite <- (app_nil_r (block_bytes _)).
    apply entries_read. apply Forall_app. split.
    - eapply Forall_impl; [|exact BF]. intros a (A1 & A2 & _). now split.
    - repeat constructor. }
  rewrite EN, rev_app_distr. cbn [rev app]. cbn [zero_entry fst snd N.eqb andb negb].
  rewrite rev_involutive. destruct (v_blocks v) as [|e0 es] eqn:EB; [congruence|]. rewrite <- EB in *.
  replace (existsb zero_entry (v_blocks v)) with false.
  2:{ symmetry. destruct (existsb _ _) eqn:Z; [|reflexivity]. apply existsb_exists in Z. destruct Z as ([a c] & I & Z).
      rewrite Forall_forall in BF. apply BF in I. destruct I as (_ & _ & I). unfold zero_entry in Z. cbn in Z. exfalso. apply I. f_equal; lia. }
  f_equal. f_equal.
  - rewrite up8. unfold start. rewrite FI. unfold the_ext, ext_bytes, ext_offset in *.
    destruct (v_ext v) as [[[gap name] d]|] eqn:E.
    + rewrite (EF _ _ _ eq_refl). destruct (EX _ _ _ eq_refl) as [LN _]. rewrite !blen_app, blen_le.
      replace (blen name) with 16 by (unfold blen; rewrite LN; reflexivity).
      replace (head_len v + blen gap + (20 + blen d)) with (head_len v + (blen gap + (16 + (N.of_nat 4 + blen d)))) by lia.
      rewrite to_next_8_add by assumption. lia.
    + change (blen []) with 0. change (to_next 8 0) with 0. replace (to_next 8 (head_len v)) with 0 by (unfold to_next; lia). lia.
  - change 2048 with (2 ^ 11). rewrite testbit_land. unfold erased. destruct (N.testbit _ _); reflexivity.
Qed.

Lemma volume_files_read : forall v fuel, volume_fits v -> forallb check_passes (v_files v) = true -> (length (v_files v) < fuel)%nat ->
  volume_files fuel (PV (volume_bytes v) (v_attributes v) (v_blocks v) (the_ext v) (start v) (erased v)) =
  (map (fun f => Got (the_file f)) (v_files v), Done).
Proof.
  intros v fuel V CP FU. pose proof V as (L & _ & _ & _ & _ & _ & _ & _ & _ & _ & _ & _ & FF & TL).
  unfold volume_files. cbn [pv_data pv_data_offset pv_erase].
  assert (B : volume_bytes v = (head_with v (head_check v) ++ ext_bytes v ++ v_filler v) ++ area (erased v) (v_files v) (v_tail v)).
  { unfold volume_bytes, body. rewrite <- !app_assoc. reflexivity. }
  assert (PL : blen (head_with v (head_check v) ++ ext_bytes v ++ v_filler v) = start v).
  { rewrite !blen_app, head_with_len by assumption. unfold start. lia. }
  rewrite B. rewrite blen_app. replace (_ <? start v) with false by lia. rewrite from_pre by exact PL.
  apply (files_read _ _ _ []); try assumption; try reflexivity. unfold erased. destruct (N.testbit _ _); auto.
Qed.
