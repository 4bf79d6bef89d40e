(** Lemmas about hexadecimal digits and the scan. *)
From Verif Require Import Base.Prelude Guid.Model Guid.Spec.
Local Open Scope N_scope.

Lemma land15 : forall v, N.land v 15 = v mod 16.
Proof. intro v. change 15 with (N.ones 4). rewrite N.land_ones. reflexivity. Qed.

Lemma lt16_in : forall v, v < 16 -> In v [0;1;2;3;4;5;6;7;8;9;10;11;12;13;14;15].
Proof. intros v H. cbn [In]. lia. Qed.

Lemma nibble_digit : forall v, v < 16 -> nibble_char v = nth (N.to_nat v) DIGITS 0.
Proof.
  intros v H. apply lt16_in in H. cbn [In] in H.
  repeat (destruct H as [<- | H]; [reflexivity|]). destruct H.
Qed.

Lemma nibble_in : forall v, v < 16 -> In (nibble_char v) DIGITS.
Proof.
  intros v H. apply lt16_in in H. cbn [In] in H.
  repeat (destruct H as [<- | H]; [vm_compute; tauto|]). destruct H.
Qed.

Lemma nibble_value : forall v, v < 16 -> hex_char_to_value (nibble_char v) = v.
Proof.
  intros v H. apply lt16_in in H. cbn [In] in H.
  repeat (destruct H as [<- | H]; [reflexivity|]). destruct H.
Qed.

Lemma digit_nibble : forall c, In c DIGITS -> exists v, v < 16 /\ c = nibble_char v.
Proof.
  intros c H. unfold DIGITS in H. cbn [In] in H.
  do 10 (destruct H as [<- | H]; [match goal with |- exists v, _ /\ ?c = _ => exists (c - 48) end; split; [lia|reflexivity]|]).
  do 6 (destruct H as [<- | H]; [match goal with |- exists v, _ /\ ?c = _ => exists (c - 55) end; split; [lia|reflexivity]|]).
  destruct H.
Qed.

Lemma pow16 : forall i, 2 ^ (N.of_nat i * 4) = 16 ^ N.of_nat i.
Proof. intro i. rewrite N.mul_comm, N.pow_mul_r. reflexivity. Qed.

Lemma add_hex_step : forall v i,
  add_hex v (S i) = nibble_char ((v / 16 ^ N.of_nat i) mod 16) :: add_hex v i.
Proof. intros. cbn [add_hex]. rewrite N.shiftr_div_pow2, pow16, land15. reflexivity. Qed.

Lemma pow16_pos : forall n, 0 < 16 ^ N.of_nat n.
Proof. intro n. apply N.neq_0_lt_0. apply N.pow_nonzero. discriminate. Qed.

Lemma pow16_S : forall n, 16 ^ N.of_nat (S n) = 16 ^ N.of_nat n * 16.
Proof. intro n. rewrite Nat2N.inj_succ, N.pow_succ_r' . lia. Qed.

Lemma pow16_add : forall n m, 16 ^ N.of_nat (n + m) = 16 ^ N.of_nat n * 16 ^ N.of_nat m.
Proof. intros. rewrite Nat2N.inj_add, N.pow_add_r. reflexivity. Qed.

Lemma add_hex_low : forall n a b m, (n <= m)%nat -> add_hex (a * 16 ^ N.of_nat m + b) n = add_hex b n.
Proof.
  induction n as [|n IH]; intros a b m H; [reflexivity|].
  rewrite !add_hex_step. f_equal; [|apply IH; lia].
  f_equal. replace m with ((m - n - 1) + 1 + n)%nat by lia.
  rewrite !pow16_add. change (16 ^ N.of_nat 1) with 16.
  replace (a * (16 ^ N.of_nat (m - n - 1) * 16 * 16 ^ N.of_nat n) + b)
    with (b + (a * 16 ^ N.of_nat (m - n - 1) * 16) * 16 ^ N.of_nat n) by lia.
  rewrite N.div_add by (pose proof (pow16_pos n); lia).
  rewrite N.mod_add by lia. reflexivity.
Qed.

Lemma add_hex_app : forall n m a b, b < 16 ^ N.of_nat m ->
  add_hex (a * 16 ^ N.of_nat m + b) (n + m) = add_hex a n ++ add_hex b m.
Proof.
  induction n as [|n IH]; intros m a b H.
  - cbn [plus app]. apply (add_hex_low m a b m). lia.
  - cbn [plus]. rewrite !add_hex_step. cbn [app]. f_equal; [|apply IH; exact H].
    f_equal. rewrite pow16_add. rewrite (N.mul_comm (16 ^ N.of_nat n)).
    pose proof (pow16_pos m). pose proof (pow16_pos n).
    rewrite <- N.div_div by lia.
    rewrite (N.add_comm (a * _)), N.div_add by lia. rewrite (N.div_small b) by exact H.
    reflexivity.
Qed.

Lemma add_hex_len : forall n v, length (add_hex v n) = n.
Proof. induction n; intros; cbn [add_hex length]; auto. Qed.

Lemma add_hex_digits : forall n v, Forall (fun c => In c DIGITS) (add_hex v n).
Proof.
  induction n as [|n IH]; intros v; [constructor|].
  rewrite add_hex_step. constructor; [|apply IH]. apply nibble_in. apply N.mod_lt. discriminate.
Qed.

Lemma add_hex_byte : forall b, b < 256 -> add_hex b 2 = hex2 b.
Proof.
  intros b H. rewrite !add_hex_step. cbn [add_hex]. unfold hex2.
  change (16 ^ N.of_nat 1) with 16. change (16 ^ N.of_nat 0) with 1. rewrite N.div_1_r.
  assert (b / 16 < 16) by (apply N.div_lt_upper_bound; lia).
  rewrite (N.mod_small (b / 16)) by assumption.
  assert (b mod 16 < 16) by (apply N.mod_lt; discriminate).
  rewrite !nibble_digit by assumption. reflexivity.
Qed.

Lemma lor_shift : forall r d, d < 16 -> N.lor (r * 16) d = r * 16 + d.
Proof.
  intros r d H. assert (L : N.land (r * 16) d = 0).
  { apply N.bits_inj. intro i. rewrite N.land_spec, N.bits_0. change 16 with (2 ^ 4).
    destruct (N.lt_ge_cases i 4) as [L|L].
    - rewrite N.mul_pow2_bits_low by exact L. reflexivity.
    - assert (E : N.testbit d i = false).
      { rewrite <- (N.mod_small d (2 ^ 4)) by (change (2 ^ 4) with 16; exact H).
        apply N.mod_pow2_bits_high. exact L. }
      rewrite E. apply andb_false_r. }
  rewrite <- N.lxor_lor by exact L. rewrite <- N.add_nocarry_lxor by exact L. reflexivity.
Qed.

Definition pstep (w : N) (r c : N) : N := N.lor (N.shiftl r 4 mod 2 ^ w) (hex_char_to_value c).

Lemma parse_add_hex_acc : forall n w v r, (r + 1) * 16 ^ N.of_nat n <= 2 ^ w ->
  fold_left (pstep w) (add_hex v n) r = r * 16 ^ N.of_nat n + v mod 16 ^ N.of_nat n.
Proof.
  induction n as [|n IH]; intros w v r H.
  - change (16 ^ N.of_nat 0) with 1. cbn [add_hex fold_left]. rewrite N.mod_1_r. lia.
  - rewrite add_hex_step. cbn [fold_left]. set (d := (v / 16 ^ N.of_nat n) mod 16).
    assert (D : d < 16) by (apply N.mod_lt; discriminate).
    rewrite pow16_S in *. pose proof (pow16_pos n).
    assert (S1 : pstep w r (nibble_char d) = r * 16 + d).
    { unfold pstep. rewrite nibble_value by exact D. rewrite N.shiftl_mul_pow2. change (2 ^ 4) with 16.
      rewrite N.mod_small by nia. apply lor_shift. exact D. }
    rewrite S1. rewrite IH by nia.
    rewrite (N.mod_mul_r v (16 ^ N.of_nat n) 16) by lia. fold d. nia.
Qed.

Lemma parse_add_hex : forall n w v, 16 ^ N.of_nat n <= 2 ^ w -> v < 16 ^ N.of_nat n ->
  parse_hex w (add_hex v n) = v.
Proof.
  intros n w v H L. unfold parse_hex. change (fold_left (pstep w) (add_hex v n) 0 = v).
  rewrite parse_add_hex_acc by lia. rewrite N.mod_small by exact L. lia.
Qed.

Lemma digits_are_hex : forall ds, Forall (fun c => In c DIGITS) ds ->
  exists v, v < 16 ^ N.of_nat (length ds) /\ ds = add_hex v (length ds).
Proof.
  induction 1 as [|c ds Hc H IH]; [exists 0; split; [cbn; lia|reflexivity]|].
  destruct IH as (v & L & E). destruct (digit_nibble c Hc) as (d & D & ->).
  exists (d * 16 ^ N.of_nat (length ds) + v). cbn [length]. split.
  - rewrite pow16_S. nia.
  - change (S (length ds)) with (1 + length ds)%nat. rewrite add_hex_app by exact L.
    rewrite <- E. rewrite add_hex_step. cbn [add_hex app]. change (16 ^ N.of_nat 0) with 1.
    rewrite N.div_1_r, N.mod_small by exact D. reflexivity.
Qed.

(** ** little-endian integers *)
Lemma le_val_lt : forall bs, Forall (fun b => b < 256) bs -> le_val bs < 256 ^ N.of_nat (length bs).
Proof.
  induction 1 as [|b bs Hb H IH]; [cbn; lia|]. cbn [le_val length].
  rewrite Nat2N.inj_succ, N.pow_succ_r'. lia.
Qed.

Lemma le_bytes_val : forall bs, Forall (fun b => b < 256) bs -> le_bytes (length bs) (le_val bs) = bs.
Proof.
  induction 1 as [|b bs Hb H IH]; [reflexivity|]. cbn [le_val length le_bytes].
  rewrite (N.mul_comm 256), N.mod_add, N.div_add by discriminate.
  rewrite N.mod_small, N.div_small by exact Hb. cbn [N.add]. rewrite IH. reflexivity.
Qed.

Lemma le_bytes_len : forall n v, length (le_bytes n v) = n.
Proof. induction n; intros; cbn [le_bytes length]; auto. Qed.

Lemma le_bytes_lt : forall n v, Forall (fun b => b < 256) (le_bytes n v).
Proof. induction n; intros; cbn [le_bytes]; constructor; auto. apply N.mod_lt. discriminate. Qed.

Lemma le_val_bytes : forall n v, v < 256 ^ N.of_nat n -> le_val (le_bytes n v) = v.
Proof.
  induction n as [|n IH]; intros v H.
  - cbn in *. lia.
  - cbn [le_bytes le_val]. rewrite IH.
    + rewrite N.add_comm. symmetry. apply N.div_mod. discriminate.
    + rewrite Nat2N.inj_succ, N.pow_succ_r' in H. apply N.div_lt_upper_bound; [discriminate|lia].
Qed.

(** Hex digits of a little-endian integer: its bytes in reverse. *)
Lemma add_hex_le : forall bs, Forall (fun b => b < 256) bs ->
  add_hex (le_val bs) (2 * length bs) = flat_map hex2 (rev bs).
Proof.
  induction 1 as [|b bs Hb H IH]; [reflexivity|].
  cbn [le_val length rev]. rewrite flat_map_app. cbn [flat_map]. rewrite app_nil_r.
  replace (2 * S (length bs))%nat with (2 * length bs + 2)%nat by lia.
  replace (b + 256 * le_val bs) with (le_val bs * 16 ^ N.of_nat 2 + b) by (change (16 ^ N.of_nat 2) with 256; lia).
  rewrite add_hex_app by exact Hb. rewrite IH, add_hex_byte by exact Hb. reflexivity.
Qed.

(** ** characters *)
Lemma upper_some : forall c u, to_upper_hex c = Some u <->
  (In c DIGITS /\ u = c) \/ (In c [97;98;99;100;101;102] /\ u = c - 32).
Proof.
  intros c u. unfold to_upper_hex, DIGITS. cbn [In].
  destruct (((48 <=? c) && (c <=? 57)) || ((65 <=? c) && (c <=? 70))) eqn:E1.
  - split; [intros [= <-]; left; lia | intros [[? ->]|[? ->]]; [reflexivity|lia]].
  - destruct ((97 <=? c) && (c <=? 102)) eqn:E2.
    + split; [intros [= <-]; right; lia | intros [[? ->]|[? ->]]; [lia | f_equal; lia]].
    + split; [discriminate|]. intros [[? _]|[? _]]; lia.
Qed.

Lemma upper_none : forall c, to_upper_hex c = None <-> ~ hexchar c.
Proof.
  intro c. unfold to_upper_hex, hexchar, DIGITS. cbn [In].
  destruct (((48 <=? c) && (c <=? 57)) || ((65 <=? c) && (c <=? 70))) eqn:E1; [split; [discriminate|lia]|].
  destruct ((97 <=? c) && (c <=? 102)) eqn:E2; [split; [discriminate|lia]|].
  split; [lia|reflexivity].
Qed.

Lemma filler_b : forall c, negb (is_ascii_whitespace c) && negb (c =? 45) = false <-> filler c.
Proof. intro c. unfold is_ascii_whitespace, filler. cbn [In]. lia. Qed.

Lemma filler_not_hex : forall c, filler c -> to_upper_hex c = None.
Proof. intros c H. apply upper_none. unfold filler, hexchar, DIGITS in *. cbn [In] in *. lia. Qed.

Lemma digits_of_det : forall s d1 d2, digits_of s d1 -> digits_of s d2 -> d1 = d2.
Proof.
  intros s d1 d2 H. revert d2. unfold filler, DIGITS in *.
  induction H; intros d2 H2; inversion H2; subst; unfold filler, DIGITS in *; cbn [In] in *;
    try reflexivity; try (exfalso; lia); try (f_equal; auto); auto.
Qed.

Lemma digits_of_upper : forall s d, digits_of s d -> Forall (fun c => In c DIGITS) d.
Proof.
  induction 1; auto. constructor; auto. unfold DIGITS. cbn [In] in *. lia.
Qed.

(** A list of canonical digits spells itself. *)
Lemma digits_of_self : forall d, Forall (fun c => In c DIGITS) d -> digits_of d d.
Proof. induction 1; [constructor|apply do_up; auto]. Qed.

Lemma digits_of_app : forall s1 d1 s2 d2, digits_of s1 d1 -> digits_of s2 d2 ->
  digits_of (s1 ++ s2) (d1 ++ d2).
Proof. induction 1; intros; cbn [app]; [assumption|apply do_fill|apply do_up|apply do_low]; auto. Qed.

(** ** the scan *)
Lemma scan_ok : forall s pos acc ds, digits_of s ds -> (length acc + length ds <= 32)%nat ->
  scan pos acc s = Ok (acc ++ ds).
Proof.
  intros s pos acc ds H. revert pos acc.
  induction H as [|c s ds F H IH|c s ds F H IH|c s ds F H IH]; intros pos acc L; cbn [scan].
  - rewrite app_nil_r. reflexivity.
  - rewrite filler_not_hex by exact F. apply filler_b in F. rewrite F. apply IH. exact L.
  - rewrite (proj2 (upper_some c c)) by auto. cbn [length] in L.
    replace (Nat.ltb (length acc) EXPECTED_HEX_CHARS) with true
      by (symmetry; apply Nat.ltb_lt; unfold EXPECTED_HEX_CHARS; lia).
    rewrite IH by (rewrite app_length; cbn [length]; lia). rewrite <- app_assoc. reflexivity.
  - rewrite (proj2 (upper_some c (c - 32))) by auto. cbn [length] in L.
    replace (Nat.ltb (length acc) EXPECTED_HEX_CHARS) with true
      by (symmetry; apply Nat.ltb_lt; unfold EXPECTED_HEX_CHARS; lia).
    rewrite IH by (rewrite app_length; cbn [length]; lia). rewrite <- app_assoc. reflexivity.
Qed.

(** Every string falls in exactly one of three cases. *)
Lemma string_cases : forall s,
  (exists ds, digits_of s ds /\ (length ds <= 32)%nat) \/
  (exists pre c post ds, s = pre ++ c :: post /\ digits_of pre ds /\ (length ds <= 32)%nat /\
     ~ hexchar c /\ ~ filler c) \/
  (exists pre c post ds, s = pre ++ c :: post /\ digits_of pre ds /\ length ds = 32%nat /\ hexchar c).
Proof.
  intro s. induction s as [|c s IH] using rev_ind.
  - left. exists []. split; [constructor|cbn; lia].
  - destruct IH as [(ds & D & L)|[(pre & c' & post & ds & -> & D & L & N1 & N2)|(pre & c' & post & ds & -> & D & L & N1)]].
    + destruct (to_upper_hex c) as [u|] eqn:U.
      * assert (HX : hexchar c) by (apply upper_some in U; unfold hexchar; tauto).
        destruct (Nat.eq_dec (length ds) 32) as [E|E].
        -- right. right. exists s, c, [], ds. tauto.
        -- left. exists (ds ++ [u]). split; [|rewrite app_length; cbn [length]; lia].
           apply digits_of_app; [exact D|]. apply upper_some in U.
           destruct U as [[U ->]|[U ->]]; [apply do_up|apply do_low]; auto; constructor.
      * destruct (negb (is_ascii_whitespace c) && negb (c =? 45)) eqn:F.
        -- right. left. exists s, c, [], ds. repeat split; auto.
           ++ apply upper_none. exact U.
           ++ intro X. apply filler_b in X. congruence.
        -- left. exists ds. split; [|exact L]. rewrite <- (app_nil_r ds).
           apply digits_of_app; [exact D|]. apply do_fill; [apply filler_b; exact F|constructor].
    + right. left. exists pre, c', (post ++ [c]), ds. rewrite <- app_assoc. cbn [app]. tauto.
    + right. right. exists pre, c', (post ++ [c]), ds. rewrite <- app_assoc. cbn [app]. tauto.
Qed.

Lemma scan_pre : forall s ds, digits_of s ds -> forall pos acc rest, (length acc + length ds <= 32)%nat ->
  scan pos acc (s ++ rest) = scan (length s + pos) (acc ++ ds) rest.
Proof.
  induction 1 as [|c s ds F H IH|c s ds F H IH|c s ds F H IH]; intros pos acc rest L; cbn [scan app length plus].
  - rewrite app_nil_r. reflexivity.
  - rewrite filler_not_hex by exact F. apply filler_b in F. rewrite F. rewrite IH by exact L. f_equal. lia.
  - rewrite (proj2 (upper_some c c)) by auto. cbn [length] in L.
    replace (Nat.ltb (length acc) EXPECTED_HEX_CHARS) with true
      by (symmetry; apply Nat.ltb_lt; unfold EXPECTED_HEX_CHARS; lia).
    rewrite IH by (rewrite app_length; cbn [length]; lia). rewrite <- app_assoc. f_equal. lia.
  - rewrite (proj2 (upper_some c (c - 32))) by auto. cbn [length] in L.
    replace (Nat.ltb (length acc) EXPECTED_HEX_CHARS) with true
      by (symmetry; apply Nat.ltb_lt; unfold EXPECTED_HEX_CHARS; lia).
    rewrite IH by (rewrite app_length; cbn [length]; lia). rewrite <- app_assoc. f_equal. lia.
Qed.

Lemma scan_bad : forall pre c post ds, digits_of pre ds -> (length ds <= 32)%nat ->
  ~ hexchar c -> ~ filler c ->
  scan 1 [] (pre ++ c :: post) = Err (InvalidHexCharacter (S (length pre)) c).
Proof.
  intros pre c post ds D L N1 N2. rewrite (scan_pre pre ds D 1 [] (c :: post)) by (cbn [length]; lia).
  cbn [scan]. rewrite (proj2 (upper_none c) N1).
  destruct (negb (is_ascii_whitespace c) && negb (c =? 45)) eqn:F.
  - do 2 f_equal. lia.
  - exfalso. apply N2. apply filler_b. exact F.
Qed.

Lemma scan_long : forall pre c post ds, digits_of pre ds -> length ds = 32%nat -> hexchar c ->
  scan 1 [] (pre ++ c :: post) = Err (InvalidLength 32 33).
Proof.
  intros pre c post ds D L HX. rewrite (scan_pre pre ds D 1 [] (c :: post)) by (cbn [length]; lia).
  cbn [scan app]. destruct (to_upper_hex c) as [u|] eqn:U.
  - rewrite L. reflexivity.
  - apply upper_none in U. tauto.
Qed.

(** ** the canonical digits of a GUID *)
Lemma guid_shape : forall g, is_guid g ->
  exists b0 b1 b2 b3 b4 b5 b6 b7 b8 b9 b10 b11 b12 b13 b14 b15,
  g = [b0;b1;b2;b3;b4;b5;b6;b7;b8;b9;b10;b11;b12;b13;b14;b15] /\
  Forall (fun b => b < 256) [b0;b1;b2;b3;b4;b5;b6;b7;b8;b9;b10;b11;b12;b13;b14;b15].
Proof.
  intros g [L F]. do 16 (destruct g as [|? g]; [discriminate L|]). destruct g; [|discriminate L].
  do 16 eexists. split; [reflexivity|exact F].
Qed.

Lemma canon_hex : forall g, is_guid g ->
  to_canonical_string g =
  flat_map hex2 (rev (slice g 0 4)) ++ flat_map hex2 (rev (slice g 4 6)) ++ flat_map hex2 (rev (slice g 6 8)) ++
  flat_map hex2 (slice g 8 16).
Proof.
  intros g H. destruct (guid_shape g H) as (b0&b1&b2&b3&b4&b5&b6&b7&b8&b9&b10&b11&b12&b13&b14&b15&->&F).
  repeat match goal with X : Forall _ (_ :: _) |- _ => inversion X; clear X; subst end.
  unfold to_canonical_string, time_low, time_mid, time_hi, clk_hi, clk_low, node.
  unfold slice. cbn [Nat.sub firstn skipn nth].
  change 8%nat with (2 * length [b0;b1;b2;b3])%nat at 1.
  rewrite add_hex_le by (repeat constructor; assumption).
  change 4%nat with (2 * length [b4;b5])%nat at 1.
  rewrite add_hex_le by (repeat constructor; assumption).
  change 4%nat with (2 * length [b6;b7])%nat at 1.
  rewrite add_hex_le by (repeat constructor; assumption).
  cbn [flat_map]. rewrite !add_hex_byte by assumption. reflexivity.
Qed.

Lemma display_text : forall g, is_guid g -> display g = guid_text g.
Proof.
  intros g H. unfold display. rewrite canon_hex by exact H.
  destruct (guid_shape g H) as (b0&b1&b2&b3&b4&b5&b6&b7&b8&b9&b10&b11&b12&b13&b14&b15&->&F).
  reflexivity.
Qed.

Lemma hex2_digits : forall b, b < 256 -> Forall (fun c => In c DIGITS) (hex2 b).
Proof. intros b H. rewrite <- add_hex_byte by exact H. apply add_hex_digits. Qed.

Lemma canon_len : forall g, is_guid g -> length (to_canonical_string g) = 32%nat.
Proof.
  intros g H. rewrite canon_hex by exact H.
  destruct (guid_shape g H) as (b0&b1&b2&b3&b4&b5&b6&b7&b8&b9&b10&b11&b12&b13&b14&b15&->&F). reflexivity.
Qed.

Lemma canon_digits : forall g, Forall (fun c => In c DIGITS) (to_canonical_string g).
Proof.
  intro g. unfold to_canonical_string. 
  do 5 (apply Forall_app; split; [apply add_hex_digits|]).
  induction (node g); cbn [flat_map]; [constructor|]. apply Forall_app. split; [apply add_hex_digits|assumption].
Qed.

Lemma fmt_digits : forall cs i, Forall (fun c => In c DIGITS) cs -> digits_of (fmt_from i cs) cs.
Proof.
  intros cs i H. revert i. induction H as [|c cs Hc H IH]; intro i; cbn [fmt_from]; [constructor|].
  destruct (existsb (Nat.eqb i) DASH_POSITIONS); cbn [app].
  - apply do_fill; [unfold filler; cbn [In]; tauto|]. apply do_up; auto.
  - apply do_up; auto.
Qed.

Lemma text_digits : forall g, is_guid g -> digits_of (guid_text g) (to_canonical_string g).
Proof. intros g H. rewrite <- display_text by exact H. apply fmt_digits. apply canon_digits. Qed.

Definition build (h : list N) : guid :=
  from_fields
    (parse_hex 32 (slice h 0 8)) (parse_hex 16 (slice h 8 12)) (parse_hex 16 (slice h 12 16))
    (parse_hex 8 (slice h 16 18)) (parse_hex 8 (slice h 18 20))
    [parse_hex 8 (slice h 20 22); parse_hex 8 (slice h 22 24); parse_hex 8 (slice h 24 26);
     parse_hex 8 (slice h 26 28); parse_hex 8 (slice h 28 30); parse_hex 8 (slice h 30 32)].

Lemma slice_digits : forall h a b, Forall (fun c => In c DIGITS) h -> Forall (fun c => In c DIGITS) (slice h a b).
Proof.
  intros h a b H. unfold slice. rewrite Forall_forall in *. intros x X.
  apply H. rewrite <- (firstn_skipn a h). apply in_or_app. right.
  rewrite <- (firstn_skipn (b - a) (skipn a h)). apply in_or_app. left. exact X.
Qed.

Lemma slice_len : forall (h : list N) a b, (b <= length h)%nat -> length (slice h a b) = (b - a)%nat.
Proof. intros. unfold slice. rewrite firstn_length, skipn_length. lia. Qed.

(** The slice of the digit array that belongs to a field is the rendering of a bounded value. *)
Lemma slice_field : forall h a b n, Forall (fun c => In c DIGITS) h -> length h = 32%nat ->
  (a <= b)%nat -> (b <= 32)%nat -> (b - a = n)%nat ->
  exists v, v < 16 ^ N.of_nat n /\ slice h a b = add_hex v n.
Proof.
  intros h a b n F L A B E. subst n.
  destruct (digits_are_hex (slice h a b) (slice_digits h a b F)) as (v & V & Q).
  rewrite slice_len in * by lia. exists v. auto.
Qed.

Lemma split_slices : forall h : list N, length h = 32%nat ->
  h = slice h 0 8 ++ slice h 8 12 ++ slice h 12 16 ++ slice h 16 18 ++ slice h 18 20 ++
      slice h 20 22 ++ slice h 22 24 ++ slice h 24 26 ++ slice h 26 28 ++ slice h 28 30 ++ slice h 30 32.
Proof.
  intros h L. do 32 (destruct h as [|? h]; [discriminate L|]). destruct h; [reflexivity|discriminate L].
Qed.

Lemma list4 : forall v, exists a b c d, le_bytes 4 v = [a;b;c;d].
Proof. intro v. cbn [le_bytes]. do 4 eexists. reflexivity. Qed.

Lemma build_spec : forall h, Forall (fun c => In c DIGITS) h -> length h = 32%nat ->
  is_guid (build h) /\ to_canonical_string (build h) = h.
Proof.
  intros h F L. pose proof (split_slices h L) as SP. unfold build.
  destruct (slice_field h 0 8 8 F L) as (v0 & V0 & Q0); try lia.
  destruct (slice_field h 8 12 4 F L) as (v1 & V1 & Q1); try lia.
  destruct (slice_field h 12 16 4 F L) as (v2 & V2 & Q2); try lia.
  destruct (slice_field h 16 18 2 F L) as (v3 & V3 & Q3); try lia.
  destruct (slice_field h 18 20 2 F L) as (v4 & V4 & Q4); try lia.
  destruct (slice_field h 20 22 2 F L) as (v5 & V5 & Q5); try lia.
  destruct (slice_field h 22 24 2 F L) as (v6 & V6 & Q6); try lia.
  destruct (slice_field h 24 26 2 F L) as (v7 & V7 & Q7); try lia.
  destruct (slice_field h 26 28 2 F L) as (v8 & V8 & Q8); try lia.
  destruct (slice_field h 28 30 2 F L) as (v9 & V9 & Q9); try lia.
  destruct (slice_field h 30 32 2 F L) as (v10 & V10 & Q10); try lia.
  rewrite Q0, Q1, Q2, Q3, Q4, Q5, Q6, Q7, Q8, Q9, Q10 in SP |- *.
  rewrite (parse_add_hex 8 32) by (assumption || (cbn; lia)).
  rewrite !(parse_add_hex 4 16) by (assumption || (cbn; lia)).
  rewrite !(parse_add_hex 2 8) by (assumption || (cbn; lia)).
  change (16 ^ N.of_nat 2) with 256 in *. change (16 ^ N.of_nat 4) with (256 ^ N.of_nat 2) in *.
  change (16 ^ N.of_nat 8) with (256 ^ N.of_nat 4) in *.
  assert (G : is_guid (from_fields v0 v1 v2 v3 v4 [v5;v6;v7;v8;v9;v10])).
  { split.
    - unfold from_fields. rewrite !app_length, !le_bytes_len. reflexivity.
    - unfold from_fields. repeat (apply Forall_app; split); try apply le_bytes_lt; repeat constructor; assumption. }
  split; [exact G|].
  unfold to_canonical_string, time_low, time_mid, time_hi, clk_hi, clk_low, node.
  assert (X0 : le_val (slice (from_fields v0 v1 v2 v3 v4 [v5; v6; v7; v8; v9; v10]) 0 4) = v0).
  { change (slice (from_fields v0 v1 v2 v3 v4 [v5; v6; v7; v8; v9; v10]) 0 4) with (le_bytes 4 v0).
    apply le_val_bytes. exact V0. }
  assert (X1 : le_val (slice (from_fields v0 v1 v2 v3 v4 [v5; v6; v7; v8; v9; v10]) 4 6) = v1).
  { change (slice (from_fields v0 v1 v2 v3 v4 [v5; v6; v7; v8; v9; v10]) 4 6) with (le_bytes 2 v1).
    apply le_val_bytes. exact V1. }
  assert (X2 : le_val (slice (from_fields v0 v1 v2 v3 v4 [v5; v6; v7; v8; v9; v10]) 6 8) = v2).
  { change (slice (from_fields v0 v1 v2 v3 v4 [v5; v6; v7; v8; v9; v10]) 6 8) with (le_bytes 2 v2).
    apply le_val_bytes. exact V2. }
  rewrite X0, X1, X2.
  change (nth 8 (from_fields v0 v1 v2 v3 v4 [v5; v6; v7; v8; v9; v10]) 0) with v3.
  change (nth 9 (from_fields v0 v1 v2 v3 v4 [v5; v6; v7; v8; v9; v10]) 0) with v4.
  change (slice (from_fields v0 v1 v2 v3 v4 [v5; v6; v7; v8; v9; v10]) 10 16) with [v5; v6; v7; v8; v9; v10].
  cbn [flat_map]. rewrite app_nil_r. symmetry. exact SP.
Qed.

Lemma canon_inj : forall g1 g2, is_guid g1 -> is_guid g2 ->
  to_canonical_string g1 = to_canonical_string g2 -> g1 = g2.
Proof.
  intros g1 g2 H1 H2 E.
  assert (B : forall g, is_guid g -> build (to_canonical_string g) = g).
  { clear. intros g H. destruct (guid_shape g H) as (b0&b1&b2&b3&b4&b5&b6&b7&b8&b9&b10&b11&b12&b13&b14&b15&->&F).
    repeat match goal with X : Forall _ (_ :: _) |- _ => inversion X; clear X; subst end.
    set (g := [b0;b1;b2;b3;b4;b5;b6;b7;b8;b9;b10;b11;b12;b13;b14;b15]) in *.
    set (h := to_canonical_string g).
    assert (S0 : slice h 0 8 = add_hex (time_low g) 8) by reflexivity.
    assert (S1 : slice h 8 12 = add_hex (time_mid g) 4) by reflexivity.
    assert (S2 : slice h 12 16 = add_hex (time_hi g) 4) by reflexivity.
    assert (S3 : slice h 16 18 = add_hex b8 2) by reflexivity.
    assert (S4 : slice h 18 20 = add_hex b9 2) by reflexivity.
    assert (S5 : slice h 20 22 = add_hex b10 2) by reflexivity.
    assert (S6 : slice h 22 24 = add_hex b11 2) by reflexivity.
    assert (S7 : slice h 24 26 = add_hex b12 2) by reflexivity.
    assert (S8 : slice h 26 28 = add_hex b13 2) by reflexivity.
    assert (S9 : slice h 28 30 = add_hex b14 2) by reflexivity.
    assert (S10 : slice h 30 32 = add_hex b15 2) by reflexivity.
    unfold build. rewrite S0, S1, S2, S3, S4, S5, S6, S7, S8, S9, S10.
    assert (L0 : time_low g < 256 ^ N.of_nat 4) by (apply (le_val_lt [b0;b1;b2;b3]); repeat constructor; assumption).
    assert (L1 : time_mid g < 256 ^ N.of_nat 2) by (apply (le_val_lt [b4;b5]); repeat constructor; assumption).
    assert (L2 : time_hi g < 256 ^ N.of_nat 2) by (apply (le_val_lt [b6;b7]); repeat constructor; assumption).
    rewrite (parse_add_hex 8 32) by (assumption || (cbn; lia)).
    rewrite !(parse_add_hex 4 16) by (assumption || (cbn; lia)).
    rewrite !(parse_add_hex 2 8) by (assumption || (cbn; lia)).
    unfold from_fields.
    assert (E0 : le_bytes 4 (time_low g) = [b0;b1;b2;b3]) by (apply (le_bytes_val [b0;b1;b2;b3]); repeat constructor; assumption).
    assert (E1 : le_bytes 2 (time_mid g) = [b4;b5]) by (apply (le_bytes_val [b4;b5]); repeat constructor; assumption).
    assert (E2 : le_bytes 2 (time_hi g) = [b6;b7]) by (apply (le_bytes_val [b6;b7]); repeat constructor; assumption).
    rewrite E0, E1, E2. reflexivity. }
  rewrite <- (B g1 H1), <- (B g2 H2), E. reflexivity.
Qed.

Lemma try_ok_iff : forall s g, try_from_string s = Ok g <->
  is_guid g /\ exists ds, digits_of s ds /\ digits_of (guid_text g) ds.
Proof.
  intros s g. split.
  - intro H. unfold try_from_string in H.
    destruct (string_cases s) as [(ds & D & L)|[(pre & c & post & ds & -> & D & L & N1 & N2)|(pre & c & post & ds & -> & D & L & N1)]].
    + rewrite (scan_ok s 1 [] ds D) in H by (cbn [length]; lia). cbn [app] in H.
      destruct (Nat.eqb (length ds) EXPECTED_HEX_CHARS) eqn:E; [|discriminate H]. cbn [negb] in H.
      injection H as <-. apply Nat.eqb_eq in E.
      destruct (build_spec ds (digits_of_upper _ _ D) E) as [G C].
      split; [exact G|]. exists ds. split; [exact D|]. pose proof (text_digits _ G) as T. rewrite C in T. exact T.
    + rewrite (scan_bad pre c post ds) in H by assumption. discriminate H.
    + rewrite (scan_long pre c post ds) in H by assumption. discriminate H.
  - intros (G & ds & D & T). pose proof (digits_of_det _ _ _ T (text_digits g G)) as ->.
    unfold try_from_string. rewrite (scan_ok s 1 [] _ D) by (rewrite canon_len by exact G; cbn [length]; lia).
    cbn [app]. rewrite canon_len by exact G. cbn [negb Nat.eqb EXPECTED_HEX_CHARS]. f_equal.
    change (build (to_canonical_string g) = g).
    destruct (build_spec (to_canonical_string g) (canon_digits g) (canon_len g G)) as [G2 C2].
    apply canon_inj; assumption.
Qed.

Lemma try_cases : forall s,
  (exists g, try_from_string s = Ok g) \/ (exists e, try_from_string s = Err e).
Proof.
  intro s. unfold try_from_string.
  destruct (string_cases s) as [(ds & D & L)|[(pre & c & post & ds & -> & D & L & N1 & N2)|(pre & c & post & ds & -> & D & L & N1)]].
  - rewrite (scan_ok s 1 [] ds D) by (cbn [length]; lia).
    destruct (negb (Nat.eqb (length ([] ++ ds)) EXPECTED_HEX_CHARS)); eauto.
  - rewrite (scan_bad pre c post ds) by assumption. eauto.
  - rewrite (scan_long pre c post ds) by assumption. eauto.
Qed.

Lemma try_bad_iff : forall s p c, try_from_string s = Err (InvalidHexCharacter p c) <->
  exists pre post ds, s = pre ++ c :: post /\ p = S (length pre) /\ digits_of pre ds /\
    (length ds <= 32)%nat /\ ~ hexchar c /\ ~ filler c.
Proof.
  intros s p c. unfold try_from_string. split.
  - intro H.
    destruct (string_cases s) as [(ds & D & L)|[(pre & c' & post & ds & -> & D & L & N1 & N2)|(pre & c' & post & ds & -> & D & L & N1)]].
    + rewrite (scan_ok s 1 [] ds D) in H by (cbn [length]; lia).
      destruct (negb (Nat.eqb (length ([] ++ ds)) EXPECTED_HEX_CHARS)); discriminate H.
    + rewrite (scan_bad pre c' post ds) in H by assumption. injection H as <- <-.
      exists pre, post, ds. tauto.
    + rewrite (scan_long pre c' post ds) in H by assumption. discriminate H.
  - intros (pre & post & ds & -> & -> & D & L & N1 & N2).
    rewrite (scan_bad pre c post ds) by assumption. reflexivity.
Qed.

Lemma try_len_iff : forall s e n, try_from_string s = Err (InvalidLength e n) <->
  e = 32%nat /\
  ((exists ds, digits_of s ds /\ length ds = n /\ (n < 32)%nat) \/
   (n = 33%nat /\ exists pre c post ds, s = pre ++ c :: post /\ digits_of pre ds /\ length ds = 32%nat /\ hexchar c)).
Proof.
  intros s e n. unfold try_from_string. split.
  - intro H.
    destruct (string_cases s) as [(ds & D & L)|[(pre & c' & post & ds & -> & D & L & N1 & N2)|(pre & c' & post & ds & -> & D & L & N1)]].
    + rewrite (scan_ok s 1 [] ds D) in H by (cbn [length]; lia). cbn [app] in H.
      destruct (Nat.eqb (length ds) EXPECTED_HEX_CHARS) eqn:E; [discriminate H|]. cbn [negb] in H.
      injection H as <- <-. split; [reflexivity|]. left. exists ds.
      apply Nat.eqb_neq in E. unfold EXPECTED_HEX_CHARS in E. repeat split; auto. lia.
    + rewrite (scan_bad pre c' post ds) in H by assumption. discriminate H.
    + rewrite (scan_long pre c' post ds) in H by assumption. injection H as <- <-.
      split; [reflexivity|]. right. split; [reflexivity|]. exists pre, c', post, ds. tauto.
  - intros (-> & [(ds & D & <- & L)|(-> & pre & c & post & ds & -> & D & L & HX)]).
    + rewrite (scan_ok s 1 [] ds D) by (cbn [length]; lia). cbn [app].
      assert (E : Nat.eqb (length ds) EXPECTED_HEX_CHARS = false) by (apply Nat.eqb_neq; unfold EXPECTED_HEX_CHARS; lia).
      rewrite E. reflexivity.
    + rewrite (scan_long pre c post ds) by assumption. reflexivity.
Qed.

(** ** comparison *)
Lemma be_lt : forall bs, Forall (fun b => b < 256) bs -> be_value bs < 256 ^ N.of_nat (length bs).
Proof.
  induction 1 as [|b bs Hb H IH]; [cbn; lia|]. cbn [be_value length].
  rewrite Nat2N.inj_succ, N.pow_succ_r'. nia.
Qed.

Lemma cmp_be : forall a b, Forall (fun b => b < 256) a -> Forall (fun b => b < 256) b -> length a = length b ->
  guid_cmp a b = (be_value a ?= be_value b).
Proof.
  induction a as [|x a IH]; intros [|y b] Fa Fb L; try discriminate L; [reflexivity|].
  injection L as L. inversion Fa; inversion Fb; subst. cbn [guid_cmp be_value]. rewrite L.
  pose proof (be_lt a ltac:(assumption)) as A. pose proof (be_lt b ltac:(assumption)) as B. rewrite L in A.
  set (P := 256 ^ N.of_nat (length b)) in *. clearbody P.
  destruct (x ?= y) eqn:C.
  - apply N.compare_eq in C. subst y. rewrite IH by assumption.
    destruct (be_value a ?= be_value b) eqn:D; symmetry.
    + apply N.compare_eq in D. apply N.compare_eq_iff. lia.
    + apply N.compare_lt_iff in D. apply N.compare_lt_iff. apply N.add_lt_mono_l. exact D.
    + apply N.compare_gt_iff in D. apply N.compare_gt_iff. apply N.add_lt_mono_l. exact D.
  - change (x < y) in C. symmetry. apply N.compare_lt_iff.
    assert ((x + 1) * P <= y * P) by (apply N.mul_le_mono_r; lia). lia.
  - apply N.gt_lt in C. symmetry. apply N.compare_gt_iff.
    assert ((y + 1) * P <= x * P) by (apply N.mul_le_mono_r; lia). lia.
Qed.

Lemma guid_eq_iff : forall a b, guid_eq a b = true <-> a = b.
Proof.
  induction a as [|x a IH]; intros [|y b]; cbn [guid_eq]; try (split; [discriminate|discriminate]); [tauto|].
  rewrite andb_true_iff, IH, N.eqb_eq. split; [intros [-> ->]; reflexivity|intros [= -> ->]; auto].
Qed.

Lemma be_inj : forall a b, Forall (fun b => b < 256) a -> Forall (fun b => b < 256) b -> length a = length b ->
  be_value a = be_value b -> a = b.
Proof.
  induction a as [|x a IH]; intros [|y b] Fa Fb L E; try discriminate L; [reflexivity|].
  injection L as L. inversion Fa; inversion Fb; subst. cbn [be_value] in E. rewrite L in E.
  pose proof (be_lt a ltac:(assumption)) as A. pose proof (be_lt b ltac:(assumption)) as B. rewrite L in A.
  set (P := 256 ^ N.of_nat (length b)) in *. clearbody P.
  assert (x = y).
  { destruct (N.lt_trichotomy x y) as [C|[C|C]]; [exfalso|exact C|exfalso].
    - assert ((x + 1) * P <= y * P) by (apply N.mul_le_mono_r; lia). lia.
    - assert ((y + 1) * P <= x * P) by (apply N.mul_le_mono_r; lia). lia. }
  subst y. f_equal. apply IH; auto. lia.
Qed.
