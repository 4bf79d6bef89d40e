(** C26: GUID text round-trips, parsing accepts exactly the strings that spell 32 digits, errors name
    the first offence, and the order is the byte order. *)
From Verif Require Import Base.Prelude Guid.Model Guid.Spec Guid.Proofs.
Local Open Scope N_scope.

(** Display prints the registry format of the memory image. *)
Theorem guid_display_registry : forall g, is_guid g -> display g = guid_text g.
Proof. exact display_text. Qed.

(** Parsing what Display prints gives the same GUID back. *)
Theorem guid_round_trip : forall g, is_guid g -> try_from_string (display g) = Ok g.
Proof.
  intros g H. apply try_ok_iff. split; [exact H|]. exists (to_canonical_string g).
  rewrite display_text by exact H. split; apply text_digits; exact H.
Qed.

(** Distinct GUIDs print differently. *)
Theorem guid_display_injective : forall g1 g2, is_guid g1 -> is_guid g2 -> display g1 = display g2 -> g1 = g2.
Proof.
  intros g1 g2 H1 H2 E. pose proof (guid_round_trip g1 H1) as A. rewrite E, guid_round_trip in A by exact H2.
  congruence.
Qed.

(** A string is accepted, with value [g], exactly when it spells the digits of [g]'s canonical text,
    whatever the letter case and wherever dashes and ASCII blanks stand. *)
Theorem guid_parse_exact : forall s g, try_from_string s = Ok g <->
  is_guid g /\ exists ds, digits_of s ds /\ digits_of (guid_text g) ds.
Proof. exact try_ok_iff. Qed.

(** The error for a foreign character is given exactly when that character is the first offence, with
    its 1-based position. *)
Theorem guid_parse_bad_character : forall s p c, try_from_string s = Err (InvalidHexCharacter p c) <->
  exists pre post ds, s = pre ++ c :: post /\ p = S (length pre) /\ digits_of pre ds /\
    (length ds <= 32)%nat /\ ~ hexchar c /\ ~ filler c.
Proof. exact try_bad_iff. Qed.

(** The length error reports the number of digits when there are fewer than 32, and 33 as soon as a
    33rd digit is met. *)
Theorem guid_parse_bad_length : forall s e n, try_from_string s = Err (InvalidLength e n) <->
  e = 32%nat /\
  ((exists ds, digits_of s ds /\ length ds = n /\ (n < 32)%nat) \/
   (n = 33%nat /\ exists pre c post ds, s = pre ++ c :: post /\ digits_of pre ds /\ length ds = 32%nat /\ hexchar c)).
Proof. exact try_len_iff. Qed.

(** Parsing never panics. *)
Theorem guid_parse_total : forall s, try_from_string s <> Panic.
Proof. intro s. destruct (try_cases s) as [[g ->]|[e ->]]; discriminate. Qed.

(** Equality and order are those of the sixteen bytes read as one big-endian number. *)
Theorem guid_order : forall a b, is_guid a -> is_guid b ->
  guid_cmp a b = (be_value a ?= be_value b) /\
  (guid_eq a b = true <-> a = b) /\ (guid_cmp a b = Eq <-> a = b).
Proof.
  intros a b [La Fa] [Lb Fb]. assert (L : length a = length b) by congruence.
  split; [apply cmp_be; assumption|]. split; [apply guid_eq_iff|].
  rewrite cmp_be by assumption. rewrite N.compare_eq_iff. split; [apply be_inj; assumption|intros ->; reflexivity].
Qed.

(** [from_fields] and [as_fields] are inverse on in-range fields. *)
Theorem guid_fields : forall tl tm th ch cl nd,
  tl < 2 ^ 32 -> tm < 2 ^ 16 -> th < 2 ^ 16 -> ch < 256 -> cl < 256 -> is_guid (repeat 0 10 ++ nd) ->
  let g := from_fields tl tm th ch cl nd in
  is_guid g /\ time_low g = tl /\ time_mid g = tm /\ time_hi g = th /\ clk_hi g = ch /\ clk_low g = cl /\ node g = nd.
Proof.
  intros tl tm th ch cl nd H0 H1 H2 H3 H4 [L F]. cbn [repeat app length] in L.
  do 6 (destruct nd as [|? nd]; [discriminate L|]). destruct nd; [|discriminate L]. cbn [repeat app] in F.
  do 10 (inversion F as [|? ? _ F2]; clear F; subst; rename F2 into F).
  cbv zeta. split; [split|].
  - unfold from_fields. rewrite !app_length, !le_bytes_len. reflexivity.
  - unfold from_fields. repeat (apply Forall_app; split); try apply le_bytes_lt; auto.
  - repeat apply conj; try reflexivity.
    + exact (le_val_bytes 4 tl H0).
    + exact (le_val_bytes 2 tm H1).
    + exact (le_val_bytes 2 th H2).
Qed.

(** ** Witnesses *)
(** The image of 01234567-89AB-CDEF-1234-567890ABCDEF. *)
Definition ex_guid : list N := [103;69;35;1;171;137;239;205;18;52;86;120;144;171;205;239].
Example ex_guid_ok : is_guid ex_guid.
Proof. split; [reflexivity|repeat constructor]. Qed.
(** "01234567-89AB-CDEF-1234-567890ABCDEF" *)
Example ex_guid_display : display ex_guid =
  [48;49;50;51;52;53;54;55;45;56;57;65;66;45;67;68;69;70;45;49;50;51;52;45;53;54;55;56;57;48;65;66;67;68;69;70].
Proof. vm_compute. reflexivity. Qed.
(** Lower case, no dashes, surrounding blanks. *)
Example ex_guid_lower : try_from_string
  [32;48;49;50;51;52;53;54;55;56;57;97;66;99;68;69;102;49;50;51;52;53;54;55;56;57;48;97;98;99;100;101;102;10] = Ok ex_guid.
Proof. vm_compute. reflexivity. Qed.
Example ex_guid_bad : try_from_string [48;49;45;71;49] = Err (InvalidHexCharacter 4 71).
Proof. vm_compute. reflexivity. Qed.
Example ex_guid_short : try_from_string [48;49;45] = Err (InvalidLength 32 2).
Proof. vm_compute. reflexivity. Qed.
Example ex_guid_long : try_from_string (repeat 97 33 ++ [71]) = Err (InvalidLength 32 33).
Proof. vm_compute. reflexivity. Qed.
Example ex_guid_cmp : guid_cmp ex_guid (repeat 103 16) = Lt.
Proof. vm_compute. reflexivity. Qed.

Print Assumptions guid_display_registry.
Print Assumptions guid_round_trip.
Print Assumptions guid_display_injective.
Print Assumptions guid_parse_exact.
Print Assumptions guid_parse_bad_character.
Print Assumptions guid_parse_bad_length.
Print Assumptions guid_parse_total.
Print Assumptions guid_order.
Print Assumptions guid_fields.
