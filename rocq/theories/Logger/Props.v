(** What the serial logger writes. *)
From Verif Require Import Base.Prelude Logger.Spec Logger.Model.
From Coq Require Import Lia ZifyBool ZifyNat ZifyN String.
Local Open Scope N_scope.

(** ** Which records are written *)

Lemma starts_with_spec : forall p l, starts_with p l = true <-> is_prefix p l.
Proof.
  intros p. induction p as [|x p IH]; intros l; cbn [starts_with]; [split; [intros _; exists l; reflexivity | reflexivity]|]. destruct l as [|y l]; [split; [discriminate | intros [r R]; discriminate]|].
  rewrite Bool.andb_true_iff, N.eqb_eq, IH. split; [intros [-> [r ->]]; exists r; reflexivity | intros [r R]; cbn in R; split; [congruence | exists r; congruence]].
Qed.
(** C91: the first filter whose name the target starts with decides; without one, the logger's maximum. *)
Theorem c91_filter : forall g l target, enabled g l target = true <->
  (exists pre name x post, filters g = pre ++ (name, x) :: post /\ (forall n y, In (n, y) pre -> ~ is_prefix n target) /\ is_prefix name target /\ level_filter l <= x)
  \/ ((forall n y, In (n, y) (filters g) -> ~ is_prefix n target) /\ level_filter l <= max_level g).
Proof.
  intros g l target. unfold enabled. generalize (max_level g) as m. generalize (filters g) as fs. intros fs m. induction fs as [|[n x] fs IH]; cbn [find_filter].
  - rewrite N.leb_le. split; [intros H; right; split; [intros n y [] | exact H]|]. intros [(pre & n & x & post & E & _)|[_ H]]; [destruct pre; discriminate | exact H].
  - destruct (starts_with n target) eqn:S.
    + apply starts_with_spec in S. rewrite N.leb_le. split.
      * intros H. left. exists [], n, x, fs. split; [reflexivity|]. split; [intros ? ? []|]. split; assumption.
      * intros [(pre & n' & x' & post & E & P & Q & H)|[P H]]; [|exfalso; apply (P n x); [left; reflexivity | exact S]]. destruct pre as [|[n0 x0] pre]; cbn in E.
        { assert (x = x') by congruence. subst. exact H. }
        { exfalso. apply (P n x); [left; congruence | exact S]. }
    + assert (S' : ~ is_prefix n target) by (intros X; apply starts_with_spec in X; congruence). rewrite IH. split.
      * intros [(pre & n' & x' & post & E & P & Q & H)|[P H]].
        { left. exists ((n, x) :: pre), n', x', post. split; [rewrite E; reflexivity|]. split; [intros a b [I|I]; [assert (n = a) by congruence; subst; exact S' | apply (P a b I)]|]. split; assumption. }
        { right. split; [intros a b [I|I]; [assert (n = a) by congruence; subst; exact S' | apply (P a b I)] | exact H]. }
      * intros [(pre & n' & x' & post & E & P & Q & H)|[P H]].
        { destruct pre as [|[n0 x0] pre]; cbn in E; [assert (n = n') by congruence; subst; contradiction|]. left. exists pre, n', x', post. split; [congruence|]. split; [intros a b I; apply (P a b); right; exact I|]. split; assumption. }
        { right. split; [intros a b I; apply (P a b); right; exact I | exact H]. }
Qed.
(** C91: a limit of 0 admits nothing, 1 errors, 2 warnings too, and so on to 5, which admits all. *)
Theorem c91_severity : forall m f l target, enabled (Logger [] m f) l target = true <-> match l with Error => 1 | Warn => 2 | Info => 3 | Debug => 4 | Trace => 5 end <= m.
Proof. intros m f l target. unfold enabled. cbn [filters max_level find_filter]. rewrite N.leb_le. destruct l; reflexivity. Qed.
(** C91: what is not enabled leaves no trace on the port; what is, is written as the format has it. *)
Theorem c91_log : forall g r, (enabled g (r_level r) (r_target r) = true -> log g r = write (fmt g) r) /\ (enabled g (r_level r) (r_target r) = false -> log g r = []).
Proof. intros g r. unfold log. split; intros ->; reflexivity. Qed.
(** C91: raising a limit only adds records. *)
Theorem c91_monotone : forall fs m m' f l target, m <= m' -> enabled (Logger fs m f) l target = true -> enabled (Logger fs m' f) l target = true.
Proof. intros fs m m' f l target M. unfold enabled. cbn [filters max_level]. destruct (find_filter target fs); [exact (fun H => H)|]. lia. Qed.
(** Not so: that the filter for a module decides about it.  One earlier in the list with the beginning of the name does, however little it has to do with it. *)
Theorem c91_shadow_refuted : forall pre n x mid n' x' post m f l target, is_prefix n n' ->
  enabled (Logger (pre ++ (n, x) :: mid ++ (n', x') :: post) m f) l target = enabled (Logger (pre ++ (n, x) :: mid ++ post) m f) l target.
Proof.
  intros pre n x mid n' x' post m f l target [r R]. unfold enabled. cbn [filters max_level].
  assert (E : find_filter target (pre ++ (n, x) :: mid ++ (n', x') :: post) = find_filter target (pre ++ (n, x) :: mid ++ post)); [|rewrite E; reflexivity].
  induction pre as [|[a b] pre IH]; cbn [app find_filter]; [|rewrite IH; reflexivity]. destruct (starts_with n target) eqn:S; [reflexivity|].
  induction mid as [|[a b] mid IH]; cbn [app find_filter]; [|rewrite IH; reflexivity]. destruct (starts_with n' target) eqn:S'; [|reflexivity]. exfalso.
  apply starts_with_spec in S'. destruct S' as [w W]. assert (is_prefix n target) by (exists (r ++ w); rewrite W, R, <- app_assoc; reflexivity). apply starts_with_spec in H. congruence.
Qed.

(** ** JSON *)

Lemma read_plain : forall s r, Forall plain s -> read_string (s ++ 34 :: r) = Some (s, r).
Proof.
  intros s r H. induction H as [|c s (P1 & P2 & P3) H IH]; [reflexivity|]. cbn [app read_string]. rewrite (proj2 (N.eqb_neq _ _) P2), (proj2 (N.eqb_neq _ _) P3), (proj2 (N.ltb_ge _ _) P1), IH. reflexivity.
Qed.
Lemma dec_plain : forall fuel n acc, Forall plain acc -> Forall plain (dec_digits fuel n acc).
Proof.
  intros fuel. induction fuel as [|fuel IH]; intros n acc H; cbn [dec_digits]; [exact H|]. destruct (n <? 10) eqn:E; [constructor; [unfold plain; lia | exact H]|]. apply IH.
  pose proof (N.mod_lt n 10 ltac:(discriminate)). constructor; [unfold plain; lia | exact H].
Qed.
(** One member, with what comes before it. *)
Lemma read_member : forall fuel k v sep r, Forall plain k -> Forall plain v -> read_members (S fuel) (32 :: 34 :: k ++ 34 :: 58 :: 32 :: 34 :: v ++ 34 :: sep :: r) =
  if sep =? 125 then Some ([(k, v)], r) else if sep =? 44 then match read_members fuel r with Some (m, q) => Some ((k, v) :: m, q) | None => None end else match skip_ws (sep :: r) with c :: r => if c =? 125 then Some ([(k, v)], r) else if c =? 44 then match read_members fuel r with Some (m, q) => Some ((k, v) :: m, q) | None => None end else None | [] => None end.
Proof.
  intros fuel k v sep r K V. cbn [read_members]. unfold read_quoted at 1. cbn [skip_ws]. change ((32 =? 32) || (32 =? 9) || (32 =? 10) || (32 =? 13)) with true. cbv iota. cbn [skip_ws].
  change ((34 =? 32) || (34 =? 9) || (34 =? 10) || (34 =? 13)) with false. cbv iota. cbn [expect]. change (34 =? 34) with true. cbv iota. rewrite (read_plain _ _ K). cbn [skip_ws].
  change ((58 =? 32) || (58 =? 9) || (58 =? 10) || (58 =? 13)) with false. cbv iota. cbn [expect]. change (58 =? 58) with true. cbv iota. unfold read_quoted. cbn [skip_ws]. change ((32 =? 32) || (32 =? 9) || (32 =? 10) || (32 =? 13)) with true. cbv iota. cbn [skip_ws].
  change ((34 =? 32) || (34 =? 9) || (34 =? 10) || (34 =? 13)) with false. cbv iota. cbn [expect]. change (34 =? 34) with true. cbv iota. rewrite (read_plain _ _ V).
  destruct (sep =? 125) eqn:S1; [apply N.eqb_eq in S1; subst sep; reflexivity|]. destruct (sep =? 44) eqn:S2; [apply N.eqb_eq in S2; subst sep; reflexivity|]. reflexivity.
Qed.
Lemma plain_codes : forall s, forallb (fun c => (32 <=? c) && negb (c =? 34) && negb (c =? 92)) (codes s) = true -> Forall plain (codes s).
Proof. intros s H. apply Forall_forall. intros c I. rewrite forallb_forall in H. specialize (H c I). unfold plain. lia. Qed.
Lemma level_plain : forall l, Forall plain (level_text l).
Proof. intros l. destruct l; apply plain_codes; reflexivity. Qed.
(** Four members and the last. *)
Lemma read_five : forall n k1 v1 k2 v2 k3 v3 k4 v4 k5 v5 r, Forall (fun p => Forall plain (fst p) /\ Forall plain (snd p)) [(k1, v1); (k2, v2); (k3, v3); (k4, v4); (k5, v5)] ->
  read_members (S (S (S (S (S n))))) (32 :: 34 :: k1 ++ 34 :: 58 :: 32 :: 34 :: v1 ++ 34 :: 44 :: 32 :: 34 :: k2 ++ 34 :: 58 :: 32 :: 34 :: v2 ++ 34 :: 44 :: 32 :: 34 :: k3 ++ 34 :: 58 :: 32 :: 34 :: v3 ++ 34 :: 44
    :: 32 :: 34 :: k4 ++ 34 :: 58 :: 32 :: 34 :: v4 ++ 34 :: 44 :: 32 :: 34 :: k5 ++ 34 :: 58 :: 32 :: 34 :: v5 ++ 34 :: 125 :: r) = Some ([(k1, v1); (k2, v2); (k3, v3); (k4, v4); (k5, v5)], r).
Proof.
  intros n k1 v1 k2 v2 k3 v3 k4 v4 k5 v5 r H. repeat match goal with X : Forall _ (_ :: _) |- _ => inversion X; clear X; subst end. cbn [fst snd] in *.
  repeat match goal with X : _ /\ _ |- _ => destruct X end.
  rewrite read_member by assumption. change (44 =? 125) with false. change (44 =? 44) with true. cbv iota. rewrite read_member by assumption. change (44 =? 125) with false. change (44 =? 44) with true. cbv iota.
  rewrite read_member by assumption. change (44 =? 125) with false. change (44 =? 44) with true. cbv iota. rewrite read_member by assumption. change (44 =? 125) with false. change (44 =? 44) with true. cbv iota.
  rewrite read_member by assumption. reflexivity.
Qed.
(** A space before the first member makes no difference. *)
Lemma members_space : forall fuel l, read_members fuel (32 :: l) = read_members fuel l.
Proof. intros fuel l. destruct fuel; reflexivity. Qed.
(** C91, for text without quotes, backslashes and control characters: a record in the verbose format is read back, member by member. *)
Theorem c91_verbose_partial : forall r, Forall plain (r_target r) -> Forall plain (r_args r) -> (forall f, r_file r = Some f -> Forall plain f) ->
  read_object (write VerboseJson r) = Some [(codes "level", level_text (r_level r)); (codes "target", r_target r); (codes "message", r_args r);
    (codes "file", match r_file r with Some f => f | None => codes "unknown" end); (codes "line", dec (match r_line r with Some n => n | None => 0 end))].
Proof.
  intros r T A F. assert (FP : Forall plain (file_text r)) by (unfold file_text; destruct (r_file r) as [f|]; [apply F; reflexivity | apply plain_codes; reflexivity]).
  assert (LP : Forall plain (line_text r)) by (apply dec_plain; constructor). pose proof (level_plain (r_level r)) as VP.
  change (match r_file r with Some f => f | None => codes "unknown" end) with (file_text r). change (dec (match r_line r with Some n => n | None => 0 end)) with (line_text r).
  unfold write. generalize dependent (file_text r). generalize dependent (line_text r). generalize dependent (level_text (r_level r)). generalize dependent (r_args r). generalize dependent (r_target r). clear F.
  intros t T a A v V l L f FF. set (body := 34 :: codes "level" ++ 34 :: 58 :: 32 :: 34 :: v ++ 34 :: 44 :: 32 :: 34 :: codes "target" ++ 34 :: 58 :: 32 :: 34 :: t ++ 34 :: 44 :: 32 :: 34 :: codes "message" ++ 34 :: 58 :: 32 :: 34 :: a ++ 34 :: 44
    :: 32 :: 34 :: codes "file" ++ 34 :: 58 :: 32 :: 34 :: f ++ 34 :: 44 :: 32 :: 34 :: codes "line" ++ 34 :: 58 :: 32 :: 34 :: l ++ 34 :: 125 :: [10]).
  match goal with |- read_object ?x = _ => change x with (123 :: body) end. unfold read_object. cbn [skip_ws]. change ((123 =? 32) || (123 =? 9) || (123 =? 10) || (123 =? 13)) with false. cbv iota. cbn [expect]. change (123 =? 123) with true. cbv iota.
  assert (X : expect 125 (skip_ws body) = None) by reflexivity. rewrite X. assert (exists n, List.length body = S (S (S (S (S n))))) as [n ->] by (eexists; reflexivity).
  rewrite <- (members_space _ body). unfold body. rewrite read_five; [reflexivity|]. repeat (apply Forall_cons; [split; cbn [fst snd]; [apply plain_codes; reflexivity | assumption]|]). apply Forall_nil.
Qed.
(** Not so: the other JSON format.  No record at all can be read: there is no comma between the two members. *)
Theorem c91_json_refuted : forall r, read_object (write Json r) = None.
Proof. intros r. unfold write. destruct (r_level r); reflexivity. Qed.
Lemma read_newline : forall pre post, Forall plain pre -> read_string (pre ++ 10 :: post) = None.
Proof.
  intros pre post H. induction H as [|c s (P1 & P2 & P3) H IH]; [reflexivity|]. cbn [app read_string]. rewrite (proj2 (N.eqb_neq _ _) P2), (proj2 (N.eqb_neq _ _) P3), (proj2 (N.ltb_ge _ _) P1), IH. reflexivity.
Qed.
(** Not so: text of any kind in the verbose format.  A message of two lines cannot be read … *)
Theorem c91_newline_refuted : forall r pre post, Forall plain (r_target r) -> Forall plain pre -> r_args r = pre ++ 10 :: post -> read_object (write VerboseJson r) = None.
Proof.
  intros r pre post T P A. unfold write. rewrite A. generalize (file_text r) (line_text r). intros f l. pose proof (level_plain (r_level r)) as V. generalize dependent (level_text (r_level r)). generalize dependent (r_target r). intros t T v V.
  set (rest := post ++ q ++ codes ", " ++ q ++ codes "file" ++ q ++ codes ": " ++ q ++ f ++ q ++ codes ", " ++ q ++ codes "line" ++ q ++ codes ": " ++ q ++ l ++ q ++ codes "}" ++ nl).
  set (body := 34 :: codes "level" ++ 34 :: 58 :: 32 :: 34 :: v ++ 34 :: 44 :: 32 :: 34 :: codes "target" ++ 34 :: 58 :: 32 :: 34 :: t ++ 34 :: 44 :: 32 :: 34 :: codes "message" ++ 34 :: 58 :: 32 :: 34 :: pre ++ 10 :: rest).
  match goal with |- read_object ?x = _ => replace x with (123 :: body) by (unfold body, rest; cbn [codes app q nl]; rewrite <- !app_assoc; reflexivity) end.
  unfold read_object. cbn [skip_ws]. change ((123 =? 32) || (123 =? 9) || (123 =? 10) || (123 =? 13)) with false. cbv iota. cbn [expect]. change (123 =? 123) with true. cbv iota.
  assert (X : expect 125 (skip_ws body) = None) by reflexivity. rewrite X. assert (exists n, List.length body = S (S (S n))) as [n ->] by (eexists; reflexivity). rewrite <- (members_space _ body). unfold body.
  rewrite read_member by (assumption || (apply plain_codes; reflexivity)). change (44 =? 125) with false. change (44 =? 44) with true. cbv iota.
  rewrite read_member by (assumption || (apply plain_codes; reflexivity)). change (44 =? 125) with false. change (44 =? 44) with true. cbv iota.
  assert (Y : read_members (S n) (32 :: 34 :: codes "message" ++ 34 :: 58 :: 32 :: 34 :: pre ++ 10 :: rest) = None); [|rewrite Y; reflexivity].
  cbn [read_members]. match goal with |- match ?x with _ => _ end = _ => assert (Z : x = Some (codes "message", 58 :: 32 :: 34 :: pre ++ 10 :: rest)) by reflexivity; rewrite Z end. cbn [skip_ws].
  change ((58 =? 32) || (58 =? 9) || (58 =? 10) || (58 =? 13)) with false. cbv iota. cbn [expect]. change (58 =? 58) with true. cbv iota. unfold read_quoted. cbn [skip_ws]. change ((32 =? 32) || (32 =? 9) || (32 =? 10) || (32 =? 13)) with true. cbv iota. cbn [skip_ws].
  change ((34 =? 32) || (34 =? 9) || (34 =? 10) || (34 =? 13)) with false. cbv iota. cbn [expect]. change (34 =? 34) with true. cbv iota. rewrite (read_newline _ _ P). reflexivity.
Qed.
(** … and one with quotes can say what it likes about the other members. *)
Theorem c91_forged_refuted : exists r m, read_object (write VerboseJson r) = Some m /\ r_level r = Info /\ In (codes "level", codes "ERROR") m.
Proof.
  exists (Rec Info (codes "t") (codes "x" ++ q ++ codes ", " ++ q ++ codes "level" ++ q ++ codes ": " ++ q ++ codes "ERROR") None None). eexists. split; [vm_compute; reflexivity|]. split; [reflexivity|]. vm_compute. tauto.
Qed.

(** ** Lines *)

Lemma newlines_app : forall a b, newlines (a ++ b) = (newlines a + newlines b)%nat.
Proof. intros a b. unfold newlines. apply count_occ_app. Qed.
Lemma dec_lines : forall fuel n acc, newlines (dec_digits fuel n acc) = newlines acc.
Proof.
  intros fuel. induction fuel as [|fuel IH]; intros n acc; cbn [dec_digits]; [reflexivity|]. unfold newlines in *. destruct (n <? 10); [|rewrite IH]; (rewrite count_occ_cons_neq; [reflexivity | lia]).
Qed.
(** C91: a record is a line: it ends with a line feed, and has no other but those of its own text. *)
Theorem c91_lines : forall f r, (exists t, write f r = t ++ [10]) /\ newlines (write f r) = S (newlines (r_args r)
  + match f, r_level r with Standard, Trace => newlines (file_text r) | VerboseJson, _ => newlines (r_target r) + newlines (file_text r) | _, _ => 0 end)%nat.
Proof.
  intros f r. split.
  - unfold write, nl. destruct f; [destruct (r_level r)| |]; eexists; rewrite !app_assoc; reflexivity.
  - assert (LL : newlines (line_text r) = 0%nat) by apply dec_lines. assert (VL : forall l, newlines (level_text l) = 0%nat) by (intros []; reflexivity). assert (VR : newlines (level_text (r_level r)) = 0%nat) by apply VL. unfold write. destruct f; [destruct (r_level r)| |]; rewrite !newlines_app, ?LL, ?VR, ?VL;
      repeat match goal with |- context [newlines (codes ?s)] => change (newlines (codes s)) with 0%nat end; change (newlines nl) with 1%nat; change (newlines q) with 0%nat; lia.
Qed.
(** Not so: that lines tell records apart.  One record can look like two. *)
Theorem c91_two_refuted : forall a b t t' t'', write Standard (Rec Info t (a ++ 10 :: codes "ERROR - " ++ b) None None) = write Standard (Rec Info t' a None None) ++ write Standard (Rec Error t'' b None None).
Proof. intros. unfold write. cbn [r_level r_args level_text]. unfold nl. rewrite <- !app_assoc. reflexivity. Qed.

(** ** Contents *)

(** C91: a record in the standard format begins with the name of its level, and the message is there as it is; a record of the lowest level says where it is from, too. *)
Theorem c91_standard : forall r, write Standard r =
  match r_level r with
  | Error => codes "ERROR - " ++ r_args r ++ [10]
  | Warn => codes "WARN - " ++ r_args r ++ [10]
  | Info => codes "INFO - " ++ r_args r ++ [10]
  | Debug => codes "DEBUG - " ++ r_args r ++ [10]
  | Trace => codes "TRACE - " ++ match r_file r with Some f => f | None => codes "unknown" end ++ codes ":" ++ dec (match r_line r with Some n => n | None => 0 end) ++ codes ": " ++ r_args r ++ [10]
  end.
Proof. intros r. unfold write. destruct (r_level r); reflexivity. Qed.
(** C91: so the text tells level and message. *)
Theorem c91_standard_read : forall r r', r_level r <> Trace -> write Standard r = write Standard r' -> r_level r = r_level r' /\ r_args r = r_args r'.
Proof.
  intros r r' T H. rewrite !c91_standard in H. destruct (r_level r), (r_level r'); try contradiction; cbn [codes app Ascii.N_of_ascii] in H; try (exfalso; vm_compute in H; discriminate);
    (split; [reflexivity|]); repeat match type of H with _ :: _ = _ :: _ => apply (f_equal (@tl N)) in H; cbn [tl] in H end; exact (app_inv_tail _ _ _ H).
Qed.
(** C91: line numbers are decimal. *)
Theorem c91_number : forall n, n < 2 ^ 32 -> fold_left (fun a c => a * 10 + (c - 48)) (dec n) 0 = n /\ Forall (fun c => 48 <= c <= 57) (dec n).
Proof.
  assert (G : forall fuel n acc, n < 10 ^ N.of_nat fuel -> (0 < fuel)%nat -> exists k, fold_left (fun a c => a * 10 + (c - 48)) (dec_digits fuel n acc) 0 = fold_left (fun a c => a * 10 + (c - 48)) acc n
    /\ (Forall (fun c => 48 <= c <= 57) acc -> Forall (fun c => 48 <= c <= 57) (dec_digits fuel n acc)) /\ k = 0).
  { intros fuel. induction fuel as [|fuel IH]; intros n acc H P; [lia|]. exists 0. cbn [dec_digits]. destruct (n <? 10) eqn:E.
    - cbn [fold_left]. split; [f_equal; lia|]. split; [|reflexivity]. intros F. constructor; [lia | exact F].
    - assert (FP : (0 < fuel)%nat) by (destruct fuel; [change (10 ^ N.of_nat 1) with 10 in H; lia | lia]). rewrite Nnat.Nat2N.inj_succ, N.pow_succ_r' in H.
      assert (H' : n / 10 < 10 ^ N.of_nat fuel) by (apply N.div_lt_upper_bound; [discriminate | exact H]). destruct (IH (n / 10) (48 + n mod 10 :: acc) H' FP) as (_ & A & B & _). pose proof (N.div_mod n 10 ltac:(discriminate)) as DM. pose proof (N.mod_lt n 10 ltac:(discriminate)) as ML.
      split; [rewrite A; cbn [fold_left]; f_equal; lia|]. split; [|reflexivity]. intros F. apply B. constructor; [lia | exact F]. }
  intros n H. destruct (G 10%nat n []) as (_ & A & B & _); [change (10 ^ N.of_nat 10) with 10000000000; change (2 ^ 32) with 4294967296 in H; lia | lia|]. split; [exact A | apply B; constructor].
Qed.
(** C91: in the JSON formats levels have the same names. *)
Theorem c91_names : level_text Error = codes "ERROR" /\ level_text Warn = codes "WARN" /\ level_text Info = codes "INFO" /\ level_text Debug = codes "DEBUG" /\ level_text Trace = codes "TRACE".
Proof. repeat split. Qed.

(** ** Cases *)

Example demo_verbose : read_object (write VerboseJson (Rec Warn (codes "dxe") (codes "low memory") (Some (codes "a.rs")) (Some 120))) =
  Some [(codes "level", codes "WARN"); (codes "target", codes "dxe"); (codes "message", codes "low memory"); (codes "file", codes "a.rs"); (codes "line", codes "120")].
Proof. vm_compute. reflexivity. Qed.
Example demo_filter : let g := Logger [(codes "patina_dxe", 2); (codes "patina_dxe_core::gcd", 5)] 4 Standard in
  enabled g Debug (codes "patina_dxe_core::gcd") = false /\ enabled g Debug (codes "goblin") = true /\ enabled g Warn (codes "patina_dxe_core") = true.
Proof. vm_compute. repeat split. Qed.

Print Assumptions c91_filter.
Print Assumptions c91_severity.
Print Assumptions c91_log.
Print Assumptions c91_monotone.
Print Assumptions c91_shadow_refuted.
Print Assumptions c91_verbose_partial.
Print Assumptions c91_json_refuted.
Print Assumptions c91_newline_refuted.
Print Assumptions c91_forged_refuted.
Print Assumptions c91_lines.
Print Assumptions c91_two_refuted.
Print Assumptions c91_standard.
Print Assumptions c91_standard_read.
Print Assumptions c91_number.
Print Assumptions c91_names.
