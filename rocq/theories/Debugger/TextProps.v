(** The debugger's text: what a person who debugs relies on. *)
From Verif Require Import Base.Prelude Debugger.TextModel Debugger.TextSpec.
From Coq Require Import Lia ZifyBool ZifyNat ZifyN.
Local Open Scope N_scope.

Lemma str_eqb_eq : forall a b, str_eqb a b = true <-> a = b.
Proof.
  induction a as [|x a IH]; intros [|y b]; cbn; try (split; congruence). rewrite Bool.andb_true_iff, IH, N.eqb_eq. split; [intros [-> ->]; reflexivity | intros E; injection E; auto].
Qed.

(** ** Output *)

Lemma flush_text : forall b, concat (b_out (flush b)) ++ b_held (flush b) = concat (b_out b) ++ b_held b /\ b_held (flush b) = [] /\ b_skip (flush b) = b_skip b.
Proof.
  intros [h s o]. unfold flush. cbn [b_held b_skip b_out]. destruct h as [|x h]; cbn [b_held b_skip b_out]; [auto|].
  split; [|auto]. rewrite concat_app. cbn [concat]. now rewrite !app_nil_r.
Qed.
Lemma write_text : forall n b s, 0 < n -> N.of_nat (length (b_held b)) <= n ->
  exists b', write_str n b s = Ok b' /\ N.of_nat (length (b_held b')) <= n /\ b_skip b' = b_skip b - N.of_nat (length s)
    /\ concat (b_out b') ++ b_held b' = concat (b_out b) ++ b_held b ++ skipn (N.to_nat (b_skip b)) s.
Proof.
  intros n b s N0 H. unfold write_str. destruct ((0 <? b_skip b) && (N.of_nat (length s) <=? b_skip b)) eqn:E.
  - eexists. split; [reflexivity|]. cbn [b_held b_skip b_out]. split; [exact H|]. split; [reflexivity|]. rewrite skipn_all2 by lia. now rewrite app_nil_r.
  - set (data := if 0 <? b_skip b then skipn (N.to_nat (b_skip b)) s else s).
    set (b1 := if 0 <? b_skip b then Mbuf (b_held b) 0 (b_out b) else b).
    assert (D : data = skipn (N.to_nat (b_skip b)) s) by (unfold data; destruct (0 <? b_skip b) eqn:Z; [reflexivity|]; replace (N.to_nat (b_skip b)) with 0%nat by lia; reflexivity).
    assert (B1 : b_held b1 = b_held b /\ b_out b1 = b_out b /\ b_skip b1 = 0 /\ b_skip b - N.of_nat (length s) = 0).
    { unfold b1. destruct (0 <? b_skip b) eqn:Z; cbn [b_held b_out b_skip]; repeat split; lia. }
    destruct B1 as (B1 & B2 & B3 & B4). rewrite <- D, <- B1, <- B2, B4. rewrite <- B1 in H. clearbody data b1. clear D E B1 B2 B4.
    destruct (N.of_nat (length data) <? n) eqn:F.
    + unfold usub. destruct (N.of_nat (length (b_held b1)) <=? n) eqn:G; [|lia]. cbn [bind].
      destruct (flush_text b1) as (F1 & F2 & F3).
      destruct (n - N.of_nat (length (b_held b1)) <? N.of_nat (length data)) eqn:R.
      * rewrite F2. cbn [length N.of_nat]. destruct (n <? 0 + N.of_nat (length data)) eqn:P; [lia|]. eexists. split; [reflexivity|]. cbn [b_held b_skip b_out app].
        split; [lia|]. split; [rewrite F3; exact B3|]. rewrite F2, app_nil_r in F1. rewrite F1, <- app_assoc. reflexivity.
      * destruct (n <? N.of_nat (length (b_held b1)) + N.of_nat (length data)) eqn:P; [lia|]. eexists. split; [reflexivity|]. cbn [b_held b_skip b_out].
        split; [rewrite app_length; lia|]. split; [exact B3|]. reflexivity.
    + destruct (flush_text b1) as (F1 & F2 & F3). eexists. split; [reflexivity|]. cbn [b_held b_skip b_out]. rewrite F2. cbn [length]. split; [lia|]. split; [rewrite F3; exact B3|].
      rewrite F2, app_nil_r in F1. rewrite concat_app, F1. cbn [concat]. rewrite !app_nil_r, <- app_assoc. reflexivity.
Qed.
Lemma skipn_app_sub : forall {A} (k : nat) (a b : list A), skipn k (a ++ b) = skipn k a ++ skipn (k - length a) b.
Proof. intros. apply skipn_app. Qed.
Lemma write_all_text : forall n l b, 0 < n -> N.of_nat (length (b_held b)) <= n ->
  exists b', write_all n b l = Ok b' /\ concat (b_out b') ++ b_held b' = concat (b_out b) ++ b_held b ++ skipn (N.to_nat (b_skip b)) (concat l).
Proof.
  intros n. induction l as [|s l IH]; intros b N0 H.
  - cbn. exists b. split; [reflexivity|]. rewrite skipn_nil, app_nil_r. reflexivity.
  - cbn [write_all]. destruct (write_text n b s N0 H) as (b1 & W & H1 & S1 & T1). rewrite W. cbn [bind].
    destruct (IH b1 N0 H1) as (b2 & W2 & T2). exists b2. split; [exact W2|]. rewrite T2. cbn [concat]. rewrite skipn_app_sub.
    rewrite app_assoc, T1, <- !app_assoc. do 3 f_equal. rewrite S1. do 2 f_equal. lia.
Qed.

(** C77: what a command writes arrives, whole and in order, whatever the pieces it is written in. *)
Theorem c77_output : forall run t rest, ~ is_offset_token t ->
  exists out, monitor run (t :: rest) = Ok out /\ concat out = concat (run (t :: rest)).
Proof.
  intros run t rest NO. unfold monitor.
  assert (C : str_eqb (firstn 2 t) [79; 91] && str_eqb (skipn (length t - 1) t) [93] = false).
  { destruct (str_eqb (firstn 2 t) [79; 91] && str_eqb (skipn (length t - 1) t) [93]) eqn:C; [|reflexivity]. exfalso. apply NO.
    apply Bool.andb_true_iff in C. destruct C as [C1 C2]. apply str_eqb_eq in C1. apply str_eqb_eq in C2.
    destruct t as [|x [|y t]]; try discriminate. cbn in C1. injection C1 as -> ->. exists (firstn (length t - 1) t). unfold offset_token. cbn [app]. do 2 f_equal.
    destruct t as [|z t]; [cbn in C2; discriminate|]. rewrite <- (firstn_skipn (length (z :: t) - 1) (z :: t)) at 1. f_equal. cbn [length] in *.
    replace (S (S (S (length t))) - 1)%nat with (S (S (length t))) in C2 by lia. cbn [skipn] in C2. replace (S (length t) - 1)%nat with (length t) by lia. exact C2. }
  rewrite C. destruct (write_all_text 128 (run (t :: rest)) (Mbuf [] 0 []) ltac:(lia) ltac:(cbn; lia)) as (b & W & T). rewrite W. cbn [bind].
  eexists. split; [reflexivity|]. destruct (flush_text b) as (F1 & F2 & _). rewrite F2, app_nil_r in F1. rewrite F1, T. reflexivity.
Qed.
Lemma parse_digits_ok : forall l acc, digits l -> fold_left (fun a c => 10 * a + (c - 48)) l acc < two64 -> parse_digits acc l = Some (fold_left (fun a c => 10 * a + (c - 48)) l acc).
Proof.
  assert (M : forall l acc, acc <= fold_left (fun a c => 10 * a + (c - 48)) l acc).
  { induction l as [|c l IH]; intros acc; [cbn; lia|]. cbn [fold_left]. etransitivity; [|apply IH]. lia. }
  induction l as [|c l IH]; intros acc D V; [reflexivity|]. inversion D as [|? ? C D']; subst. cbn [parse_digits fold_left] in *.
  destruct ((48 <=? c) && (c <=? 57)) eqn:E; [|lia]. cbv zeta. pose proof (M l (10 * acc + (c - 48))) as ML.
  destruct (10 * acc + (c - 48) <? two64) eqn:F; [|lia]. apply IH; assumption.
Qed.
(** C77: with "O[k]" in front, the same from byte [k] on. *)
Theorem c77_offset : forall run ds rest, digits ds -> ds <> [] -> value ds < two64 ->
  exists out, monitor run (offset_token ds :: rest) = Ok out /\ concat out = skipn (N.to_nat (value ds)) (concat (run rest)).
Proof.
  intros run ds rest D NE V. unfold monitor, offset_token. cbn [app firstn].
  assert (L : length (79 :: 91 :: ds ++ [93]) = (3 + length ds)%nat) by (cbn [length]; rewrite app_length; cbn [length]; lia).
  assert (C : str_eqb [79; 91] [79; 91] && str_eqb (skipn (length (79 :: 91 :: ds ++ [93]) - 1) (79 :: 91 :: ds ++ [93])) [93] = true).
  { rewrite L. replace (3 + length ds - 1)%nat with (S (S (length ds))) by lia. cbn [skipn]. rewrite skipn_app, skipn_all, Nat.sub_diag. reflexivity. }
  rewrite C. rewrite L. replace (3 + length ds - 3)%nat with (length ds) by lia. cbn [skipn]. rewrite firstn_app, firstn_all, Nat.sub_diag. cbn [firstn]. rewrite app_nil_r.
  assert (P : parse_usize ds = Some (value ds)).
  { unfold parse_usize. destruct ds as [|c ds]; [congruence|]. inversion D as [|? ? CD D']; subst.
    assert (X : forall {A} (u v : A), match c with 43 => u | _ => v end = v).
    { intros A u v. destruct c as [|p]; [reflexivity|]. do 6 (destruct p as [p|p|]; try reflexivity). all: cbn in CD; lia. }
    rewrite X. apply parse_digits_ok; assumption. }
  rewrite P. destruct (write_all_text 128 (run rest) (Mbuf [] (value ds) []) ltac:(lia) ltac:(cbn; lia)) as (b & W & T). rewrite W. cbn [bind].
  eexists. split; [reflexivity|]. destruct (flush_text b) as (F1 & F2 & _). rewrite F2, app_nil_r in F1. rewrite F1, T. reflexivity.
Qed.

(** ** The description *)

Lemma description_ok : forall dbg doc offset n room, offset + n < two64 ->
  description dbg doc offset n room = Ok (firstn (N.to_nat (N.min n room)) (skipn (N.to_nat offset) doc)).
Proof.
  intros dbg doc offset n room B. unfold description. destruct (N.of_nat (length doc) <=? offset) eqn:E.
  - rewrite skipn_all2 by lia. now rewrite firstn_nil.
  - unfold uadd. destruct (offset + n <? two64) eqn:F; [|lia]. cbn [bind].
    destruct (N.min (offset + n) (N.of_nat (length doc)) <? offset) eqn:G; [lia|]. f_equal. rewrite firstn_firstn, firstn_length, skipn_length.
    set (l := skipn (N.to_nat offset) doc). assert (L : length l = (length doc - N.to_nat offset)%nat) by apply skipn_length.
    destruct (Nat.le_gt_cases (length l) (N.to_nat (N.min n room))) as [C|C].
    + rewrite !firstn_all2 by lia. reflexivity.
    + f_equal. lia.
Qed.
(** C77: a piece is the part of the document that was asked for, as far as there is room. *)
Theorem c77_piece : forall dbg doc offset n room, offset + n < two64 ->
  description dbg doc offset n room = Ok (firstn (N.to_nat (N.min n room)) (skipn (N.to_nat offset) doc)).
Proof. exact description_ok. Qed.
(** C77: a client that fetches pieces until one is empty has the document. *)
Theorem c77_document : forall dbg doc sizes, Forall (fun s => 0 < fst s /\ 0 < snd s /\ N.of_nat (length doc) + fst s < two64) sizes -> (length doc < length sizes)%nat ->
  fetch dbg doc sizes 0 = Ok doc.
Proof.
  intros dbg doc sizes F L.
  assert (G : forall sizes off, Forall (fun s => 0 < fst s /\ 0 < snd s /\ N.of_nat (length doc) + fst s < two64) sizes -> (N.to_nat off <= length doc)%nat ->
    (length doc - N.to_nat off < length sizes)%nat -> fetch dbg doc sizes off = Ok (skipn (N.to_nat off) doc)).
  { clear sizes F L. induction sizes as [|[n room] sizes IH]; intros off F O L; [cbn in L; lia|]. inversion F as [|? ? (F1 & F2 & F3) F']; subst. cbn [fst snd] in *.
    cbn [fetch]. rewrite description_ok by lia. cbn [bind]. set (l := skipn (N.to_nat off) doc). assert (LL : length l = (length doc - N.to_nat off)%nat) by apply skipn_length.
    destruct (firstn (N.to_nat (N.min n room)) l) as [|x p] eqn:E.
    - destruct l as [|y l]; [reflexivity|]. destruct (N.to_nat (N.min n room)) eqn:Z; [lia | discriminate].
    - assert (PL : length (x :: p) = Nat.min (N.to_nat (N.min n room)) (length l)) by (rewrite <- E; apply firstn_length).
      assert (P1 : (1 <= length (x :: p) <= length l)%nat) by (rewrite PL; cbn [length] in PL; lia).
      rewrite (IH (off + N.of_nat (length (x :: p)))); [| exact F' | lia | cbn [length] in L |- *; cbn [length] in P1; lia]. cbn [bind]. f_equal.
      rewrite <- E at 1. rewrite N2Nat.inj_add, Nat2N.id. replace (N.to_nat off + length (x :: p))%nat with (length (x :: p) + N.to_nat off)%nat by lia.
      assert (SK : forall k (d : str), skipn (k + N.to_nat off) d = skipn k (skipn (N.to_nat off) d)).
      { clear. intros k d. rewrite Nat.add_comm. generalize (N.to_nat off) as j. intros j. revert d. induction j as [|j IHj]; intros d; [reflexivity|].
        destruct d as [|y d]; [now rewrite !skipn_nil|]. cbn [Nat.add skipn]. apply IHj. }
      rewrite SK. fold l.
      assert (EQ : firstn (N.to_nat (N.min n room)) l = firstn (length (x :: p)) l).
      { rewrite PL. destruct (Nat.le_gt_cases (length l) (N.to_nat (N.min n room))) as [C|C]; [rewrite Nat.min_r, firstn_all, firstn_all2 by lia; reflexivity | rewrite Nat.min_l by lia; reflexivity]. }
      rewrite EQ. apply firstn_skipn. }
  rewrite (G sizes 0 F) by (change (N.to_nat 0) with 0%nat; lia). reflexivity.
Qed.
(** Not so: for a length close to the largest number.  A request behind the start of the document ends in a panic. *)
Theorem c77_long_refuted : forall dbg doc offset n room, 0 < offset -> offset < two64 -> offset < N.of_nat (length doc) -> n < two64 -> two64 <= offset + n ->
  description dbg doc offset n room = Panic.
Proof.
  intros dbg doc offset n room O1 O3 O2 N1 W. unfold description. destruct (N.of_nat (length doc) <=? offset) eqn:E; [lia|]. unfold uadd.
  destruct (offset + n <? two64) eqn:F; [lia|]. destruct dbg; [reflexivity|]. cbn [bind].
  assert (M : (offset + n) mod two64 = offset + n - two64).
  { replace (offset + n) with (offset + n - two64 + 1 * two64) at 1 by lia. rewrite N.mod_add by (unfold two64; lia). apply N.mod_small.
    lia. }
  destruct (N.min ((offset + n) mod two64) (N.of_nat (length doc)) <? offset) eqn:G; [reflexivity|]. rewrite M in G. lia.
Qed.

(** ** Modules *)

Lemma trim_rev_stem : forall fuel s, (length s <= fuel)%nat -> stem (rev s) (rev (trim_rev fuel s)).
Proof.
  induction fuel as [|fuel IH]; intros s L; cbn [trim_rev].
  - destruct s; [|cbn in L; lia]. cbn. apply stem_done. intros r E. destruct r; discriminate.
  - destruct (str_eqb (firstn 4 s) (rev dot_efi)) eqn:E.
    + apply str_eqb_eq in E. assert (S0 : s = rev dot_efi ++ skipn 4 s) by (rewrite <- E; symmetry; apply firstn_skipn).
      rewrite S0 at 1. rewrite rev_app_distr, rev_involutive. apply stem_cut. apply IH. rewrite skipn_length. destruct s; [discriminate | cbn [length] in *; lia].
    + apply stem_done. intros r R. assert (S0 : s = rev dot_efi ++ rev r) by (rewrite <- (rev_involutive s), R, rev_app_distr; reflexivity).
      rewrite S0 in E. cbn in E. discriminate.
Qed.
Lemma trim_stem : forall s, stem s (trim_efi s).
Proof. intros s. unfold trim_efi. rewrite <- (rev_involutive s) at 1. apply trim_rev_stem. rewrite rev_length. lia. Qed.
Lemma stem_unique : forall s t u, stem s t -> stem s u -> t = u.
Proof.
  intros s t u H. revert u. induction H as [s t H IH|s H]; intros u K.
  - inversion K as [s' t' K' E|s' K' E]; subst.
    + apply app_inv_tail in E. subst. apply IH. exact K'.
    + exfalso. apply (K' s). reflexivity.
  - inversion K as [s' t' K' E|s' K' E]; subst; [exfalso; apply (H s'); reflexivity | reflexivity].
Qed.
Lemma lower_same : forall a b, lower a = lower b <-> same_letter a b.
Proof. intros a b. unfold lower, same_letter. destruct ((65 <=? a) && (a <=? 90)) eqn:A, ((65 <=? b) && (b <=? 90)) eqn:B; lia. Qed.
Lemma nocase_same : forall a b, eq_nocase a b = true <-> same_name a b.
Proof.
  intros a b. unfold eq_nocase. rewrite str_eqb_eq. unfold same_name. revert b. induction a as [|x a IH]; intros [|y b]; cbn; split; intros H; try discriminate; try (inversion H; fail); try constructor.
  - injection H as H1 H2. apply lower_same. exact H1.
  - injection H as H1 H2. apply IH. exact H2.
  - inversion H as [|? ? ? ? H1 H2]; subst. f_equal; [apply lower_same; exact H1 | apply IH; exact H2].
Qed.

Definition m_inv (past : list mop) (m : modules) : Prop :=
  (m_all m = true <-> In BreakAll (since_clear past))
  /\ (forall t, In t (m_breaks m) <-> t <> [] /\ exists names b, In (Break names) (since_clear past) /\ In b names /\ t = trim_efi b).
Lemma add_breaks : forall names m, m_list (fold_left add_break names m) = m_list m /\ m_all (fold_left add_break names m) = m_all m
  /\ forall t, In t (m_breaks (fold_left add_break names m)) <-> In t (m_breaks m) \/ (t <> [] /\ exists b, In b names /\ t = trim_efi b).
Proof.
  induction names as [|n names IH]; intros m; cbn [fold_left].
  - repeat split; auto. intros [H|[_ [b [[] _]]]]. exact H.
  - destruct (IH (add_break m n)) as (I1 & I2 & I3). rewrite I1, I2.
    assert (A : m_list (add_break m n) = m_list m /\ m_all (add_break m n) = m_all m /\ forall t, In t (m_breaks (add_break m n)) <-> In t (m_breaks m) \/ (t <> [] /\ t = trim_efi n)).
    { unfold add_break. destruct (trim_efi n) as [|x t0] eqn:E.
      - repeat split; auto. intros [H|[H1 H2]]; [exact H | congruence].
      - cbn [m_list m_all m_breaks]. repeat split; auto.
        + intros H. apply in_app_or in H. destruct H as [H|[<-|[]]]; [left; exact H | right; split; [discriminate | reflexivity]].
        + intros [H|[H1 H2]]; apply in_or_app; [left; exact H | right; left; congruence]. }
    destruct A as (A1 & A2 & A3). split; [exact A1|]. split; [exact A2|]. intros t. rewrite I3, A3. split.
    + intros [[H|[H1 H2]]|[H1 [b [B1 B2]]]]; [left; exact H | right; split; [exact H1 | exists n; split; [left; reflexivity | exact H2]] | right; split; [exact H1 | exists b; split; [right; exact B1 | exact B2]]].
    + intros [H|[H1 [b [[<-|B1] B2]]]]; [left; left; exact H | left; right; split; assumption | right; split; [exact H1 | exists b; split; assumption]].
Qed.
Lemma check_stops : forall past m name, m_inv past m -> (check_module m name = true <-> stops past name).
Proof.
  intros past m name [I1 I2]. unfold check_module, stops. rewrite Bool.orb_true_iff, I1, existsb_exists. split.
  - intros [H|[t [T1 T2]]]; [left; exact H|]. right. apply I2 in T1. destruct T1 as (NE & names & b & B1 & B2 & B3). exists names, b, t, (trim_efi name).
    split; [exact B1|]. split; [exact B2|]. split; [rewrite B3; apply trim_stem|]. split; [exact NE|]. split; [apply trim_stem | apply nocase_same; exact T2].
  - intros [H|(names & b & s & t & B1 & B2 & B3 & B4 & B5 & B6)]; [left; exact H|]. right. exists s. split.
    + apply I2. split; [exact B4|]. exists names, b. split; [exact B1|]. split; [exact B2|]. apply (stem_unique b); [exact B3 | apply trim_stem].
    + apply nocase_same. rewrite <- (stem_unique name t (trim_efi name) B5 (trim_stem name)). exact B6.
Qed.
Lemma run_m_inv : forall ops past m, m_inv past m ->
  Forall2 (fun b p => b = true <-> stops (fst p) (snd p)) (fst (run_m m ops)) (loads past ops) /\ m_list (snd (run_m m ops)) = m_list m ++ loaded ops.
Proof.
  induction ops as [|o ops IH]; intros past m I.
  - cbn. split; [constructor | now rewrite app_nil_r].
  - pose proof I as [I1 I2]. destruct o as [|names| |name base size]; cbn [run_m loads loaded flat_map app].
    + apply (IH (BreakAll :: past) (break_all m)). split; cbn [break_all m_all m_breaks since_clear].
      * split; [left; reflexivity | reflexivity].
      * intros t. rewrite I2. split; intros (H & ns & b & B1 & B2); (split; [exact H|]); exists ns, b; (split; [|exact B2]); [right; exact B1 | destruct B1 as [B1|B1]; [discriminate | exact B1]].
    + destruct (add_breaks names m) as (A1 & A2 & A3). destruct (IH (Break names :: past) (fold_left add_break names m)) as [J1 J2].
      { split; cbn [since_clear].
        - rewrite A2, I1. split; [right; assumption | intros [H|H]; [discriminate | exact H]].
        - intros t. rewrite A3, I2. split.
          + intros [(H & ns & b & B1 & B2)|(H & b & B1 & B2)]; (split; [exact H|]); [exists ns, b; split; [right; exact B1 | exact B2] | exists names, b; split; [left; reflexivity | split; assumption]].
          + intros (H & ns & b & [B0|B1] & B2 & B3); [injection B0 as <-; right; split; [exact H | exists b; split; assumption] | left; split; [exact H | exists ns, b; repeat split; assumption]]. }
      split; [exact J1 | rewrite J2, A1; reflexivity].
    + apply (IH (Clear :: past) (clear_breaks m)). split; cbn [clear_breaks m_all m_breaks since_clear].
      * split; [discriminate | intros []].
      * intros t. split; [intros [] | intros (_ & ns & b & [] & _)].
    + unfold notify_load. pose proof (check_stops past (add_module m name base size) name) as CS. destruct (IH (Load name base size :: past) (add_module m name base size)) as [J1 J2].
      { split; cbn [add_module m_all m_breaks since_clear].
        - rewrite I1. split; [right; assumption | intros [H|H]; [discriminate | exact H]].
        - intros t. rewrite I2. split; intros (H & ns & b & B1 & B2); (split; [exact H|]); exists ns, b; (split; [|exact B2]); [right; exact B1 | destruct B1 as [B1|B1]; [discriminate | exact B1]]. }
      destruct (run_m (add_module m name base size) ops) as [bs m']. cbn [fst snd] in *. split.
      * constructor; [|exact J1]. cbn [fst snd]. apply CS. split; [exact I1 | exact I2].
      * rewrite J2. cbn [add_module m_list]. rewrite <- app_assoc. reflexivity.
Qed.
(** C77: in any history of requests and loads, the program stops at a load if and only if a request that still stands asks for it: for all modules, or
    for the module's name, without ".efi" and whatever the case of its letters.  The list holds the loads in their order. *)
Theorem c77_modules : forall ops,
  Forall2 (fun b p => b = true <-> stops (fst p) (snd p)) (fst (run_m no_modules ops)) (loads [] ops) /\ m_list (snd (run_m no_modules ops)) = loaded ops.
Proof.
  intros ops. apply (run_m_inv ops [] no_modules). split; cbn [no_modules m_all m_breaks since_clear].
  - split; [discriminate | intros []].
  - intros t. split; [intros [] | intros (_ & ns & b & [] & _)].
Qed.
(** Not so: for a name with a suffix in other letters; "Foo.EFI" is not stopped at for "Foo". *)
Theorem c77_suffix_refuted : fst (run_m no_modules [Break [[70; 111; 111]]; Load [70; 111; 111; 46; 69; 70; 73] 0x1000 0x1000; Load [102; 79; 79; 46; 101; 102; 105] 0x3000 0x1000]) = [false; true].
Proof. vm_compute. reflexivity. Qed.
(** C77: the list shows as many modules as asked for, from the first asked for on. *)
Theorem c77_list_partial : forall m count start, count <> Some 0 -> N.of_nat (length (m_list m)) <= u64_max ->
  list_modules m count start = firstn (match count with Some c => N.to_nat c | None => length (m_list m) end) (skipn (match start with Some s => N.to_nat s | None => 0%nat end) (m_list m)).
Proof.
  intros m count start NZ LE.
  assert (G : forall l c p, p < c -> list_loop l c p = firstn (N.to_nat (c - p)) l).
  { induction l as [|x l IH]; intros c p P; cbn [list_loop]; [now rewrite firstn_nil|]. destruct (N.to_nat (c - p)) as [|k] eqn:K; [lia|]. cbn [firstn]. f_equal.
    destruct (c <=? p + 1) eqn:E; [replace k with 0%nat by lia; reflexivity|]. rewrite IH by lia. f_equal. lia. }
  unfold list_modules. rewrite G.
  - rewrite N.sub_0_r. replace (match start with Some s => N.to_nat s | None => 0%nat end) with (N.to_nat (match start with Some c => c | None => 0 end)) by (destruct start; reflexivity).
    destruct count as [c|]; [reflexivity|]. rewrite !firstn_all2; [reflexivity | rewrite skipn_length; lia | rewrite skipn_length; lia].
  - destruct count as [c|]; [destruct (N.eq_dec c 0); [subst; congruence | lia]|]. unfold u64_max, two64. lia.
Qed.
(** Not so: for a count of zero, which shows one. *)
Theorem c77_list_zero_refuted : forall m x r, m_list m = x :: r -> list_modules m (Some 0) None = [x].
Proof. intros m x r E. unfold list_modules. cbn [N.to_nat skipn]. rewrite E. reflexivity. Qed.
(** C77: a registered command is found by its name; of two with one name the first. *)
Theorem c77_commands : forall A (l : list (str * A)) name f,
  handle_command l name = Some f <-> exists pre post, l = pre ++ (name, f) :: post /\ forall e, In e pre -> fst e <> name.
Proof.
  intros A l name f. unfold handle_command. induction l as [|[n g] l IH].
  - cbn. split; [discriminate | intros (pre & post & E & _); destruct pre; discriminate].
  - cbn [find fst]. destruct (str_eqb n name) eqn:E.
    + apply str_eqb_eq in E. subst n. split.
      * intros H. injection H as ->. exists [], l. split; [reflexivity | intros e []].
      * intros (pre & post & P & Q). destruct pre as [|e pre]; [cbn in P; congruence|]. exfalso. injection P as <- _. apply (Q (name, g) (or_introl eq_refl)). reflexivity.
    + rewrite IH. split.
      * intros (pre & post & -> & Q). exists ((n, g) :: pre), post. split; [reflexivity|]. intros e [<-|X]; [|apply Q; exact X]. cbn. intros ->.
        rewrite (proj2 (str_eqb_eq name name) eq_refl) in E. discriminate.
      * intros (pre & post & P & Q). destruct pre as [|e pre].
        -- cbn in P. injection P as -> -> ->. rewrite (proj2 (str_eqb_eq name name) eq_refl) in E. discriminate.
        -- injection P as <- ->. exists pre, post. split; [reflexivity | intros x X; apply Q; right; exact X].
Qed.

(** ** Cases *)

Example c77_case_output : exists out, monitor (fun _ => [repeat 65 100; repeat 66 100; repeat 67 200]) [offset_token [49; 50]; [120]] = Ok out /\ map (@length N) out = [88; 100; 200]%nat.
Proof. eexists. split; vm_compute; reflexivity. Qed.
Example c77_case_digits : digits [49; 50] /\ value [49; 50] = 12 /\ ~ is_offset_token [120].
Proof. split; [repeat constructor; lia|]. split; [reflexivity|]. intros [x E]. unfold offset_token in E. destruct x; discriminate. Qed.
Example c77_case_document : fetch true (repeat 7 10) (repeat (4, 3) 11) 0 = Ok (repeat 7 10).
Proof. vm_compute. reflexivity. Qed.
Example c77_case_modules : fst (run_m no_modules [Break [[97; 46; 101; 102; 105]]; Load [65] 0 1; Load [66] 0 1; Clear; Load [65] 0 1; BreakAll; Load [66] 0 1]) = [true; false; false; true].
Proof. vm_compute. reflexivity. Qed.

Print Assumptions c77_output.
Print Assumptions c77_offset.
Print Assumptions c77_piece.
Print Assumptions c77_document.
Print Assumptions c77_long_refuted.
Print Assumptions c77_modules.
Print Assumptions c77_suffix_refuted.
Print Assumptions c77_list_partial.
Print Assumptions c77_list_zero_refuted.
Print Assumptions c77_commands.
