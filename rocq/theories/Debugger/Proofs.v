(** Lemmas about the debugger's access to memory. *)
From Verif Require Import Base.Prelude Mm.Model Mm.Spec Mm.Props Debugger.Model Debugger.Spec.
From Coq Require Import Lia ZifyBool ZifyNat ZifyN Permutation.
Local Open Scope N_scope.
Ltac Zify.zify_post_hook ::= Z.div_mod_to_equations.

Lemma page_facts : forall x, page_of x <= x < page_of x + 4096 /\ page_of x mod 4096 = 0.
Proof. intros. unfold page_of, PAGE_SIZE. lia. Qed.
Lemma page_unique : forall x p, p mod 4096 = 0 -> p <= x < p + 4096 -> page_of x = p.
Proof. intros x p H B. unfold page_of, PAGE_SIZE. lia. Qed.
Lemma valid_readable : forall e x, page_valid e (page_of x) = true <-> readable e x.
Proof.
  intros e x. unfold page_valid, query, readable, page_of, PAGE_SIZE, read_protect. destruct (e_attr e (x - x mod 4096)) as [a|].
  - split; [intros H; exists a; split; [reflexivity | destruct (N.testbit a 13); [discriminate | reflexivity]]|].
    intros [b [E H]]. injection E as ->. rewrite H. reflexivity.
  - split; [discriminate | intros [b [E _]]; discriminate].
Qed.

(** ** The check of a range *)

Lemma check_pages_spec : forall fuel e start last len page,
  0 < len -> last = start + len - 1 -> last < two64 ->
  page mod 4096 = 0 -> (page <= start -> page = page_of start) ->
  (forall x, start <= x -> x < page -> page_valid e (page_of x) = true) ->
  page <= last + 4096 ->
  last + 4096 < page + 4096 * N.of_nat fuel ->
  match check_pages fuel e start last len page with
  | Ok k => 0 < k <= len /\ (forall x, start <= x -> x < start + k -> page_valid e (page_of x) = true)
            /\ (k = len \/ page_valid e (page_of (start + k)) = false)
  | Err _ => page_valid e (page_of start) = false
  | Panic => False
  end.
Proof.
  induction fuel as [|fuel IH]; intros e start last len page L0 EL LT AL FI VA UP FU; [lia|].
  cbn [check_pages]. unfold PAGE_SIZE. destruct (last <? page) eqn:E1.
  { split; [lia|]. split; [intros x A B; apply VA; lia | left; reflexivity]. }
  destruct (page_valid e page) eqn:E2; cbn [negb].
  - destruct (page + 4096 <? two64) eqn:E3.
    + apply IH; try assumption; try lia; [intros C; specialize (FI ltac:(lia)); pose proof (page_facts start); lia|].
      intros x A B. destruct (N.lt_ge_cases x page) as [C|C]; [apply VA; assumption|]. rewrite (page_unique x page) by lia. exact E2.
    + split; [lia|]. split; [|left; reflexivity].
      intros x A B. destruct (N.lt_ge_cases x page) as [C|C]; [apply VA; assumption|]. rewrite (page_unique x page) by lia. exact E2.
  - destruct (start <? page) eqn:E3.
    + split; [lia|]. split; [intros x A B; apply VA; lia|]. right. replace (start + (page - start)) with page by lia.
      rewrite (page_unique page page) by lia. exact E2.
    + rewrite <- FI by lia. exact E2.
Qed.

Lemma check_range_spec : forall dbg e start len, 0 < len -> start + len <= two64 ->
  match check_paging_range dbg e start len with
  | Ok k => 0 < k <= len /\ (forall x, start <= x -> x < start + k -> readable e x) /\ (k = len \/ ~ readable e (start + k))
  | Err _ => ~ readable e start
  | Panic => False
  end.
Proof.
  intros dbg e start len L0 LE. unfold check_paging_range, usub, uadd.
  destruct (1 <=? len) eqn:E1; [|lia]. cbn [bind].
  destruct (start + (len - 1) <? two64) eqn:E2; [|lia]. cbn [bind].
  pose proof (page_facts start) as [PF1 PF2].
  pose proof (check_pages_spec (S (S (S (N.to_nat (len / PAGE_SIZE))))) e start (start + (len - 1)) len (page_of start)) as C.
  specialize (C L0 ltac:(lia) ltac:(lia) PF2 ltac:(reflexivity) ltac:(intros; lia) ltac:(lia)).
  assert (FU : start + (len - 1) + 4096 < page_of start + 4096 * N.of_nat (S (S (S (N.to_nat (len / PAGE_SIZE)))))) by (unfold PAGE_SIZE; lia).
  specialize (C FU). destruct (check_pages _ e start _ len (page_of start)) as [k|u|]; [|intros R; apply valid_readable in R; congruence | exact C].
  destruct C as (A & B & D). split; [exact A|]. split; [intros x X Y; apply valid_readable, B; assumption|].
  destruct D as [D|D]; [left; exact D | right; intros R; apply valid_readable in R; congruence].
Qed.

Lemma poke_spec : forall h e a, a + 8 <= two64 -> (poke h e a = true <-> forall i, i < 8 -> sound h e (a + i)).
Proof.
  intros h e a LE. unfold poke. rewrite forallb_forall. split.
  - intros H i I. assert (II : In i [0; 1; 2; 3; 4; 5; 6; 7]) by (cbn; lia). specialize (H i II). cbv zeta in H.
    rewrite N.mod_small in H by lia. apply Bool.andb_true_iff in H. destruct H as [H1 H2]. apply valid_readable in H1.
    apply Bool.negb_true_iff in H2. split; assumption.
  - intros H i I. assert (II : i < 8) by (cbn in I; lia). destruct (H i II) as [H1 H2]. cbv zeta.
    rewrite N.mod_small by lia. apply Bool.andb_true_iff. split; [apply valid_readable; exact H1 | rewrite H2; reflexivity].
Qed.

(** ** Writing *)

Lemma writem_nil : forall m a x, writem m a [] x = m x.
Proof. intros. unfold writem. cbn. destruct (a <=? x) eqn:E1; [|reflexivity]. destruct (x <? a + 0) eqn:E2; [lia | reflexivity]. Qed.

(** No write reaches beyond the 4096 bytes from the address. *)
Lemma write_pages_within : forall fuel h e address end_ buffer current r e',
  write_pages fuel h e address end_ buffer current = (r, e') -> only_within (e_mem e) (e_mem e') address 4096.
Proof.
  induction fuel as [|fuel IH]; intros h e address end_ buffer current r e' H; cbn [write_pages] in H.
  { injection H as _ <-. intros x _. reflexivity. }
  destruct (end_ <=? current) eqn:E1. { injection H as _ <-. intros x _. reflexivity. }
  destruct (query e (page_of current)) as [attr|]; [|injection H as _ <-; intros x _; reflexivity].
  set (len := N.min (page_of current + PAGE_SIZE) end_ - current) in *.
  assert (LL : len <= 4096) by (pose proof (page_facts current); unfold len, PAGE_SIZE; lia).
  assert (M1 : forall e1, (if read_only attr then map_region h e (page_of current) (N.clearbit attr 17) else Ok e) = Ok e1 -> e_mem e1 = e_mem e).
  { intros e1 M. unfold map_region in M. destruct (read_only attr); [|injection M as <-; reflexivity].
    destruct (hw_large h (page_of current)); [discriminate|]. destruct (hw_refuses h (page_of current)); [discriminate|]. injection M as <-. reflexivity. }
  destruct (if read_only attr then map_region h e (page_of current) (N.clearbit attr 17) else Ok e) as [e1|u|] eqn:R1;
    [|injection H as _ <-; intros x _; reflexivity | injection H as _ <-; intros x _; reflexivity].
  specialize (M1 e1 eq_refl).
  set (w := firstn (N.to_nat len) (skipn (N.to_nat (current - address)) buffer)) in *.
  set (e2 := Env (writem (e_mem e1) address w) (e_attr e1)) in *.
  assert (W : only_within (e_mem e) (e_mem e2) address 4096).
  { intros x X. cbn [e2 e_mem]. rewrite <- M1. apply writem_within.
    assert (LW : (length w <= N.to_nat len)%nat) by (unfold w; rewrite firstn_length; lia). lia. }
  assert (M3 : forall e3, (if read_only attr then map_region h e2 (page_of current) attr else Ok e2) = Ok e3 -> e_mem e3 = e_mem e2).
  { intros e3 M. unfold map_region in M. destruct (read_only attr); [|injection M as <-; reflexivity].
    destruct (hw_large h (page_of current)); [discriminate|]. destruct (hw_refuses h (page_of current)); [discriminate|]. injection M as <-. reflexivity. }
  destruct (if read_only attr then map_region h e2 (page_of current) attr else Ok e2) as [e3|u|] eqn:R3;
    [|injection H as _ <-; exact W | injection H as _ <-; exact W].
  apply IH in H. specialize (M3 e3 eq_refl). intros x X. rewrite (H x X), M3. apply W. exact X.
Qed.

Definition writable_page (h : hw) (e : env) (a : N) : Prop :=
  forall at_, e_attr e (a - a mod 4096) = Some at_ -> N.testbit at_ 17 = true -> hw_large h (a - a mod 4096) = false /\ hw_refuses h (a - a mod 4096) = false.

Lemma write_one_page : forall dbg h e a buffer, buffer <> [] -> a mod 4096 + N.of_nat (length buffer) <= 4096 -> a + N.of_nat (length buffer) < two64 ->
  readable e a -> poke h e a = true -> writable_page h e a ->
  exists e', write_memory dbg h e a buffer = (Ok tt, e') /\ same_table e e' /\ e_mem e' = writem (e_mem e) a buffer.
Proof.
  intros dbg h e a buffer NE PG LT RD PK WP. assert (L0 : 0 < N.of_nat (length buffer)) by (destruct buffer; [congruence | cbn; lia]).
  unfold write_memory, uadd. destruct (a + N.of_nat (length buffer) <? two64) eqn:E1; [|lia].
  unfold check_range_access. pose proof (check_range_spec dbg e a (N.of_nat (length buffer)) L0 ltac:(lia)) as C.
  destruct (check_paging_range dbg e a (N.of_nat (length buffer))) as [k|u|]; [|contradiction | contradiction].
  destruct C as (K & _ & D). cbn [bind]. rewrite PK.
  assert (KE : k = N.of_nat (length buffer)).
  { destruct D as [D|D]; [exact D|]. destruct (N.eq_dec k (N.of_nat (length buffer))) as [X|X]; [exact X|]. exfalso. apply D. apply valid_readable.
    pose proof (page_facts a) as [P1 P2]. rewrite (page_unique (a + k) (page_of a)); [apply valid_readable; exact RD | exact P2 |]. unfold page_of, PAGE_SIZE in *. lia. }
  rewrite KE, N.eqb_refl. cbn [negb].
  set (end_ := a + N.of_nat (length buffer)). cbn [write_pages].
  assert (E2 : (end_ <=? a) = false) by (unfold end_; lia). rewrite E2.
  destruct RD as [at_ [QA RP]]. change (a - a mod 4096) with (page_of a) in QA. unfold query. rewrite QA.
  assert (MN : N.min (page_of a + PAGE_SIZE) end_ = end_) by (unfold end_, page_of, PAGE_SIZE; lia). rewrite MN.
  replace (a - a) with 0 by lia. change (N.to_nat 0) with 0%nat. cbn [skipn].
  assert (FN : firstn (N.to_nat (end_ - a)) buffer = buffer) by (apply firstn_all2; unfold end_; lia). rewrite FN.
  assert (E3 : (end_ <=? a + (end_ - a)) = true) by (unfold end_; lia).
  unfold read_only. destruct (N.testbit at_ 17) eqn:RO.
  - destruct (WP at_ QA RO) as [W1 W2]. change (a - a mod 4096) with (page_of a) in W1, W2. unfold map_region. rewrite W1, W2. cbn [e_mem e_attr].
    rewrite E3. eexists. split; [reflexivity|]. cbn [e_mem e_attr]. split; [|reflexivity].
    intros p. cbn [e_attr]. destruct (p =? page_of a) eqn:EP; [apply N.eqb_eq in EP; rewrite EP; symmetry; exact QA | reflexivity].
  - rewrite E3. eexists. split; [reflexivity|]. split; [intros p; reflexivity | reflexivity].
Qed.

(** ** Breakpoints *)

Lemma set_slot_app : forall {A} (pre : list A) x post v, set_slot (length pre) v (pre ++ x :: post) = pre ++ v :: post.
Proof. induction pre as [|y pre IH]; intros; cbn; [reflexivity | f_equal; apply IH]. Qed.
Lemma find_slot_spec : forall {A} (p : A -> bool) s i0,
  (find_slot p i0 s = None /\ forall x, In x s -> p x = false)
  \/ exists pre x post, find_slot p i0 s = Some ((i0 + length pre)%nat, x) /\ s = pre ++ x :: post /\ p x = true.
Proof.
  intros A p. induction s as [|y s IH]; intros i0; cbn [find_slot].
  - left. split; [reflexivity | intros x []].
  - destruct (p y) eqn:E.
    + right. exists [], y, s. cbn. rewrite Nat.add_0_r. repeat split. exact E.
    + destruct (IH (S i0)) as [[F N0]|(pre & x & post & F & S0 & PX)].
      * left. split; [exact F|]. intros x [<-|X]; [exact E | apply N0; exact X].
      * right. exists (y :: pre), x, post. rewrite F, S0. cbn [length app]. split; [f_equal; f_equal; lia|]. split; [reflexivity | exact PX].
Qed.

(** The addresses in the slots. *)
Definition addrs (s : slots) : list N := flat_map (fun x => match x with Some (a, _) => [a] | None => [] end) s.
Lemma addrs_app : forall a b, addrs (a ++ b) = addrs a ++ addrs b.
Proof. intros. unfold addrs. apply flat_map_app. Qed.
Lemma addrs_in : forall s a, In a (addrs s) <-> exists o, In (Some (a, o)) s.
Proof.
  intros s a. unfold addrs. rewrite in_flat_map. split.
  - intros [[[b o]|] [I H]]; [destruct H as [<-|[]]; exists o; exact I | destruct H].
  - intros [o I]. exists (Some (a, o)). split; [exact I | left; reflexivity].
Qed.
Lemma addrs_full : forall s, (forall x, In x s -> (match x with None => true | _ => false end) = false) -> length (addrs s) = length s.
Proof.
  induction s as [|x s IH]; intros H; [reflexivity|]. cbn [addrs flat_map]. rewrite app_length. fold (addrs s).
  rewrite IH by (intros y Y; apply H; right; exact Y). specialize (H x (or_introl eq_refl)). destruct x as [[a o]|]; [reflexivity | discriminate].
Qed.
Lemma addrs_le : forall s, (length (addrs s) <= length s)%nat.
Proof. induction s as [|x s IH]; [cbn; lia|]. cbn [addrs flat_map]. rewrite app_length. fold (addrs s). destruct x as [[a o]|]; cbn [length]; lia. Qed.

Definition apart (k : N) (a b : N) : Prop := b + k <= a \/ a + k <= b.

Record bp_inv (h : hw) (e0 : env) (bi : list N) (l : list N) (st : env * slots) : Prop := BpInv {
  bp_table : same_table e0 (fst st);
  bp_len : length (snd st) = 25%nat;
  bp_perm : Permutation (addrs (snd st)) l;
  bp_orig : forall a o, In (Some (a, o)) (snd st) -> o = readm (e_mem e0) a (length bi) /\ good_place h e0 bi a;
  bp_nodup : NoDup l;
  bp_apart : forall a b, In a l -> In b l -> a <> b -> apart (N.of_nat (length bi)) a b;
  bp_mem : shows_breakpoints (e_mem e0) (e_mem (fst st)) bi l }.

Lemma same_readable : forall e e' x, same_table e e' -> readable e x <-> readable e' x.
Proof. intros e e' x H. unfold readable. rewrite (H (x - x mod 4096)). tauto. Qed.

Lemma good_writes : forall dbg h e0 e bi a w, same_table e0 e -> good_place h e0 bi a -> (0 < length bi < 8)%nat -> length w = length bi ->
  exists e', write_memory dbg h e a w = (Ok tt, e') /\ same_table e0 e' /\ e_mem e' = writem (e_mem e) a w.
Proof.
  intros dbg h e0 e bi a w ST (PG & A8 & SO & WR) LB LW.
  destruct (write_one_page dbg h e a w) as (e' & R & T & M).
  - destruct w; [cbn in LW; lia | discriminate].
  - lia.
  - lia.
  - apply (same_readable e0 e a ST). destruct (SO 0) as [R _]; [lia|]. rewrite N.add_0_r in R. exact R.
  - apply poke_spec; [exact A8|]. intros i I. destruct (SO i I) as [R B]. split; [apply (same_readable e0 e _ ST); exact R | exact B].
  - intros at_ Q RO. apply (WR at_); [rewrite <- (ST (a - a mod 4096)); exact Q | exact RO].
  - exists e'. split; [exact R|]. split; [intros p; rewrite T; apply ST | exact M].
Qed.
Lemma good_reads : forall dbg u h e0 e bi a, same_table e0 e -> good_place h e0 bi a -> (0 < length bi < 8)%nat ->
  read_memory dbg h e a (N.of_nat (length bi)) u = Ok (readm (e_mem e) a (length bi)).
Proof.
  intros dbg u h e0 e bi a ST (PG & A8 & SO & WR) LB. unfold read_memory.
  assert (C : check_range_access dbg h e a (N.of_nat (length bi)) = Ok (N.of_nat (length bi))).
  { unfold check_range_access. pose proof (check_range_spec dbg e a (N.of_nat (length bi)) ltac:(lia) ltac:(lia)) as C.
    assert (RA : readable e a). { apply (same_readable e0 e a ST). destruct (SO 0) as [R _]; [lia|]. rewrite N.add_0_r in R. exact R. }
    destruct (check_paging_range dbg e a (N.of_nat (length bi))) as [k|x|]; [|contradiction | contradiction]. cbn [bind].
    assert (PK : poke h e a = true).
    { apply poke_spec; [exact A8|]. intros i I. destruct (SO i I) as [R B]. split; [apply (same_readable e0 e _ ST); exact R | exact B]. }
    rewrite PK. f_equal. destruct C as (K & _ & D). destruct D as [D|D]; [exact D|]. destruct (N.eq_dec k (N.of_nat (length bi))) as [X|X]; [exact X|].
    exfalso. apply D. apply (same_readable e0 e _ ST). apply SO. lia. }
  destruct u; [|rewrite C]; cbn [bind]; (destruct (N.of_nat (length bi) =? 0) eqn:Z; [lia|]); rewrite Nat2N.id; reflexivity.
Qed.

Lemma add_ok : forall dbg u h e0 bi l st a, (0 < length bi < 8)%nat -> bp_inv h e0 bi l st -> good_place h e0 bi a ->
  (forall b, In b l -> b + N.of_nat (length bi) <= a \/ a + N.of_nat (length bi) <= b) ->
  exists st', add_breakpoint dbg u h bi st a = (Ok (length l <? 25)%nat, st') /\ bp_inv h e0 bi (live_bp1 l (SetBp a)) st'.
Proof.
  intros dbg u h e0 bi l [e s] a LB I GP AP. pose proof I as [T LN P O ND AA [SH1 SH2]]. cbn [fst snd] in *. pose proof (Permutation_length P) as PL.
  unfold add_breakpoint. destruct (find_slot_spec (fun x : option (N * list N) => match x with None => true | _ => false end) s 0) as [[F NF]|(pre & x & post & F & S0 & PX)]; rewrite F.
  - exists (e, s). assert (FL : length (addrs s) = 25%nat) by (rewrite addrs_full by exact NF; exact LN).
    assert (B : (length l <? 25)%nat = false) by (apply Nat.ltb_ge; lia). cbn [live_bp1]. rewrite B. split; [reflexivity | exact I].
  - destruct x as [[b o]|]; [discriminate|]. cbn [Nat.add].
    assert (B : (length l <? 25)%nat = true).
    { apply Nat.ltb_lt. pose proof (addrs_le pre). pose proof (addrs_le post). rewrite S0, addrs_app, app_length in PL. rewrite S0, app_length in LN. cbn [length addrs flat_map app] in *. fold (addrs post) in PL. lia. }
    cbn [live_bp1]. rewrite B.
    rewrite (good_reads dbg u h e0 e bi a T GP LB).
    destruct (good_writes dbg h e0 e bi a bi T GP LB eq_refl) as (e' & W & T' & M). rewrite W.
    eexists. split; [reflexivity|].
    assert (OR : readm (e_mem e) a (length bi) = readm (e_mem e0) a (length bi)).
    { apply readm_holds; [apply readm_length|]. intros i Hi. rewrite readm_length in Hi. rewrite nth_readm by exact Hi. apply SH2. intros b Hb. destruct (AP b Hb); lia. }
    assert (FI : filled (length bi) (readm (e_mem e) a (length bi)) = readm (e_mem e0) a (length bi)).
    { unfold filled. rewrite readm_length, Nat.sub_diag. cbn [repeat]. rewrite app_nil_r. exact OR. }
    rewrite FI, S0, set_slot_app. split; cbn [fst snd].
    + exact T'.
    + rewrite S0 in LN. rewrite app_length in *. cbn [length] in *. exact LN.
    + rewrite addrs_app. cbn [addrs flat_map app]. fold (addrs post). rewrite S0, addrs_app in P. cbn [addrs flat_map app] in P. fold (addrs post) in P.
      etransitivity; [symmetry; apply Permutation_middle|]. etransitivity; [apply perm_skip; exact P | apply Permutation_cons_append].
    + intros b o Hb. apply in_app_or in Hb. destruct Hb as [Hb|[Hb|Hb]].
      * apply O. rewrite S0. apply in_or_app. left. exact Hb.
      * injection Hb as <- <-. split; [reflexivity | exact GP].
      * apply O. rewrite S0. apply in_or_app. right. right. exact Hb.
    + apply (Permutation_NoDup (l := a :: l)); [apply Permutation_cons_append|]. constructor; [|exact ND]. intros X. destruct (AP a X); lia.
    + intros b c Hb Hc NE. apply in_app_or in Hb. apply in_app_or in Hc. unfold apart. destruct Hb as [Hb|[<-|[]]], Hc as [Hc|[<-|[]]].
      * apply AA; assumption.
      * destruct (AP b Hb); lia.
      * destruct (AP c Hc); lia.
      * congruence.
    + rewrite M. split.
      * intros b Hb. apply in_app_or in Hb. destruct Hb as [Hb|[<-|[]]]; [|apply writem_holds].
        apply (holds_frame (e_mem e) _ b bi a (N.of_nat (length bi))); [apply writem_within | destruct (AP b Hb); lia | apply SH1; exact Hb].
      * intros x X. rewrite (writem_within (e_mem e) a bi x); [|apply X; apply in_or_app; right; left; reflexivity].
        apply SH2. intros b Hb. apply X. apply in_or_app. left. exact Hb.
Qed.

Lemma remove_ok : forall dbg h e0 bi l st a, (0 < length bi < 8)%nat -> bp_inv h e0 bi l st ->
  exists st', remove_breakpoint dbg h st a = (Ok (existsb (N.eqb a) l), st') /\ bp_inv h e0 bi (live_bp1 l (ClearBp a)) st'.
Proof.
  intros dbg h e0 bi l [e s] a LB I. pose proof I as [T LN P O ND AA [SH1 SH2]]. cbn [fst snd] in *.
  unfold remove_breakpoint.
  destruct (find_slot_spec (fun x : option (N * list N) => match x with Some (b, _) => b =? a | None => false end) s 0) as [[F NF]|(pre & x & post & F & S0 & PX)]; rewrite F.
  - assert (NI : ~ In a l).
    { intros X. apply (Permutation_in _ (Permutation_sym P)) in X. apply addrs_in in X. destruct X as [o X]. apply NF in X. cbn in X. rewrite N.eqb_refl in X. discriminate. }
    exists (e, s). assert (EB : existsb (N.eqb a) l = false).
    { destruct (existsb (N.eqb a) l) eqn:EB; [|reflexivity]. apply existsb_exists in EB. destruct EB as [y [Y1 Y2]]. apply N.eqb_eq in Y2. subst y. contradiction. }
    rewrite EB. split; [reflexivity|]. cbn [live_bp1].
    assert (FE : filter (fun x => negb (x =? a)) l = l).
    { clear - NI. induction l as [|y l IH]; [reflexivity|]. cbn [filter]. destruct (y =? a) eqn:Y; [exfalso; apply NI; left; apply N.eqb_eq; exact Y|].
      cbn [negb]. f_equal. apply IH. intros X. apply NI. right. exact X. }
    rewrite FE. exact I.
  - destruct x as [[b o]|]; [|discriminate]. apply N.eqb_eq in PX. subst b. cbn [Nat.add].
    assert (IS : In (Some (a, o)) s) by (rewrite S0; apply in_or_app; right; left; reflexivity).
    destruct (O a o IS) as [OE GP].
    assert (IL : In a l) by (apply (Permutation_in _ P); apply addrs_in; exists o; exact IS).
    assert (EB : existsb (N.eqb a) l = true) by (apply existsb_exists; exists a; split; [exact IL | apply N.eqb_refl]).
    rewrite EB. cbn [live_bp1].
    assert (LO : length o = length bi) by (rewrite OE; apply readm_length).
    destruct (good_writes dbg h e0 e bi a o T GP LB LO) as (e' & W & T' & M). rewrite W.
    eexists. split; [reflexivity|]. rewrite S0, set_slot_app.
    assert (PR : Permutation l (a :: filter (fun x => negb (x =? a)) l)).
    { clear - IL ND. induction l as [|y l IH]; [destruct IL|]. inversion ND as [|? ? NI ND']; subst. cbn [filter]. destruct (y =? a) eqn:Y; cbn [negb].
      - apply N.eqb_eq in Y. subst y. constructor.
        assert (FE : filter (fun x => negb (x =? a)) l = l).
        { clear - NI. induction l as [|z l IH]; [reflexivity|]. cbn [filter]. destruct (z =? a) eqn:Z; [exfalso; apply NI; left; apply N.eqb_eq; exact Z|].
          cbn [negb]. f_equal. apply IH. intros X. apply NI. right. exact X. }
        rewrite FE. apply Permutation_refl.
      - destruct IL as [->|IL]; [rewrite N.eqb_refl in Y; discriminate|]. etransitivity; [apply perm_skip, IH; assumption | apply perm_swap]. }
    assert (IN' : forall x, In x (filter (fun x => negb (x =? a)) l) <-> In x l /\ x <> a).
    { intros x. rewrite filter_In, Bool.negb_true_iff, N.eqb_neq. tauto. }
    split; cbn [fst snd].
    + exact T'.
    + rewrite S0 in LN. rewrite app_length in *. cbn [length] in *. exact LN.
    + rewrite S0, addrs_app in P. cbn [addrs flat_map app] in P. fold (addrs post) in P. rewrite addrs_app. cbn [addrs flat_map app]. fold (addrs post).
      apply (Permutation_cons_inv (a := a)). etransitivity; [apply Permutation_middle|]. etransitivity; [exact P | exact PR].
    + intros b o' Hb. apply O. rewrite S0. apply in_app_or in Hb. apply in_or_app. destruct Hb as [Hb|[Hb|Hb]]; [left; exact Hb | discriminate | right; right; exact Hb].
    + apply NoDup_filter. exact ND.
    + intros b c Hb Hc NE. apply IN' in Hb. apply IN' in Hc. apply AA; tauto.
    + rewrite M. split.
      * intros b Hb. apply IN' in Hb. destruct Hb as [Hb NE].
        apply (holds_frame (e_mem e) _ b bi a (N.of_nat (length o))); [apply writem_within | rewrite LO; destruct (AA b a Hb IL NE); lia | apply SH1; exact Hb].
      * intros x X. destruct (N.lt_ge_cases x a) as [C|C]; [|destruct (N.lt_ge_cases x (a + N.of_nat (length bi))) as [D|D]].
        -- rewrite (writem_within (e_mem e) a o x) by (left; exact C). apply SH2. intros b Hb. destruct (N.eq_dec b a) as [->|NE]; [left; exact C|]. apply X. apply IN'. tauto.
        -- assert (H : holds (writem (e_mem e) a o) a o) by apply writem_holds. specialize (H (N.to_nat (x - a)) ltac:(lia)).
           replace (a + N.of_nat (N.to_nat (x - a))) with x in H by lia. rewrite H, OE, nth_readm by lia. f_equal. lia.
        -- rewrite (writem_within (e_mem e) a o x) by (right; lia). apply SH2. intros b Hb. destruct (N.eq_dec b a) as [->|NE]; [right; exact D|]. apply X. apply IN'. tauto.
Qed.
