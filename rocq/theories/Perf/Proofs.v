(** Lemmas about writing and reading records. *)
From Verif Require Import Base.Prelude Base.Bytes Mm.Model Mm.Spec Mm.Props Perf.Model Perf.Spec.
Local Open Scope N_scope.

Definition total (cs : list (list N)) : N := len (concat cs).

Lemma len_app : forall a b, len (a ++ b) = len a + len b.
Proof. intros. unfold len. rewrite app_length. lia. Qed.

Lemma total_cons : forall c cs, total (c :: cs) = len c + total cs.
Proof. intros. unfold total. cbn [concat]. apply len_app. Qed.

(** Which writes succeed, within a capacity. *)
Fixpoint fits (cap off : N) (cs : list (list N)) : Prop :=
  match cs with [] => True | c :: r => off < cap /\ off + len c <= cap /\ fits cap (off + len c) r end.

Lemma fits_total : forall cs cap off, fits cap off cs -> cs <> [] -> off + total cs <= cap.
Proof.
  induction cs as [|c cs IH]; intros cap off H NE; [congruence|]. destruct H as (H1 & H2 & H3). rewrite total_cons.
  destruct cs as [|c' cs]; [unfold total; cbn; lia|]. specialize (IH cap (off + len c) H3 ltac:(discriminate)). lia.
Qed.

Lemma fits_iff : forall cs cap off, cs <> [] ->
  (fits cap off cs <-> off + total cs <= cap /\ (last cs [0] = [] -> off + total cs < cap)).
Proof.
  induction cs as [|c cs IH]; intros cap off NE; [congruence|]. rewrite total_cons. destruct cs as [|d cs].
  - cbn [fits last]. unfold total. cbn [concat]. change (len []) with 0. split.
    + intros (H1 & H2 & _). split; [lia|]. intros ->. change (len []) with 0. lia.
    + intros (H1 & H2). destruct c as [|z c]; [specialize (H2 eq_refl); change (len []) with 0 in *; lia|].
      assert (0 < len (z :: c)) by (unfold len; cbn [length]; lia). split; [lia|]. split; [lia|exact I].
  - change (fits cap off (c :: d :: cs)) with (off < cap /\ off + len c <= cap /\ fits cap (off + len c) (d :: cs)).
    rewrite IH by discriminate. change (last (c :: d :: cs) [0]) with (last (d :: cs) [0]).
    rewrite <- N.add_assoc. split; [tauto|]. intros (H1 & H2). split; [|split; [lia|tauto]].
    destruct (N.eq_dec (len c + total (d :: cs)) 0) as [Z|Z]; [|lia].
    assert (last (d :: cs) [0] = []) as LE; [|specialize (H2 LE); lia].
    clear - Z. assert (T : total (d :: cs) = 0) by lia. clear Z. revert d T. induction cs as [|e cs IH]; intros d T; rewrite total_cons in T.
    + cbn. destruct d; [reflexivity|]. unfold len in T. cbn in T. lia.
    + apply (IH e). lia.
Qed.

(** ** Writing into a vector *)
Lemma put_list_ok : forall pre mid suf c off, len pre = off -> len mid = len c -> off < len (pre ++ mid ++ suf) ->
  put_list (pre ++ mid ++ suf) off c = Some (pre ++ c ++ suf).
Proof.
  intros pre mid suf c off H1 H2 H3. unfold put_list. destruct (N.leb_spec (len (pre ++ mid ++ suf)) off); [lia|].
  rewrite !len_app in *. destruct (N.ltb_spec (len pre + (len mid + len suf)) (off + len c)); [lia|]. f_equal. unfold len in *.
  replace (N.to_nat off) with (length pre) by lia. rewrite firstn_app_exact. f_equal. f_equal.
  replace (N.to_nat (off + N.of_nat (length c))) with (length (pre ++ mid)) by (rewrite app_length; lia).
  rewrite app_assoc. apply skipn_app_exact.
Qed.

Lemma chunks_list_ok : forall cs pre mid suf off, len pre = off -> len mid = total cs -> fits (len (pre ++ mid ++ suf)) off cs ->
  write_chunks put_list (pre ++ mid ++ suf) off cs = (pre ++ concat cs ++ suf, Some (off + total cs)).
Proof.
  induction cs as [|c cs IH]; intros pre mid suf off H1 H2 H3; cbn [write_chunks concat].
  { unfold total, len in *. cbn [concat length] in *. destruct mid; [|cbn in H2; lia]. cbn [app]. rewrite N.add_0_r. reflexivity. }
  rewrite total_cons in *. destruct H3 as (F1 & F2 & F3).
  assert (SP : exists m1 m2, mid = m1 ++ m2 /\ len m1 = len c).
  { exists (firstn (length c) mid), (skipn (length c) mid). split; [symmetry; apply firstn_skipn|]. unfold len in *. rewrite firstn_length. lia. }
  destruct SP as (m1 & m2 & -> & L1). assert (L2 : len m2 = total cs) by (rewrite len_app in H2; lia).
  rewrite <- app_assoc in *. rewrite put_list_ok; [|exact H1|exact L1|exact F1].
  replace (pre ++ c ++ m2 ++ suf) with ((pre ++ c) ++ m2 ++ suf) by (now rewrite <- app_assoc).
  rewrite IH; [|rewrite len_app; lia|exact L2|].
  - rewrite <- !app_assoc. rewrite N.add_assoc. reflexivity.
  - rewrite !len_app in *. rewrite L1 in F3. replace (len pre + len c + (len m2 + len suf)) with (len pre + (len c + (len m2 + len suf))) by lia. exact F3.
Qed.

Lemma put_list_frame : forall l off c l', put_list l off c = Some l' -> len l' = len l /\ forall n, (N.of_nat n <= off) -> firstn n l' = firstn n l.
Proof.
  intros l off c l' H. unfold put_list in H. destruct (N.leb_spec (len l) off); [discriminate|]. destruct (N.ltb_spec (len l) (off + len c)); [discriminate|].
  injection H as <-. unfold len in *. split.
  - rewrite !app_length, firstn_length, skipn_length. lia.
  - intros n Hn. rewrite firstn_app, firstn_length, firstn_firstn. replace (Nat.min n (N.to_nat off)) with n by lia.
    replace (n - Nat.min (N.to_nat off) (length l))%nat with 0%nat by lia. cbn. apply app_nil_r.
Qed.

Lemma chunks_list_frame : forall cs l off l' o, write_chunks put_list l off cs = (l', o) ->
  len l' = len l /\ (forall n, (N.of_nat n <= off) -> firstn n l' = firstn n l) /\ (o = None <-> ~ fits (len l) off cs).
Proof.
  induction cs as [|c cs IH]; intros l off l' o H; cbn [write_chunks] in H.
  { injection H as <- <-. split; [reflexivity|]. split; [reflexivity|]. cbn. split; [discriminate|tauto]. }
  destruct (put_list l off c) as [l1|] eqn:P.
  - pose proof (put_list_frame _ _ _ _ P) as (L1 & F1). destruct (IH _ _ _ _ H) as (L2 & F2 & C2). split; [congruence|].
    split; [intros n Hn; rewrite F2 by lia; apply F1, Hn|]. rewrite L1 in C2. unfold put_list in P.
    destruct (N.leb_spec (len l) off); [discriminate|]. destruct (N.ltb_spec (len l) (off + len c)); [discriminate|]. cbn [fits].
    rewrite C2. split; [tauto|]. intros X Y. apply X. auto.
  - injection H as <- <-. split; [reflexivity|]. split; [reflexivity|]. split; [|reflexivity]. intros _ (F1 & F2 & _). unfold put_list in P.
    destruct (N.leb_spec (len l) off); [lia|]. destruct (N.ltb_spec (len l) (off + len c)); [lia|discriminate].
Qed.

(** ** Writing into memory *)
Lemma only_within_trans : forall m1 m2 m3 a n, only_within m1 m2 a n -> only_within m2 m3 a n -> only_within m1 m3 a n.
Proof. intros m1 m2 m3 a n H1 H2 x Hx. rewrite H2 by exact Hx. apply H1, Hx. Qed.

Lemma only_within_mono : forall m m' a n b k, only_within m m' a n -> b <= a -> a + n <= b + k -> only_within m m' b k.
Proof. intros m m' a n b k H H1 H2 x Hx. apply H. lia. Qed.

Lemma put_mem_ok : forall base cap m off c, off < cap -> off + len c <= cap -> put_mem base cap m off c = Some (writem m (base + off) c).
Proof. intros base cap m off c H1 H2. unfold put_mem. destruct (N.leb_spec cap off); [lia|]. destruct (N.ltb_spec cap (off + len c)); [lia|reflexivity]. Qed.

Lemma chunks_mem_ok : forall cs base cap m off, fits cap off cs ->
  exists m', write_chunks (put_mem base cap) m off cs = (m', Some (off + total cs)) /\
    holds m' (base + off) (concat cs) /\ only_within m m' (base + off) (total cs).
Proof.
  induction cs as [|c cs IH]; intros base cap m off H; cbn [write_chunks concat].
  { exists m. split; [unfold total, len; cbn; now rewrite N.add_0_r|]. split; [intros i Hi; cbn in Hi; lia|intros x _; reflexivity]. }
  destruct H as (F1 & F2 & F3). rewrite put_mem_ok by assumption.
  destruct (IH base cap (writem m (base + off) c) (off + len c) F3) as (m' & E & HH & FF). exists m'. rewrite total_cons.
  split; [rewrite E; f_equal; f_equal; lia|]. rewrite N.add_assoc in HH, FF.
  pose proof (writem_holds m (base + off) c) as W1. pose proof (writem_within m (base + off) c) as W2. fold (len c) in W2.
  split.
  - apply holds_app. split; [eapply holds_frame; [exact FF|left; fold (len c); lia|exact W1]|exact HH].
  - intros x Hx. rewrite FF by lia. apply W2. lia.
Qed.

Lemma chunks_mem_frame : forall cs base cap m off m' o, write_chunks (put_mem base cap) m off cs = (m', o) ->
  only_within m m' (base + off) (cap - off) /\ (o = None <-> ~ fits cap off cs).
Proof.
  induction cs as [|c cs IH]; intros base cap m off m' o H; cbn [write_chunks] in H.
  { injection H as <- <-. split; [intros x _; reflexivity|]. cbn. split; [discriminate|tauto]. }
  assert (P : put_mem base cap m off c = if cap <=? off then None else if cap <? off + len c then None else Some (writem m (base + off) c)) by reflexivity.
  rewrite P in H. clear P. cbn [fits]. destruct (N.leb_spec cap off).
  { injection H as <- <-. split; [intros x _; reflexivity|]. split; [intros _ (F & _); lia|reflexivity]. }
  destruct (N.ltb_spec cap (off + len c)).
  { injection H as <- <-. split; [intros x _; reflexivity|]. split; [intros _ (_ & F & _); lia|reflexivity]. }
  destruct (IH _ _ _ _ _ _ H) as (F & C). split.
  - intros x Hx. rewrite F by lia. apply (writem_within m (base + off) c). fold (len c). lia.
  - rewrite C. split; [tauto|]. intros X Y. apply X. auto.
Qed.

(** ** One record *)
Definition all_chunks (r : prec) : list (list N) := le_bytes 2 (p_type r) :: [0] :: [p_rev r] :: p_chunks r.

Lemma total_all : forall r, total (all_chunks r) = g_len (record_of r).
Proof. intros r. unfold all_chunks. rewrite !total_cons. unfold record_of, total, len. rewrite le_bytes_length. cbn [g_len length]. lia. Qed.

Lemma concat_all : forall r, concat (all_chunks r) = le_bytes 2 (p_type r) ++ [0; p_rev r] ++ concat (p_chunks r).
Proof. reflexivity. Qed.

Lemma fits_all : forall r cap off, off <= cap -> (fits cap off (all_chunks r) <-> fits_in r (cap - off)).
Proof.
  intros r cap off L. rewrite fits_iff by discriminate. rewrite total_all. unfold fits_in.
  assert (E : last (all_chunks r) [0] = [] <-> ends_empty r).
  { unfold all_chunks, ends_empty. destruct (p_chunks r) as [|c cs] eqn:P.
    - cbn. split; [discriminate|]. intros (x & X). destruct x; discriminate.
    - change (last (le_bytes 2 (p_type r) :: [0] :: [p_rev r] :: c :: cs) [0]) with (last (c :: cs) [0]). split.
      + intros X. exists (removelast (c :: cs)). rewrite <- X. apply app_removelast_last. discriminate.
      + intros (x & X). rewrite X. apply last_last. }
  rewrite E. split; intros (H1 & H2); (split; [lia|intros X; specialize (H2 X); lia]).
Qed.

Lemma le2 : forall v, exists a b, le_bytes 2 v = [a; b].
Proof. intros v. cbn [le_bytes]. eauto. Qed.

Lemma record_list_ok : forall r pre mid suf, well_formed (record_of r) -> fits_in r (len mid + len suf) -> len mid = g_len (record_of r) ->
  write_into put_list (pre ++ mid ++ suf) (len pre) r = (pre ++ stored (record_of r) ++ suf, Some (g_len (record_of r))).
Proof.
  intros r pre mid suf W F H. unfold write_into. fold (all_chunks r).
  assert (G : 4 <= g_len (record_of r) <= 255) by (destruct W as (_ & _ & _ & -> & W); split; [lia|exact W]).
  rewrite chunks_list_ok with (mid := mid); [|reflexivity|now rewrite total_all|apply fits_all; [rewrite len_app; lia|rewrite !len_app; destruct F as (F1 & F2); split; [lia|intros X; specialize (F2 X); lia]]].
  rewrite total_all. replace (len pre + g_len (record_of r) - len pre) with (g_len (record_of r)) by lia.
  rewrite concat_all. destruct (le2 (p_type r)) as (a & b & E). unfold stored. rewrite E. cbn [record_of g_type g_rev g_data].
  replace (pre ++ ([a; b] ++ [0; p_rev r] ++ concat (p_chunks r)) ++ suf) with ((pre ++ [a; b]) ++ [0] ++ (p_rev r :: concat (p_chunks r) ++ suf)) by (rewrite <- app_assoc; reflexivity).
  rewrite N.mod_small by lia. rewrite put_list_ok with (mid := [0]); [|rewrite len_app; reflexivity|reflexivity|rewrite !len_app; cbn; lia].
  f_equal. rewrite <- app_assoc. unfold record_of at 1 2. cbn [g_type g_len g_rev g_data]. rewrite E. reflexivity.
Qed.

Lemma record_mem_ok : forall r base cap m off, well_formed (record_of r) -> off <= cap -> fits_in r (cap - off) ->
  exists m', write_into (put_mem base cap) m off r = (m', Some (g_len (record_of r))) /\
    holds m' (base + off) (stored (record_of r)) /\ only_within m m' (base + off) (g_len (record_of r)).
Proof.
  intros r base cap m off W H0 H. unfold write_into. fold (all_chunks r).
  assert (G : 4 <= g_len (record_of r) <= 255) by (destruct W as (_ & _ & _ & -> & W); split; [lia|exact W]).
  destruct (chunks_mem_ok (all_chunks r) base cap m off) as (m1 & E & HH & FF); [apply fits_all; assumption|].
  destruct H as (H & _). rewrite E, total_all in *. replace (off + g_len (record_of r) - off) with (g_len (record_of r)) by lia. rewrite N.mod_small by lia.
  rewrite put_mem_ok; [|lia|unfold len; cbn [length]; lia].
  eexists. split; [reflexivity|]. rewrite concat_all in HH. destruct (le2 (p_type r)) as (a & b & E2). rewrite E2 in HH. unfold stored.
  change (g_type (record_of r)) with (p_type r). rewrite E2. change ([a; b] ++ [0; p_rev r] ++ concat (p_chunks r)) with ([a; b] ++ [0] ++ (p_rev r :: concat (p_chunks r))) in HH.
  change ([a; b] ++ [g_len (record_of r); g_rev (record_of r)] ++ g_data (record_of r)) with ([a; b] ++ [g_len (record_of r)] ++ (p_rev r :: concat (p_chunks r))).
  apply holds_app in HH. destruct HH as (H1 & H2). apply holds_app in H2. destruct H2 as (_ & H3). cbn [length] in H3.
  change (N.of_nat 2) with 2 in *. change (N.of_nat 1) with 1 in *.
  pose proof (writem_holds m1 (base + (off + 2)) [g_len (record_of r)]) as W1. pose proof (writem_within m1 (base + (off + 2)) [g_len (record_of r)]) as W2. cbn [length] in W2. change (N.of_nat 1) with 1 in W2.
  split.
  - apply holds_app. split; [eapply holds_frame; [exact W2|left; cbn; lia|exact H1]|]. cbn [length]. change (N.of_nat 2) with 2.
    apply holds_app. split; [replace (base + off + 2) with (base + (off + 2)) by lia; exact W1|]. cbn [length]. change (N.of_nat 1) with 1.
    eapply holds_frame; [exact W2|right; lia|exact H3].
  - intros x Hx. rewrite W2 by lia. apply FF. exact Hx.
Qed.

Lemma record_mem_frame : forall r base cap m off m' o, write_into (put_mem base cap) m off r = (m', o) ->
  only_within m m' (base + off) (cap - off).
Proof.
  intros r base cap m off m' o H. unfold write_into in H. fold (all_chunks r) in H.
  destruct (write_chunks (put_mem base cap) m off (all_chunks r)) as [m1 e] eqn:E. destruct (chunks_mem_frame _ _ _ _ _ _ _ E) as (F & _).
  destruct e as [e|]; [|injection H as <- <-; exact F]. unfold put_mem at 1 in H. destruct (N.leb_spec cap (off + 2)); [injection H as <- <-; exact F|].
  destruct (N.ltb_spec cap (off + 2 + len [(e - off) mod 256])); [injection H as <- <-; exact F|]. injection H as <- <-. cbn in *.
  intros x Hx. rewrite (writem_within m1 (base + (off + 2)) _ x) by (cbn; lia). apply F. exact Hx.
Qed.

Lemma record_mem_full : forall r base cap m off, off <= cap -> ~ fits_in r (cap - off) -> exists m', write_into (put_mem base cap) m off r = (m', None).
Proof.
  intros r base cap m off L H. unfold write_into. fold (all_chunks r). destruct (write_chunks (put_mem base cap) m off (all_chunks r)) as [m1 e] eqn:E.
  destruct (chunks_mem_frame _ _ _ _ _ _ _ E) as (_ & C). assert (e = None) as ->; [|eauto]. apply C. rewrite fits_all by exact L. exact H.
Qed.

(** A record that is too long for the vector: the three header values are there, with length zero. *)
Lemma record_list_long : forall r l, 255 < g_len (record_of r) ->
  exists l', write_into put_list (l ++ repeat 0 255) (len l) r = (l', None) /\ len l' = len l + 255 /\
    firstn (length l) l' = l /\ nth 2 (skipn (length l) l') 1 = 0.
Proof.
  intros r l H. unfold write_into. fold (all_chunks r).
  destruct (write_chunks put_list (l ++ repeat 0 255) (len l) (all_chunks r)) as [l' e] eqn:E.
  destruct (chunks_list_frame _ _ _ _ _ E) as (L & F & C).
  assert (LL : len (l ++ repeat 0 255) = len l + 255) by (rewrite len_app; reflexivity).
  assert (e = None) as ->. { apply C. intros X. apply fits_total in X; [|discriminate]. rewrite total_all, LL in X. lia. }
  exists l'. split; [reflexivity|]. split; [congruence|]. split.
  - rewrite F by (unfold len; lia). apply firstn_app_exact.
  - clear C F L. destruct (le2 (p_type r)) as (a & b & E2). unfold all_chunks in E. rewrite E2 in E.
    change (repeat 0 255) with ([0; 0] ++ [0] ++ [0] ++ repeat 0 251) in E.
    assert (HA : write_chunks put_list (l ++ [0; 0] ++ [0] ++ [0] ++ repeat 0 251) (len l) ([a; b] :: [0] :: [p_rev r] :: p_chunks r)
              = write_chunks put_list ((l ++ [a; b; 0; p_rev r]) ++ repeat 0 251) (len l + 4) (p_chunks r)).
    { cbn [write_chunks]. rewrite put_list_ok; [|reflexivity|reflexivity|rewrite !len_app; cbn; lia].
      rewrite (app_assoc l). rewrite put_list_ok; [|rewrite len_app; reflexivity|reflexivity|rewrite !len_app; cbn; lia].
      rewrite (app_assoc (l ++ [a; b])). rewrite put_list_ok; [|rewrite !len_app; cbn; lia|reflexivity|rewrite !len_app; cbn; lia].
      f_equal; [rewrite <- !app_assoc; reflexivity|unfold len; cbn; lia]. }
    rewrite HA in E. destruct (chunks_list_frame _ _ _ _ _ E) as (_ & F & _).
    specialize (F (length l + 4)%nat ltac:(unfold len; lia)).
    rewrite <- (firstn_skipn (length l + 4) l'), F. replace (length l + 4)%nat with (length (l ++ [a; b; 0; p_rev r])) at 1 by (rewrite app_length; reflexivity).
    rewrite firstn_app_exact, <- app_assoc, skipn_app_exact. reflexivity.
Qed.

(** ** Iterating *)
Lemma next_stored : forall g rest, well_formed g -> next_record (stored g ++ rest) = Ok (g, rest).
Proof.
  intros g rest (W1 & W2 & W3 & W4 & W5). unfold next_record, stored. destruct (le2 (g_type g)) as (a & b & E). rewrite E. cbn [app nth].
  assert (LT : len (a :: b :: g_len g :: g_rev g :: g_data g ++ rest) = 4 + len (g_data g) + len rest) by (unfold len; cbn [length]; rewrite app_length; lia).
  rewrite LT. unfold len in *. destruct (N.ltb_spec (4 + N.of_nat (length (g_data g)) + N.of_nat (length rest)) 4); [lia|].
  destruct (N.ltb_spec (g_len g) 4); [lia|]. destruct (N.ltb_spec (4 + N.of_nat (length (g_data g)) + N.of_nat (length rest)) (g_len g)); [lia|].
  assert (T : le_at (a :: b :: g_len g :: g_rev g :: g_data g ++ rest) 0 2 = g_type g).
  { unfold le_at. cbn [skipn firstn]. rewrite <- E. apply le_val_bytes. exact W1. }
  rewrite T. cbn [skipn]. replace (N.to_nat (g_len g - 4)) with (length (g_data g)) by lia. rewrite firstn_app_exact.
  replace (N.to_nat (g_len g)) with (4 + length (g_data g))%nat by lia. cbn [Nat.add skipn]. rewrite skipn_app_exact. destruct g; reflexivity.
Qed.

Lemma stored_length : forall g, len (stored g) = 4 + len (g_data g).
Proof. intros g. unfold stored, len. rewrite !app_length, le_bytes_length. cbn [length]. lia. Qed.

Lemma iter_stream_fuel : forall gs n, Forall well_formed gs -> (length (stream gs) <= n)%nat -> iter_fuel n (stream gs) = Ok gs.
Proof.
  induction gs as [|g gs IH]; intros n W L; [destruct n; reflexivity|]. inversion W as [|? ? W1 W2]; subst. change (stream (g :: gs)) with (stored g ++ stream gs) in *.
  pose proof (stored_length g) as SL. unfold len in SL. rewrite app_length in L. destruct n as [|n]; [lia|].
  destruct (stored g ++ stream gs) as [|z zs] eqn:E; [apply (f_equal (@length N)) in E; rewrite app_length in E; cbn in E; lia|].
  cbn [iter_fuel]. rewrite <- E, next_stored by exact W1. cbn [bind]. rewrite IH by (auto; lia). reflexivity.
Qed.

Lemma iter_stream : forall gs, Forall well_formed gs -> iter (stream gs) = Ok gs.
Proof. intros gs W. apply iter_stream_fuel; [exact W|lia]. Qed.

Lemma next_inv : forall l g rest, bytes_ok l -> next_record l = Ok (g, rest) -> l = stored g ++ rest /\ well_formed g /\ bytes_ok rest.
Proof.
  intros l g rest HB H. unfold next_record in H. destruct (N.ltb_spec (len l) 4) as [|L4]; [discriminate|].
  unfold len in L4. destruct l as [|a [|b [|n [|rv l]]]]; try (exfalso; cbn [length] in L4; lia). cbn [nth] in H.
  destruct (N.ltb_spec n 4) as [|N4]; [discriminate|]. destruct (N.ltb_spec (len (a :: b :: n :: rv :: l)) n) as [|NL]; [discriminate|].
  injection H as <- <-. assert (HN : N.to_nat n = (4 + N.to_nat (n - 4))%nat) by lia. rewrite HN. cbn [Nat.add skipn].
  unfold le_at. cbn [skipn firstn].
  assert (B : a < 256 /\ b < 256 /\ n < 256 /\ rv < 256 /\ bytes_ok l).
  { inversion HB as [|? ? B1 X1]; subst. inversion X1 as [|? ? B2 X2]; subst. inversion X2 as [|? ? B3 X3]; subst. inversion X3; subst. auto 6. }
  destruct B as (B1 & B2 & B3 & B4 & B5). unfold len in NL. cbn [length] in NL.
  split.
  - unfold stored. cbn [g_type g_len g_rev g_data]. change 2%nat with (length [a; b]) at 1. rewrite le_bytes_val by (repeat constructor; assumption).
    cbn [app]. do 4 f_equal. symmetry. apply firstn_skipn.
  - split; [|apply Forall_forall; intros x Hx; unfold bytes_ok in B5; rewrite Forall_forall in B5; apply B5; rewrite <- (firstn_skipn (N.to_nat (n - 4)) l); apply in_or_app; right; exact Hx].
    unfold well_formed. cbn [g_type g_len g_rev g_data]. split.
    + pose proof (le_val_bound [a; b] ltac:(repeat constructor; assumption)) as X. exact X.
    + split; [exact B4|]. split; [apply Forall_forall; intros x Hx; unfold bytes_ok in B5; rewrite Forall_forall in B5; apply B5; rewrite <- (firstn_skipn (N.to_nat (n - 4)) l); apply in_or_app; left; exact Hx|].
      split; [rewrite firstn_length; lia|lia].
Qed.

Lemma iter_inv_fuel : forall n l gs, bytes_ok l -> iter_fuel n l = Ok gs -> l = stream gs /\ Forall well_formed gs.
Proof.
  induction n as [|n IH]; intros l gs HB H.
  { destruct l; [injection H as <-; split; [reflexivity|constructor]|discriminate]. }
  destruct l as [|z zs]; [injection H as <-; split; [reflexivity|constructor]|]. cbn [iter_fuel] in H. set (l := z :: zs) in *.
  destruct (next_record l) as [(g, rest)| |] eqn:E; cbn [bind] in H; try discriminate. destruct (next_inv l g rest HB E) as (E1 & W & HR).
  destruct (iter_fuel n rest) as [gs'| |] eqn:E2; cbn [bind] in H; try discriminate. injection H as <-. destruct (IH rest gs' HR E2) as (E3 & WS).
  split; [|constructor; assumption]. rewrite E1. unfold stream. cbn [map concat]. f_equal. exact E3.
Qed.

Lemma iter_no_err_fuel : forall n l, (length l <= n)%nat -> iter_fuel n l <> Err tt.
Proof.
  induction n as [|n IH]; intros l L; destruct l as [|z zs]; try (cbn; discriminate). { cbn in L; lia. }
  cbn [iter_fuel]. set (l := z :: zs) in *. destruct (next_record l) as [(g, rest)| |] eqn:E; cbn [bind]; try discriminate.
  2:{ unfold next_record in E. destruct (len l <? 4); [discriminate|]. destruct (nth 2 l 0 <? 4); [discriminate|]. destruct (len l <? nth 2 l 0); discriminate. }
  assert (LR : (length rest <= n)%nat).
  { unfold next_record in E. destruct (N.ltb_spec (len l) 4); [discriminate|]. destruct (N.ltb_spec (nth 2 l 0) 4); [discriminate|]. destruct (N.ltb_spec (len l) (nth 2 l 0)); [discriminate|].
    assert (rest = skipn (N.to_nat (nth 2 l 0)) l) as -> by congruence. rewrite skipn_length. lia. }
  specialize (IH rest LR). destruct (iter_fuel n rest) as [gs|[]|]; cbn [bind]; congruence.
Qed.
