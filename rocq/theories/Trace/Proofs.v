(** Reading images, tables and unwind information. *)
From Verif Require Import Base.Prelude Base.Bytes Mm.Model Mm.Spec Mm.Props Trace.Model Trace.Spec.
From Coq Require Import ZifyBool ZifyNat ZifyN.
Local Open Scope N_scope.
Ltac Zify.zify_post_hook ::= Z.div_mod_to_equations.

Lemma rd_ok : forall m s off n v, holds m (sl_base s + off) (le_bytes n v) -> v < 256 ^ N.of_nat n -> off + N.of_nat n <= sl_len s -> rd m s off n = Ok v.
Proof.
  intros m s off n v H V L. unfold rd. destruct (N.ltb_spec (sl_len s) (off + N.of_nat n)) as [C|_]; [lia|].
  assert (E : readm m (sl_base s + off) n = le_bytes n v) by (apply readm_holds; [apply le_bytes_length | exact H]).
  rewrite E, le_val_bytes by exact V. reflexivity.
Qed.

Lemma rd_at : forall m b len off n v a, holds m a (le_bytes n v) -> a = b + off -> v < 256 ^ N.of_nat n -> off + N.of_nat n <= len -> rd m (Slice b len) off n = Ok v.
Proof. intros m b len off n v a H -> V L. apply rd_ok; assumption. Qed.

(** The value read is the bytes. *)
Lemma rd_inv : forall m s off n v, mem_ok m -> rd m s off n = Ok v -> holds m (sl_base s + off) (le_bytes n v) /\ v < 256 ^ N.of_nat n /\ off + N.of_nat n <= sl_len s.
Proof.
  intros m s off n v K H. unfold rd in H. destruct (N.ltb_spec (sl_len s) (off + N.of_nat n)) as [C|L]; [discriminate|]. injection H as <-.
  assert (B : bytes_ok (readm m (sl_base s + off) n)).
  { apply Forall_forall. intros x X. apply (In_nth _ _ 0) in X. destruct X as [i [I <-]]. rewrite readm_length in I. rewrite nth_readm by exact I. apply K. }
  assert (Q := le_bytes_val _ B). rewrite readm_length in Q.
  split; [|split; [|exact L]].
  - apply (proj1 (readm_holds m (sl_base s + off) (le_bytes n (le_val (readm m (sl_base s + off) n))) n (le_bytes_length _ _))). symmetry. exact Q.
  - assert (Z := le_val_bound _ B). rewrite readm_length in Z. exact Z.
Qed.

Lemma rd_short : forall m s off n, sl_len s < off + N.of_nat n -> rd m s off n = Err BufferTooShort.
Proof. intros m s off n H. unfold rd. destruct (N.ltb_spec (sl_len s) (off + N.of_nat n)); [reflexivity | lia]. Qed.

Lemma codeview_sound : forall m n base len r s, mem_ok m -> codeview n m base len = Some (r, s) ->
  s = 0 \/ exists k, 28 * k + 0x14 <= len /\ holds m (base + 28 * k + 0xC) [2; 0; 0; 0] /\ holds m (base + 28 * k + 0x10) (le_bytes 4 s) /\ s < 2 ^ 32.
Proof.
  intros m n. induction n as [|n IH]; intros base len r s K H; simpl in H; [discriminate|].
  destruct (rd_or_0 m (Slice base (N.min 28 len)) 12 4 =? 2) eqn:T.
  - injection H as Er Es. unfold rd_or_0 in Es, T.
    destruct (rd m (Slice base (N.min 28 len)) 16 4) as [v|e|] eqn:R.
    + right. exists 0. apply rd_inv in R; [|exact K]. destruct R as [R1 [R2 R3]].
      destruct (rd m (Slice base (N.min 28 len)) 12 4) as [t|e|] eqn:Q; [|discriminate|discriminate].
      apply N.eqb_eq in T. subst t. apply rd_inv in Q; [|exact K]. destruct Q as [Q1 [Q2 Q3]]. cbn [sl_base sl_len] in *. subst v.
      change (256 ^ N.of_nat 4) with (2 ^ 32) in R2.
      replace (base + 28 * 0 + 12) with (base + 12) by lia. replace (base + 28 * 0 + 16) with (base + 16) by lia.
      split; [lia|]. split; [exact Q1|]. split; assumption.
    + left. lia.
    + left. lia.
  - destruct (IH _ _ _ _ K H) as [Z | [k [A [B [C D]]]]]; [left; exact Z|]. destruct (N.le_gt_cases 28 len) as [L|L].
    + right. exists (k + 1). split; [lia|]. replace (base + 28 * (k + 1) + 12) with (base + 28 + 28 * k + 12) by lia.
      replace (base + 28 * (k + 1) + 16) with (base + 28 + 28 * k + 16) by lia. auto.
    + lia.
Qed.

Lemma name_fine : forall m base rva n, mem_ok m -> no_short_record m (base + rva) n -> image_name m base rva n = Ok tt.
Proof.
  intros m base rva n K H. unfold image_name. destruct (codeview _ _ _ _) as [[r s]|] eqn:C; [|reflexivity].
  destruct (codeview_sound _ _ _ _ _ _ K C) as [-> | [k [A [B [D E]]]]].
  - rewrite Bool.orb_comm. reflexivity.
  - destruct (H k s A B D E) as [-> | L]; [rewrite Bool.orb_comm; reflexivity|].
    destruct (_ || _); [reflexivity|]. destruct (negb _); [reflexivity|]. destruct (N.ltb_spec s 24); [lia | reflexivity].
Qed.

Lemma page_skipped : forall m p, mem_ok m -> no_image m (4096 * N.of_nat (S p)) -> locate_from m (S p) = locate_from m p.
Proof.
  intros m p K H. cbn [locate_from]. remember (4096 * N.of_nat (S p)) as b eqn:EB. clear EB.
  destruct (rd m (Slice b 4096) 0 2) as [v|e|] eqn:R.
  2:{ unfold rd in R. cbn [sl_len] in R. destruct (N.ltb_spec 4096 (0 + N.of_nat 2)); [lia | discriminate]. }
  2:{ unfold rd in R. cbn [sl_len] in R. destruct (N.ltb_spec 4096 (0 + N.of_nat 2)); [lia | discriminate]. }
  cbn [bind]. destruct (v =? MZ) eqn:V; [|reflexivity]. apply N.eqb_eq in V. subst v.
  apply rd_inv in R; [|exact K]. destruct R as [R _]. cbn [sl_base] in R. replace (b + 0) with b in R by lia.
  assert (R0 := R 0%nat ltac:(cbn; lia)). assert (R1 := R 1%nat ltac:(cbn; lia)). rewrite N.add_0_r in R0. cbn in R0. change (N.of_nat 1) with 1 in R1. cbn in R1.
  destruct H as [H|[H|(x & X1 & X2 & X3)]]; [contradiction | contradiction |].
  rewrite (rd_at m b 4096 PE_POINTER 4 x (b + 60)) by (first [exact X1 | unfold PE_POINTER; change (256 ^ N.of_nat 4) with (2 ^ 32); lia]). cbn [bind].
  destruct (rd m (Slice b 4096) x 4) as [v|e|] eqn:Q.
  2:{ unfold rd in Q. cbn [sl_len] in Q. destruct (N.ltb_spec 4096 (x + N.of_nat 4)); [lia | discriminate]. }
  2:{ unfold rd in Q. cbn [sl_len] in Q. destruct (N.ltb_spec 4096 (x + N.of_nat 4)); [lia | discriminate]. }
  cbn [bind]. destruct (v =? PE_SIGNATURE) eqn:V; [|reflexivity]. apply N.eqb_eq in V. subst v.
  apply rd_inv in Q; [|exact K]. destruct Q as [Q _]. cbn [sl_base] in Q. contradiction.
Qed.

Lemma locate_ok : forall m a pe size, mem_ok m -> image_at m a pe size -> a <> 0 -> forall p,
  a <= 4096 * N.of_nat p -> (forall b, b mod 4096 = 0 -> a < b <= 4096 * N.of_nat p -> no_image m b) ->
  locate_from m p = Ok (Slice a size).
Proof.
  intros m a pe size K I Z p. destruct I as [I1 I2 I3 I4 I5 I6 I7 [rva [n [D1 [D2 [D3 [D4 D5]]]]]] I9].
  induction p as [|p IH]; intros L F; [lia|].
  remember (4096 * N.of_nat (S p)) as base eqn:EB.
  destruct (N.eq_dec a base) as [E|E].
  - cbn [locate_from]. rewrite <- EB. subst a.
    rewrite (rd_at m base 4096 0 2 MZ base) by (first [exact I2 | unfold MZ; lia]). cbn [bind]. rewrite N.eqb_refl.
    rewrite (rd_at m base 4096 PE_POINTER 4 pe (base + 60)) by (first [exact I3 | unfold PE_POINTER; change (256 ^ N.of_nat 4) with (2 ^ 32); lia]). cbn [bind].
    rewrite (rd_at m base 4096 pe 4 PE_SIGNATURE (base + pe)) by (first [exact I4 | unfold PE_SIGNATURE; lia]). cbn [bind]. rewrite N.eqb_refl.
    rewrite (rd_at m base 4096 (pe + SIZE_OF_IMAGE) 4 size (base + pe + 80)) by (first [exact I6 | unfold SIZE_OF_IMAGE; change (256 ^ N.of_nat 4) with (2 ^ 32); lia]). cbn [bind].
    unfold rd_or_0.
    rewrite (rd_at m base 4096 (pe + DEBUG_DIR) 4 rva (base + pe + 184)) by (first [exact D3 | unfold DEBUG_DIR, EXC64; change (256 ^ N.of_nat 4) with (2 ^ 32); lia]).
    rewrite (rd_at m base 4096 (pe + DEBUG_DIR + 4) 4 n (base + pe + 188)) by (first [exact D4 | unfold DEBUG_DIR, EXC64; change (256 ^ N.of_nat 4) with (2 ^ 32); lia]).
    rewrite (name_fine _ _ _ _ K D5). destruct (negb (n =? 0)); reflexivity.
  - assert (NI : no_image m (4096 * N.of_nat (S p))) by (apply F; [lia | rewrite EB in *; lia]).
    change (locate_from m (S p) = Ok (Slice a size)). rewrite (page_skipped m p K NI). apply IH; [lia|]. intros b B1 B2. apply F; [exact B1 | lia].
Qed.

Lemma locate_image_ok : forall m pc a pe size, mem_ok m -> image_before m pc a pe size -> locate_image m pc = Ok (Slice a size).
Proof.
  intros m pc a pe size K [I [Z [L F]]]. unfold locate_image. assert (A := ia_aligned _ _ _ _ I). apply (locate_ok m a pe size K I Z).
  - lia.
  - intros b B1 B2. apply F; [exact B1 | lia].
Qed.

Lemma table_ok : forall m a pe size rva n, image_at m a pe size -> table_at m a pe size rva n -> exception_table m (Slice a size) = Ok (rva, 12 * n).
Proof.
  intros m a pe size rva n I [T1 [T2 [T3 [T4 [T5 [T6 [T7 T8]]]]]]]. unfold exception_table. destruct I as [I1 I2 I3 I4 I5 I6 I7 I8 I9].
  rewrite (rd_at m a size PE_POINTER 4 pe (a + 60)) by (first [exact I3 | unfold PE_POINTER; change (256 ^ N.of_nat 4) with (2 ^ 32); lia]). cbn [bind].
  rewrite (rd_at m a size (pe + PE_MAGIC) 2 PE64 (a + pe + 24)) by (first [exact T1 | unfold PE_MAGIC, PE64; lia]). cbn [bind]. rewrite N.eqb_refl.
  rewrite (rd_at m a size (pe + EXC64) 4 rva (a + pe + 160)) by (first [exact T2 | unfold EXC64; change (256 ^ N.of_nat 4) with (2 ^ 32); lia]). cbn [bind].
  rewrite (rd_at m a size (pe + EXC64 + 4) 4 (12 * n) (a + pe + 164)) by (first [exact T3 | unfold EXC64; change (256 ^ N.of_nat 4) with (2 ^ 32); lia]). cbn [bind].
  destruct (N.eqb_spec rva 0); [lia|]. destruct (N.eqb_spec (12 * n) 0); [lia|]. reflexivity.
Qed.

Lemma entry_rd : forall m t k s e u len, entry m t k s e u -> 12 <= len ->
  rd m (Slice (t + 12 * k) (N.min 12 len)) 0 4 = Ok s /\ rd m (Slice (t + 12 * k) (N.min 12 len)) 4 4 = Ok e /\ rd m (Slice (t + 12 * k) (N.min 12 len)) 8 4 = Ok u.
Proof.
  intros m t k s e u len [H [S1 [S2 S3]]] L. apply holds_app in H. destruct H as [H1 H]. apply holds_app in H. destruct H as [H2 H3]. rewrite !le_bytes_length in *.
  split; [|split].
  - apply (rd_at _ _ _ _ _ _ _ H1); [lia | exact S1 | lia].
  - apply (rd_at _ _ _ _ _ _ _ H2); [lia | exact S2 | lia].
  - apply (rd_at _ _ _ _ _ _ _ H3); [lia | exact S3 | lia].
Qed.

Lemma find_entry_ok : forall m t rva d n j k s e u, entry m t k s e u -> s <= rva <= e -> k = j + N.of_nat d -> (d < n)%nat ->
  (forall i, j <= i < k -> exists s e u, entry m t i s e u) ->
  (forall i s e u, j <= i < k -> entry m t i s e u -> rva < s \/ e < rva) ->
  forall len, 12 * N.of_nat n <= len -> find_entry n m (t + 12 * j) len rva = Ok (s, e, u).
Proof.
  intros m t rva d. induction d as [|d IH]; intros n j k s e u E B K L X F len Q; (destruct n as [|n]; [lia|]); cbn [find_entry].
  - replace j with k by lia. destruct (entry_rd _ _ _ _ _ _ len E ltac:(lia)) as [R1 [R2 R3]]. rewrite R1, R2, R3.
    destruct (N.leb_spec s rva); [|lia]. destruct (N.leb_spec rva e); [|lia]. reflexivity.
  - destruct (X j) as [s0 [e0 [u0 E0]]]; [lia|]. destruct (entry_rd _ _ _ _ _ _ len E0 ltac:(lia)) as [R1 [R2 R3]]. rewrite R1, R2, R3.
    assert (O := F j s0 e0 u0 ltac:(lia) E0).
    assert (C : (s0 <=? rva) && (rva <=? e0) = false) by lia. rewrite C.
    replace (t + 12 * j + 12) with (t + 12 * (j + 1)) by lia. apply (IH n (j + 1) k); [exact E | exact B | lia | lia | | | lia].
    + intros i I. apply X. lia.
    + intros i s1 e1 u1 I. apply F. lia.
Qed.

Lemma find_function_ok : forall dbg m a pe size rva n k s e u pc, image_at m a pe size -> table_at m a pe size rva n -> k < n ->
  entry m (a + rva) k s e u -> s <= pc <= e -> (forall j s e u, j < k -> entry m (a + rva) j s e u -> pc < s \/ e < pc) ->
  find_function dbg m (Slice a size) pc = Ok (s, e, u).
Proof.
  intros dbg m a pe size rva n k s e u pc I T K E B F. unfold find_function. rewrite (table_ok _ _ _ _ _ _ I T). cbn [bind].
  destruct I as [I1 I2 I3 I4 I5 I6 I7 I8 I9]. destruct T as [T1 [T2 [T3 [T4 [T5 [T6 [T7 T8]]]]]]]. cbn [sl_base sl_len].
  assert (M : rva + 12 * n < two32) by (unfold two32; lia).
  destruct (N.leb_spec two32 (rva + 12 * n)); [lia|]. rewrite Bool.andb_false_r. rewrite N.mod_small by exact M.
  destruct (N.ltb_spec (rva + 12 * n) rva); [lia|]. destruct (N.ltb_spec size (rva + 12 * n)); [lia|]. cbn [orb].
  replace (rva + 12 * n - rva) with (12 * n) by lia. replace ((12 * n + 11) / 12) with n by lia.
  replace (a + rva) with (a + rva + 12 * 0) by lia. apply (find_entry_ok m (a + rva) pc (N.to_nat k) (N.to_nat n) 0 k); [exact E | exact B | lia | lia | | | lia].
  - intros i Q. apply T8. lia.
  - intros i s0 e0 u0 Q. apply F. lia.
Qed.

Lemma codes_ok : forall m a size info v prolog frame codes, holds m (a + info) ([v; prolog; N.of_nat (length codes) / 2; frame] ++ codes) ->
  info + 4 + N.of_nat (length codes) < size -> v mod 8 = 1 \/ v mod 8 = 2 -> N.of_nat (length codes) mod 2 = 0 ->
  unwind_codes m (Slice a size) info = Ok codes.
Proof.
  intros m a size info v prolog frame codes H L V E. unfold unwind_codes. cbn [sl_base sl_len]. destruct (N.ltb_spec size info); [lia|].
  apply holds_app in H. destruct H as [H1 H2].
  assert (G : forall i, (i < 4)%nat -> rd m (Slice (a + info) (size - info)) (N.of_nat i) 1 = Ok (nth i [v; prolog; N.of_nat (length codes) / 2; frame] 0)).
  { intros i I. unfold rd. cbn [sl_base sl_len]. destruct (N.ltb_spec (size - info) (N.of_nat i + N.of_nat 1)); [lia|]. f_equal. unfold readm. cbn [map seq le_val].
    replace (a + info + N.of_nat i + N.of_nat 0) with (a + info + N.of_nat i) by lia. rewrite (H1 i) by exact I. lia. }
  assert (G0 := G 0%nat ltac:(lia)). assert (G1 := G 1%nat ltac:(lia)). assert (G2 := G 2%nat ltac:(lia)). assert (G3 := G 3%nat ltac:(lia)).
  change (N.of_nat 0) with 0 in G0. change (N.of_nat 1) with 1 in G1. change (N.of_nat 2) with 2 in G2. change (N.of_nat 3) with 3 in G3.
  rewrite G0, G1, G2, G3. cbn [nth].
  assert (C : negb (v mod 8 =? 1) && negb (v mod 8 =? 2) = false) by lia. rewrite C.
  destruct (N.leb_spec (size - info) (4 + N.of_nat (length codes) / 2 * 2)); [lia|]. f_equal.
  replace (N.to_nat (N.of_nat (length codes) / 2 * 2)) with (length codes) by lia. apply readm_holds; [reflexivity|]. exact H2.
Qed.

Lemma encode_even : forall ops, N.of_nat (length (encode ops)) mod 2 = 0.
Proof.
  unfold encode. induction ops as [|[p o] l IH]; [reflexivity|]. cbn [map concat]. rewrite app_length.
  assert (E : exists q, N.of_nat (length (encode_op (fst (p, o)) (snd (p, o)))) = 2 * q) by (destruct o; cbn; eexists; first [reflexivity | (instantiate (1 := 1); reflexivity) | (instantiate (1 := 2); reflexivity) | (instantiate (1 := 3); reflexivity)]).
  destruct E as [q Q]. lia.
Qed.
