(** C69: a stack trace shows the calls that are on the stack. *)
From Verif Require Import Base.Prelude Base.Bytes Mm.Model Mm.Spec Mm.Props Trace.Model Trace.Spec Trace.Proofs.
From Coq Require Import ZifyBool ZifyNat ZifyN.
Local Open Scope N_scope.
Ltac Zify.zify_post_hook ::= Z.div_mod_to_equations.

(** ** The frame of a function *)

Lemma codes_cons : forall p b r acc, codes_offset (p :: b :: r) acc =
  (let opcode := b mod 16 in let info := b / 16 in
   if opcode =? 0 then codes_offset r (acc + 8)
   else if opcode =? 1 then
     if info =? 0 then match r with x :: y :: r' => codes_offset r' (acc + le_val [x; y] * 8) | _ => Err BufferTooShort end
     else if info =? 1 then match r with w :: x :: y :: z :: r' => codes_offset r' (acc + le_val [w; x; y; z]) | _ => Err BufferTooShort end
     else Err Malformed
   else if opcode =? 2 then codes_offset r (acc + (info * 8 + 8))
   else if opcode =? 3 then codes_offset r acc
   else if opcode =? 4 then match r with _ :: _ :: r' => codes_offset r' acc | _ => Err BufferTooShort end
   else if opcode =? 5 then match r with _ :: _ :: _ :: _ :: r' => codes_offset r' acc | _ => Err BufferTooShort end
   else if opcode <=? 10 then codes_offset r acc
   else Panic).
Proof. reflexivity. Qed.

Lemma code_byte : forall p q c r acc, c < 16 -> codes_offset (p :: (16 * q + c) :: r) acc =
  (if c =? 0 then codes_offset r (acc + 8)
   else if c =? 1 then
     if q =? 0 then match r with x :: y :: r' => codes_offset r' (acc + le_val [x; y] * 8) | _ => Err BufferTooShort end
     else if q =? 1 then match r with w :: x :: y :: z :: r' => codes_offset r' (acc + le_val [w; x; y; z]) | _ => Err BufferTooShort end
     else Err Malformed
   else if c =? 2 then codes_offset r (acc + (q * 8 + 8))
   else if c =? 3 then codes_offset r acc
   else if c =? 4 then match r with _ :: _ :: r' => codes_offset r' acc | _ => Err BufferTooShort end
   else if c =? 5 then match r with _ :: _ :: _ :: _ :: r' => codes_offset r' acc | _ => Err BufferTooShort end
   else if c <=? 10 then codes_offset r acc
   else Panic).
Proof. intros p q c r acc H. rewrite codes_cons. replace ((16 * q + c) mod 16) with c by lia. replace ((16 * q + c) / 16) with q by lia. reflexivity. Qed.

Lemma le4 : forall n, n < 2 ^ 32 -> exists w x y z, le_bytes 4 n = [w; x; y; z] /\ le_val [w; x; y; z] = n.
Proof. intros n H. do 4 eexists. split; [reflexivity|]. exact (le_val_bytes 4 n H). Qed.
Lemma le2 : forall n, n < 65536 -> exists x y, le_bytes 2 n = [x; y] /\ le_val [x; y] = n.
Proof. intros n H. do 2 eexists. split; [reflexivity|]. exact (le_val_bytes 2 n H). Qed.

Lemma one_op : forall p o r acc, op_ok o -> ~ saves_xmm o -> codes_offset (encode_op p o ++ r) acc = codes_offset r (acc + op_size o).
Proof.
  intros p o r acc K X. destruct o as [q|n|n|n|q|q k|q k|q k|q k]; cbn [encode_op op_ok op_size saves_xmm] in *; try (exfalso; exact (X I)).
  - cbn [app]. replace (16 * q) with (16 * q + 0) by lia. rewrite code_byte by lia. reflexivity.
  - cbn [app]. rewrite code_byte by lia. cbn [N.eqb Pos.eqb]. f_equal. lia.
  - destruct (le2 n K) as [x [y [E V]]]. rewrite E. cbn [app]. change 1 with (16 * 0 + 1) at 1. rewrite code_byte by lia. cbn [N.eqb Pos.eqb]. rewrite V. f_equal. lia.
  - destruct (le4 n K) as [w [x [y [z [E V]]]]]. rewrite E. cbn [app]. change 17 with (16 * 1 + 1) at 1. rewrite code_byte by lia. cbn [N.eqb Pos.eqb]. rewrite V. reflexivity.
  - cbn [app]. rewrite code_byte by lia. cbn [N.eqb Pos.eqb]. f_equal. lia.
  - destruct K as [_ K]. destruct (le2 k K) as [x [y [E V]]]. rewrite E. cbn [app]. rewrite code_byte by lia. cbn [N.eqb Pos.eqb]. f_equal. lia.
  - destruct K as [_ K]. destruct (le4 k K) as [w [x [y [z [E V]]]]]. rewrite E. cbn [app]. rewrite code_byte by lia. cbn [N.eqb Pos.eqb]. f_equal. lia.
Qed.

Lemma offset_from : forall ops r acc, Forall (fun p => op_ok (snd p)) ops -> Forall (fun p => ~ saves_xmm (snd p)) ops ->
  codes_offset (encode ops ++ r) acc = codes_offset r (acc + frame_size (map snd ops)).
Proof.
  unfold encode. induction ops as [|[p o] l IH]; intros r acc K X; cbn [map concat frame_size fold_right].
  - cbn [app]. f_equal. lia.
  - inversion K as [|? ? K0 K1]; subst. inversion X as [|? ? X0 X1]; subst. cbn [fst snd] in *. rewrite <- app_assoc, one_op by assumption.
    rewrite IH by assumption. f_equal. unfold frame_size. lia.
Qed.

(** C69: from the unwind codes of any prolog without XMM saves, the size of the frame: exactly the bytes pushed and
    allocated. *)
Theorem c69_offset : forall ops, Forall (fun p => op_ok (snd p)) ops -> Forall (fun p => ~ saves_xmm (snd p)) ops ->
  codes_offset (encode ops) 0 = Ok (frame_size (map snd ops)).
Proof. intros ops K X. rewrite <- (app_nil_r (encode ops)), offset_from by assumption. cbn. f_equal. Qed.

(** What a prolog with XMM saves is taken for: the offsets of these saves are read as codes.  A save whose slot has a number
    below 256 counts as eight bytes of frame. *)
Definition small_xmm (o : op) : Prop := match o with SaveXmm _ k => k < 256 | SaveXmmFar _ _ => False | _ => True end.
Definition xmm_saves (ops : list op) : N := N.of_nat (length (filter (fun o => match o with SaveXmm _ _ => true | _ => false end) ops)).
Theorem c69_xmm_refuted : forall ops, Forall (fun p => op_ok (snd p)) ops -> Forall (fun p => small_xmm (snd p)) ops ->
  codes_offset (encode ops) 0 = Ok (frame_size (map snd ops) + 8 * xmm_saves (map snd ops)).
Proof.
  intros ops K X.
  assert (G : forall ops acc, Forall (fun p => op_ok (snd p)) ops -> Forall (fun p => small_xmm (snd p)) ops ->
    codes_offset (encode ops) acc = Ok (acc + (frame_size (map snd ops) + 8 * xmm_saves (map snd ops)))).
  { clear. unfold encode, xmm_saves. induction ops as [|[p o] l IH]; intros acc K X; cbn [map concat frame_size fold_right filter length].
    - cbn. f_equal. lia.
    - inversion K as [|? ? K0 K1]; subst. inversion X as [|? ? X0 X1]; subst. cbn [fst snd] in *. destruct o as [q|n|n|n|q|q k|q k|q k|q k];
        try (rewrite one_op by (try exact K0; intros []); rewrite IH by assumption; f_equal; unfold frame_size; cbn [op_size]; lia); cbn [small_xmm] in X0.
      + cbn [encode_op op_ok] in *. assert (E : le_bytes 2 k = [k; 0]) by (cbn [le_bytes]; f_equal; [lia | f_equal; lia]). rewrite E. cbn [app]. rewrite code_byte by lia. cbn [N.eqb Pos.eqb N.leb N.compare Pos.compare Pos.compare_cont].
        rewrite codes_cons. cbv zeta. change (0 mod 16) with 0. cbn [N.eqb]. rewrite IH by assumption. f_equal. cbn [length]. unfold frame_size. cbn [op_size]. lia.
      + exfalso. exact X0. }
  rewrite G by assumption. f_equal.
Qed.

(** And one whose slot number has 11 to 15 as the low half of its second byte is a panic. *)
Theorem c69_xmm_panic_refuted : forall ops p r k rest, Forall (fun p => op_ok (snd p)) ops -> Forall (fun p => ~ saves_xmm (snd p)) ops ->
  r < 16 -> k < 65536 -> 11 <= k / 256 mod 16 -> codes_offset (encode (ops ++ (p, SaveXmm r k) :: rest)) 0 = Panic.
Proof.
  intros ops p r k rest K X R B H. unfold encode. rewrite map_app, concat_app. fold (encode ops). rewrite offset_from by assumption. cbn [map concat fst snd encode_op].
  assert (E : le_bytes 2 k = [k mod 256; k / 256]) by (cbn [le_bytes]; f_equal; f_equal; lia). rewrite E. cbn [app]. rewrite code_byte by lia.
  cbn [N.eqb Pos.eqb N.leb N.compare Pos.compare Pos.compare_cont]. rewrite codes_cons. cbv zeta.
  destruct (N.eqb_spec (k / 256 mod 16) 0); [lia|]. destruct (N.eqb_spec (k / 256 mod 16) 1); [lia|]. destruct (N.eqb_spec (k / 256 mod 16) 2); [lia|].
  destruct (N.eqb_spec (k / 256 mod 16) 3); [lia|]. destruct (N.eqb_spec (k / 256 mod 16) 4); [lia|]. destruct (N.eqb_spec (k / 256 mod 16) 5); [lia|].
  destruct (N.leb_spec (k / 256 mod 16) 10); [lia|]. reflexivity.
Qed.

Lemma uadd_ok : forall dbg a b, a + b < 2 ^ 64 -> uadd (E:=sterr) dbg a b = Ok (a + b).
Proof. intros dbg a b H. unfold uadd, two64. destruct (N.ltb_spec (a + b) (2 ^ 64)); [|lia]. reflexivity. Qed.

(** ** One call *)

Lemma info_of : forall dbg m pc a ops, in_function m pc a ops ->
  exists img s e u, locate_image m pc = Ok img /\ sl_base img = a /\ find_function dbg m img ((pc - a) mod two32) = Ok (s, e, u) /\
    unwind_codes m img u = Ok (encode ops) /\ a <= pc.
Proof.
  intros dbg m pc a ops F.
  destruct F as [[pe [size [rva [n [k [s [e [u [v [pl [fr [[IB IN] [T [K [E [B [FST [L [V [V2 H]]]]]]]]]]]]]]]]]]]] O C M].
  exists (Slice a size), s, e, u. assert (LOC := locate_image_ok _ _ _ _ _ M IB). destruct IB as [IA [NZ [LE NI]]].
  split; [exact LOC|]. split; [reflexivity|].
  assert (SZ := ia_bounded _ _ _ _ IA). split; [|split; [|exact LE]].
  - rewrite N.mod_small by (unfold two32; lia). apply (find_function_ok dbg m a pe size rva n k s e u (pc - a) IA T K E); [lia | exact FST].
  - apply (codes_ok m a size u v pl fr (encode ops) H); [lia | exact V | apply encode_even].
Qed.

Lemma step_ok : forall dbg m pc sp a ops sp1 pc1, in_function m pc a ops -> Forall (fun p => ~ saves_xmm (snd p)) ops ->
  returns_to m sp ops sp1 pc1 -> step dbg m pc sp = Ok (Line sp pc1 (pc - a), sp1, pc1).
Proof.
  intros dbg m pc sp a ops sp1 pc1 F X [R1 [R2 [R3 R4]]]. destruct (info_of dbg _ _ _ _ F) as [img [s [e [u [L [B [FF [U LE]]]]]]]].
  unfold step. rewrite L. cbn [bind]. rewrite B, FF. cbn [bind]. rewrite U. cbn [bind].
  unfold stack_frame. rewrite c69_offset; [|exact (Forall_impl _ (fun p H => proj2 H) (if_ops _ _ _ _ F)) | exact X]. cbn [bind].
  remember (frame_size (map snd ops)) as z eqn:EZ. cbv zeta in *.
  rewrite (uadd_ok dbg sp z) by lia. cbn [bind].
  assert (RD : readm m (sp + z) 8 = le_bytes 8 pc1) by (apply readm_holds; [apply le_bytes_length | exact R2]). rewrite RD, le_val_bytes by exact R1.
  rewrite (uadd_ok dbg (sp + z) 8) by lia. rewrite <- R3. reflexivity.
Qed.

(** C69: in a function whose prolog has no XMM saves, the caller found is the one the function will return to. *)
Theorem c69_caller : forall dbg m pc sp a ops sp1 pc1, in_function m pc a ops -> Forall (fun p => ~ saves_xmm (snd p)) ops ->
  returns_to m sp ops sp1 pc1 -> exists l, step dbg m pc sp = Ok (l, sp1, pc1) /\ ln_sp l = sp /\ ln_ret l = pc1 /\ a + ln_rva l = pc.
Proof.
  intros dbg m pc sp a ops sp1 pc1 F X R. exists (Line sp pc1 (pc - a)). split; [exact (step_ok dbg _ _ _ _ _ _ _ F X R)|].
  destruct (info_of dbg _ _ _ _ F) as [img [s [e [u [L [B [FF [U LE]]]]]]]]. cbn [ln_sp ln_ret ln_rva]. lia.
Qed.

(** With one small XMM save it is taken from eight bytes further up: the return address shown is whatever is there. *)
Theorem c69_xmm_caller_refuted : forall dbg m pc sp a ops other, in_function m pc a ops -> Forall (fun p => small_xmm (snd p)) ops -> xmm_saves (map snd ops) = 1 ->
  other < 2 ^ 64 -> holds m (sp + frame_size (map snd ops) + 8) (le_bytes 8 other) -> sp + frame_size (map snd ops) + 16 < 2 ^ 64 ->
  step dbg m pc sp = Ok (Line sp other (pc - a), sp + frame_size (map snd ops) + 16, other).
Proof.
  intros dbg m pc sp a ops other F X ONE R1 R2 R4. destruct (info_of dbg _ _ _ _ F) as [img [s [e [u [L [B [FF [U LE]]]]]]]].
  unfold step. rewrite L. cbn [bind]. rewrite B, FF. cbn [bind]. rewrite U. cbn [bind].
  unfold stack_frame. rewrite c69_xmm_refuted; [|exact (Forall_impl _ (fun p H => proj2 H) (if_ops _ _ _ _ F)) | exact X]. cbn [bind]. rewrite ONE.
  remember (frame_size (map snd ops)) as z eqn:EZ. change (8 * 1) with 8.
  rewrite (uadd_ok dbg sp (z + 8)) by lia. replace (sp + (z + 8)) with (sp + z + 8) by lia. cbn [bind].
  assert (RD : readm m (sp + z + 8) 8 = le_bytes 8 other) by (apply readm_holds; [apply le_bytes_length | exact R2]). rewrite RD, le_val_bytes by exact R1.
  rewrite (uadd_ok dbg (sp + z + 8) 8) by lia. replace (sp + z + 8 + 8) with (sp + z + 16) by lia. reflexivity.
Qed.

(** ** The trace *)

Lemma dump_calls : forall dbg m pc sp ls pc2 sp2, calls m pc sp ls pc2 sp2 -> forall n, (length ls <= n)%nat -> ls <> [] ->
  dump_from n dbg m pc sp = if pc2 =? 0 then (ls, Ok tt) else let (r, o) := dump_from (n - length ls) dbg m pc2 sp2 in (ls ++ r, o).
Proof.
  intros dbg m pc sp ls pc2 sp2 C. induction C as [pc sp|pc sp a ops sp1 pc1 ls pc2 sp2 F X R NZ C IH]; intros n L NE; [contradiction|].
  cbn [length] in L. destruct n as [|n]; [lia|]. cbn [dump_from]. rewrite (step_ok dbg _ _ _ _ _ _ _ F X R).
  destruct ls as [|l ls].
  - inversion C; subst. destruct (pc2 =? 0); [reflexivity|]. cbn [length]. replace (S n - 1)%nat with n by lia. destruct (dump_from n dbg m pc2 sp2). reflexivity.
  - destruct (N.eqb_spec pc1 0) as [Z|_]; [exfalso; apply NZ; [discriminate | exact Z]|]. rewrite (IH n) by (first [discriminate | lia]).
    destruct (pc2 =? 0); [reflexivity|]. cbn [length]. replace (S n - S (S (length ls)))%nat with (n - S (length ls))%nat by lia.
    destruct (dump_from (n - S (length ls)) dbg m pc2 sp2). reflexivity.
Qed.

(** C69: a stack of up to twenty calls, the outermost of which returns to zero, is shown in full: one line for each call, from
    the innermost, with its stack pointer, return address and place in its image; and that is success. *)
Theorem c69_trace : forall dbg m pc sp ls sp2, calls m pc sp ls 0 sp2 -> ls <> [] -> (length ls <= 20)%nat -> dump_with dbg m pc sp = (ls, Ok tt).
Proof. intros dbg m pc sp ls sp2 C NE L. unfold dump_with. rewrite (dump_calls dbg _ _ _ _ _ _ C 20 L NE). reflexivity. Qed.

(** Of a deeper stack the innermost twenty calls are shown, and the trace reports failure. *)
Theorem c69_deep : forall dbg m pc sp ls pc2 sp2, calls m pc sp ls pc2 sp2 -> length ls = 20%nat -> pc2 <> 0 -> dump_with dbg m pc sp = (ls, Err StackTraceDumpFailed).
Proof.
  intros dbg m pc sp ls pc2 sp2 C L Z. unfold dump_with. rewrite (dump_calls dbg _ _ _ _ _ _ C 20); [|lia | destruct ls; discriminate].
  apply N.eqb_neq in Z. rewrite Z, L. cbn. now rewrite app_nil_r.
Qed.

(** A stack that cannot be followed to its end is shown as far as it can. *)
Theorem c69_prefix : forall dbg m pc sp ls pc2 sp2, calls m pc sp ls pc2 sp2 -> ls <> [] -> (length ls < 20)%nat -> pc2 <> 0 ->
  (forall l sp3 pc3, step dbg m pc2 sp2 <> Ok (l, sp3, pc3)) -> fst (dump_with dbg m pc sp) = ls /\ snd (dump_with dbg m pc sp) <> Ok tt.
Proof.
  intros dbg m pc sp ls pc2 sp2 C NE L Z B. unfold dump_with. rewrite (dump_calls dbg _ _ _ _ _ _ C 20); [|lia | exact NE].
  apply N.eqb_neq in Z. rewrite Z. destruct (20 - length ls)%nat as [|k] eqn:EK; [lia|]. cbn [dump_from].
  destruct (step dbg m pc2 sp2) as [[[l sp3] pc3]|e|] eqn:S1; [exfalso; exact (B _ _ _ eq_refl) | |]; cbn; rewrite app_nil_r; split; try reflexivity; discriminate.
Qed.

(** Whatever memory holds, the trace ends, with at most twenty lines; it reports success exactly when the last line returns to
    zero, and no other does. *)
Theorem c69_ends : forall dbg m pc sp, let (ls, r) := dump_with dbg m pc sp in
  (length ls <= 20)%nat /\
  (r = Ok tt <-> exists p l, ls = p ++ [l] /\ ln_ret l = 0) /\
  (forall p l q, ls = p ++ l :: q -> q <> [] -> ln_ret l <> 0).
Proof.
  intros dbg m pc sp. unfold dump_with. generalize 20%nat as n. intros n. revert pc sp.
  induction n as [|n IH]; intros pc sp; cbn [dump_from].
  - split; [reflexivity|]. split; [|intros [|] ? ? H; discriminate]. split; [discriminate|]. intros [[|] [x [H _]]]; discriminate.
  - destruct (step dbg m pc sp) as [[[l sp'] pc']|e|] eqn:S1.
    + assert (RL : ln_ret l = pc').
      { unfold step in S1. destruct (locate_image m pc) as [img| |]; try discriminate S1. cbn [bind] in S1.
        destruct (find_function _ _ _ _) as [[[? ?] u]| |]; try discriminate S1. cbn [bind] in S1. destruct (unwind_codes m img u) as [cs| |]; try discriminate S1. cbn [bind] in S1.
        destruct (stack_frame dbg m cs sp) as [[x y]| |]; try discriminate S1. cbn [bind] in S1. injection S1 as E1 E2 E3. subst l. exact E3. }
      destruct (N.eqb_spec pc' 0) as [Z|Z].
      * split; [cbn; lia|]. split; [|intros [|y [|? ?]] x q H Q; cbn in H; [injection H as H1 H2; congruence | discriminate | discriminate]]. split; [|reflexivity]. intros _. exists [], l. split; [reflexivity | congruence].
      * assert (H := IH pc' sp'). destruct (dump_from n dbg m pc' sp') as [ls r]. destruct H as [H1 [H2 H3]]. split; [cbn; lia|]. split.
        -- rewrite H2. split.
           ++ intros [p [x [E Q]]]. exists (l :: p), x. split; [now rewrite E | exact Q].
           ++ intros [[|y p] [x [E Q]]]; injection E as E1 E2; [congruence|]. exists p, x. auto.
        -- intros [|y p] x q E Q; injection E as E1 E2; [congruence|]. exact (H3 p x q E2 Q).
    + split; [cbn; lia|]. split; [|intros [|] ? ? H; discriminate]. split; [discriminate|]. intros [[|] [x [H _]]]; discriminate.
    + split; [cbn; lia|]. split; [|intros [|] ? ? H; discriminate]. split; [discriminate|]. intros [[|] [x [H _]]]; discriminate.
Qed.

(** ** What the trace does not get right *)

(** The end of a function is taken as part of it: the first instruction of a function that follows another directly is given to
    that one, and its caller is looked for with the other's frame. *)
Theorem c69_boundary_refuted : forall dbg m a pe size rva n k s1 e1 u1 e2 u2, image_at m a pe size -> table_at m a pe size rva n -> k + 1 < n ->
  entry m (a + rva) k s1 e1 u1 -> entry m (a + rva) (k + 1) e1 e2 u2 -> s1 < e1 -> e1 < e2 ->
  (forall j s e u, j < k -> entry m (a + rva) j s e u -> e1 < s \/ e < e1) ->
  find_function dbg m (Slice a size) e1 = Ok (s1, e1, u1).
Proof. intros dbg m a pe size rva n k s1 e1 u1 e2 u2 I T K E1 E2 L1 L2 F. apply (find_function_ok dbg m a pe size rva n k); auto; lia. Qed.

(** Unwind information that ends where the image ends is refused. *)
Theorem c69_exact_fit_refuted : forall m a size info v prolog count frame codes, holds m (a + info) ([v; prolog; count; frame] ++ codes) ->
  N.of_nat (length codes) = 2 * count -> info + 4 + N.of_nat (length codes) = size -> unwind_codes m (Slice a size) info = Err UnwindInfoNotFound.
Proof.
  intros m a size info v prolog count frame codes H C L. unfold unwind_codes. cbn [sl_base sl_len]. destruct (N.ltb_spec size info); [lia|].
  apply holds_app in H. destruct H as [H1 H2].
  assert (G : forall i, (i < 4)%nat -> rd m (Slice (a + info) (size - info)) (N.of_nat i) 1 = Ok (nth i [v; prolog; count; frame] 0)).
  { intros i I. unfold rd. cbn [sl_base sl_len]. destruct (N.ltb_spec (size - info) (N.of_nat i + N.of_nat 1)); [lia|]. f_equal. unfold readm. cbn [map seq le_val].
    replace (a + info + N.of_nat i + N.of_nat 0) with (a + info + N.of_nat i) by lia. rewrite (H1 i) by exact I. lia. }
  assert (G0 := G 0%nat ltac:(lia)). assert (G1 := G 1%nat ltac:(lia)). assert (G2 := G 2%nat ltac:(lia)). assert (G3 := G 3%nat ltac:(lia)).
  change (N.of_nat 0) with 0 in G0. change (N.of_nat 1) with 1 in G1. change (N.of_nat 2) with 2 in G2. change (N.of_nat 3) with 3 in G3.
  rewrite G0, G1, G2, G3. cbn [nth]. destruct (_ && _); [reflexivity|]. destruct (N.leb_spec (size - info) (4 + count * 2)); [reflexivity | lia].
Qed.

(** A page that starts with "MZ" by chance and has a number above 4092 at 0x3C ends the search: the trace fails, although an
    image lies below. *)
Theorem c69_false_header_refuted : forall dbg m pc sp x, holds m (4096 * (pc / 4096)) [0x4D; 0x5A] -> holds m (4096 * (pc / 4096) + 0x3C) (le_bytes 4 x) ->
  4096 <= pc -> 4092 < x -> x < 2 ^ 32 -> dump_with dbg m pc sp = ([], Err BufferTooShort).
Proof.
  intros dbg m pc sp x H1 H2 P X1 X2. unfold dump_with. cbn [dump_from]. unfold step.
  assert (L : locate_image m pc = Err BufferTooShort).
  { unfold locate_image. destruct (N.to_nat (pc / 4096)) as [|k] eqn:EK; [lia|]. cbn [locate_from]. replace (4096 * N.of_nat (S k)) with (4096 * (pc / 4096)) by lia.
    remember (4096 * (pc / 4096)) as base eqn:EB.
    rewrite (rd_at m base 4096 0 2 MZ base) by (first [exact H1 | unfold MZ; lia]). cbn [bind]. rewrite N.eqb_refl.
    rewrite (rd_at m base 4096 PE_POINTER 4 x (base + 60)) by (first [exact H2 | unfold PE_POINTER; change (256 ^ N.of_nat 4) with (2 ^ 32); lia]). cbn [bind].
    rewrite rd_short by (cbn [sl_len]; lia). reflexivity. }
  rewrite L. reflexivity.
Qed.

(** An image whose debug directory starts with a record of 1 to 23 bytes that begins with "RSDS" is a panic. *)
Theorem c69_short_record_refuted : forall dbg m pc sp a pe size rva n r s, a = 4096 * (pc / 4096) -> 4096 <= pc ->
  holds m a [0x4D; 0x5A] -> holds m (a + 0x3C) (le_bytes 4 pe) -> holds m (a + pe) [0x50; 0x45; 0; 0] -> pe + 0xC0 <= 4096 ->
  holds m (a + pe + 0x50) (le_bytes 4 size) -> size < 2 ^ 32 ->
  holds m (a + pe + 0xB8) (le_bytes 4 rva) -> holds m (a + pe + 0xBC) (le_bytes 4 n) -> rva < 2 ^ 32 -> n < 2 ^ 32 -> 28 <= n ->
  holds m (a + rva + 0xC) [2; 0; 0; 0] -> holds m (a + rva + 0x10) (le_bytes 4 s) -> holds m (a + rva + 0x14) (le_bytes 4 r) ->
  0 < s -> s < 24 -> 0 < r -> r < 2 ^ 32 -> holds m (a + r) [0x52; 0x53; 0x44; 0x53] ->
  dump_with dbg m pc sp = ([], Panic).
Proof.
  intros dbg m pc sp a pe size rva n r s EA P H1 H2 H3 H4 H5 H6 H7 H8 H9 H10 H11 H12 H13 H14 H15 H16 H17 H18 H19. unfold dump_with. cbn [dump_from]. unfold step.
  assert (L : locate_image m pc = Panic).
  { unfold locate_image. destruct (N.to_nat (pc / 4096)) as [|k] eqn:EK; [lia|]. cbn [locate_from]. replace (4096 * N.of_nat (S k)) with a by lia. clear EA EK.
    rewrite (rd_at m a 4096 0 2 MZ a) by (first [exact H1 | unfold MZ; lia]). cbn [bind]. rewrite N.eqb_refl.
    rewrite (rd_at m a 4096 PE_POINTER 4 pe (a + 60)) by (first [exact H2 | unfold PE_POINTER; change (256 ^ N.of_nat 4) with (2 ^ 32); lia]). cbn [bind].
    rewrite (rd_at m a 4096 pe 4 PE_SIGNATURE (a + pe)) by (first [exact H3 | unfold PE_SIGNATURE; lia]). cbn [bind]. rewrite N.eqb_refl.
    rewrite (rd_at m a 4096 (pe + SIZE_OF_IMAGE) 4 size (a + pe + 80)) by (first [exact H5 | unfold SIZE_OF_IMAGE; change (256 ^ N.of_nat 4) with (2 ^ 32); lia]). cbn [bind].
    assert (E1 : rd_or_0 m (Slice a 4096) (pe + DEBUG_DIR) 4 = rva).
    { unfold rd_or_0. rewrite (rd_at m a 4096 (pe + DEBUG_DIR) 4 rva (a + pe + 184)) by (first [exact H7 | unfold DEBUG_DIR, EXC64; change (256 ^ N.of_nat 4) with (2 ^ 32); lia]). reflexivity. }
    assert (E2 : rd_or_0 m (Slice a 4096) (pe + DEBUG_DIR + 4) 4 = n).
    { unfold rd_or_0. rewrite (rd_at m a 4096 (pe + DEBUG_DIR + 4) 4 n (a + pe + 188)) by (first [exact H8 | unfold DEBUG_DIR, EXC64; change (256 ^ N.of_nat 4) with (2 ^ 32); lia]). reflexivity. }
    rewrite E1, E2. assert (NZ : (n =? 0) = false) by (apply N.eqb_neq; lia). rewrite NZ. cbn [negb].
    unfold image_name. destruct (N.to_nat ((n + 0x1B) / 0x1C)) as [|q] eqn:EQ; [exfalso; assert (1 <= (n + 0x1B) / 0x1C) by (apply N.div_le_lower_bound; lia); lia|].
    cbn [codeview]. replace (N.min 0x1C n) with 28 by lia.
    assert (C1 : rd_or_0 m (Slice (a + rva) 28) 12 4 = 2) by (unfold rd_or_0; rewrite (rd_at m (a + rva) 28 12 4 2 (a + rva + 12)) by (first [exact H12 | lia]); reflexivity).
    assert (C2 : rd_or_0 m (Slice (a + rva) 28) 16 4 = s) by (unfold rd_or_0; rewrite (rd_at m (a + rva) 28 16 4 s (a + rva + 16)) by (first [exact H13 | change (256 ^ N.of_nat 4) with (2 ^ 32); lia]); reflexivity).
    assert (C3 : rd_or_0 m (Slice (a + rva) 28) 20 4 = r) by (unfold rd_or_0; rewrite (rd_at m (a + rva) 28 20 4 r (a + rva + 20)) by (first [exact H14 | change (256 ^ N.of_nat 4) with (2 ^ 32); lia]); reflexivity).
    rewrite C1, C2, C3. change (2 =? 2) with true. cbv iota.
    assert (Z1 : (r =? 0) || (s =? 0) = false) by lia. rewrite Z1.
    assert (SG : le_val (readm m (a + r) 4) = RSDS) by (rewrite (proj2 (readm_holds m (a + r) [0x52; 0x53; 0x44; 0x53] 4 eq_refl) H19); reflexivity).
    rewrite SG, N.eqb_refl. cbn [negb]. assert (Z2 : (s <? 24) = true) by lia. rewrite Z2. reflexivity. }
  rewrite L. reflexivity.
Qed.

(** An address beyond the end of every image is given to the image before it: if that one's table of functions covers the
    offset, the trace goes on with that function's frame. *)
Theorem c69_outside_refuted : forall m pc a pe size, mem_ok m -> image_before m pc a pe size -> a + size <= pc -> locate_image m pc = Ok (Slice a size).
Proof. intros m pc a pe size K I _. exact (locate_image_ok _ _ _ _ _ K I). Qed.

(** An image whose header puts the table of functions beyond its end is a panic, as is a table whose size is not a multiple of
    twelve when no function before its last, cut entry has the address. *)
Theorem c69_table_panic_refuted : forall dbg m a pe size rva n rv, image_at m a pe size -> pe + 0xA8 <= size ->
  holds m (a + pe + 0x18) [0x0B; 0x02] -> holds m (a + pe + 0xA0) (le_bytes 4 rva) -> holds m (a + pe + 0xA4) (le_bytes 4 n) ->
  0 < rva -> 0 < n -> rva < 2 ^ 32 -> n < 2 ^ 32 -> size < rva + n -> rva + n < 2 ^ 32 -> find_function dbg m (Slice a size) rv = Panic.
Proof.
  intros dbg m a pe size rva n rv I F T1 T2 T3 R0 N0 RB NB O W. unfold find_function, exception_table. destruct I as [I1 I2 I3 I4 I5 I6 I7 I8 I9].
  rewrite (rd_at m a size PE_POINTER 4 pe (a + 60)) by (first [exact I3 | unfold PE_POINTER; change (256 ^ N.of_nat 4) with (2 ^ 32); lia]). cbn [bind].
  rewrite (rd_at m a size (pe + PE_MAGIC) 2 PE64 (a + pe + 24)) by (first [exact T1 | unfold PE_MAGIC, PE64; lia]). cbn [bind]. rewrite N.eqb_refl.
  rewrite (rd_at m a size (pe + EXC64) 4 rva (a + pe + 160)) by (first [exact T2 | unfold EXC64; change (256 ^ N.of_nat 4) with (2 ^ 32); lia]). cbn [bind].
  rewrite (rd_at m a size (pe + EXC64 + 4) 4 n (a + pe + 164)) by (first [exact T3 | unfold EXC64; change (256 ^ N.of_nat 4) with (2 ^ 32); lia]). cbn [bind].
  destruct (N.eqb_spec rva 0); [lia|]. destruct (N.eqb_spec n 0); [lia|]. cbn [orb bind sl_len]. unfold two32. change 4294967296 with (2 ^ 32).
  rewrite (N.mod_small (rva + n)) by exact W. destruct (N.ltb_spec size (rva + n)); [|lia]. rewrite Bool.orb_true_r. destruct (dbg && _); reflexivity.
Qed.

(** ** An example: two calls in one image *)
Definition demo_ops1 : list (N * op) := [(4, AllocSmall 3); (1, Push 3)].
Definition demo_ops2 : list (N * op) := [(9, Save 6 5); (7, AllocLarge 20)].
Definition tr_demo : mem := fold_right (fun p m => writem m (fst p) (snd p)) (fun _ => 0)
  [(0x1000, [0x4D; 0x5A]); (0x103C, le_bytes 4 0x80); (0x1080, [0x50; 0x45; 0; 0]); (0x1098, [0x0B; 0x02]); (0x10D0, le_bytes 4 0x1000);
   (0x1120, le_bytes 4 0x400); (0x1124, le_bytes 4 24);
   (0x1400, le_bytes 4 0x200 ++ le_bytes 4 0x240 ++ le_bytes 4 0x500); (0x140C, le_bytes 4 0x280 ++ le_bytes 4 0x300 ++ le_bytes 4 0x520);
   (0x1500, [1; 4; 2; 0] ++ encode demo_ops1); (0x1520, [1; 9; 4; 0] ++ encode demo_ops2);
   (0x8028, le_bytes 8 0x1290)].

Lemma demo_memory : mem_ok tr_demo.
Proof.
  unfold tr_demo. cbn [fold_right fst snd]. repeat (apply writem_ok; [| repeat (apply Forall_app; split); first [apply le_bytes_ok | (unfold demo_ops1, demo_ops2, encode; cbn; repeat constructor)] ]).
  intros x. lia.
Qed.

Ltac in_memory := apply (readm_holds _ _ _ _ eq_refl); vm_compute; reflexivity.

Lemma demo_image : forall pc, 0x1000 <= pc < 0x2000 -> image_of tr_demo pc 0x1000 0x80 0x1000.
Proof.
  intros pc B. split; [|lia]. split; [|split; [lia | split; [lia|]]].
  - split; [reflexivity | in_memory | in_memory | in_memory | lia | in_memory | lia | | lia].
    exists 0, 0. split; [lia|]. split; [lia|]. split; [in_memory|]. split; [in_memory|]. intros k rs H. lia.
  - intros b B1 B2. lia.
Qed.

Lemma demo_entries : entry tr_demo 0x1400 0 0x200 0x240 0x500 /\ entry tr_demo 0x1400 1 0x280 0x300 0x520.
Proof. split; (split; [in_memory | lia]). Qed.

Lemma demo_table : table_at tr_demo 0x1000 0x80 0x1000 0x400 2.
Proof.
  unfold table_at. split; [in_memory|]. split; [in_memory|]. split; [in_memory|]. do 4 (split; [lia|]). intros k K.
  change (0x1000 + 0x400) with 0x1400. destruct demo_entries as [E1 E2].
  assert (C : k = 0 \/ k = 1) by lia. destruct C as [-> | ->]; do 3 eexists; [exact E1 | exact E2].
Qed.

Example c69_demo_calls : exists sp2, calls tr_demo 0x1210 0x8000 [Line 0x8000 0x1290 0x210; Line 0x8030 0 0x290] 0 sp2.
Proof.
  destruct demo_entries as [E1 E2]. exists (0x8030 + 160 + 8).
  apply (c_call tr_demo 0x1210 0x8000 0x1000 demo_ops1 0x8030 0x1290).
  - split.
    + exists 0x80, 0x1000, 0x400, 2, 0, 0x200, 0x240, 0x500, 1, 4, 0. split; [apply demo_image; lia|]. split; [exact demo_table|]. split; [lia|]. split; [exact E1|].
      split; [lia|]. split; [intros; lia|]. split; [vm_compute; reflexivity|]. split; [left; reflexivity|]. split; [lia|]. in_memory.
    + repeat constructor; cbn; lia.
    + vm_compute. reflexivity.
    + exact demo_memory.
  - repeat constructor; intros [].
  - split; [lia|]. split; [in_memory|]. split; [reflexivity | lia].
  - lia.
  - apply (c_call tr_demo 0x1290 0x8030 0x1000 demo_ops2 (0x8030 + 160 + 8) 0).
    + split.
      * exists 0x80, 0x1000, 0x400, 2, 1, 0x280, 0x300, 0x520, 1, 9, 0. split; [apply demo_image; lia|]. split; [exact demo_table|]. split; [lia|]. split; [exact E2|].
        split; [lia|]. split; [|split; [vm_compute; reflexivity|]; split; [left; reflexivity|]; split; [lia|]; in_memory].
        intros j s e u J H. replace j with 0 in H by lia. right. destruct H as [H [_ [HE _]]]. destruct E1 as [H' _].
        apply holds_app in H. destruct H as [_ H]. apply holds_app in H. destruct H as [H _]. apply holds_app in H'. destruct H' as [_ H']. apply holds_app in H'. destruct H' as [H' _].
        rewrite !le_bytes_length in *.
        assert (Q : le_bytes 4 e = le_bytes 4 0x240) by (rewrite <- (proj2 (readm_holds tr_demo _ _ 4 (le_bytes_length 4 e)) H); exact (proj2 (readm_holds tr_demo _ _ 4 (le_bytes_length 4 0x240)) H')).
        assert (Q2 : e = 0x240) by (rewrite <- (le_val_bytes 4 e HE), Q; reflexivity). lia.
      * repeat constructor; cbn; lia.
      * vm_compute. reflexivity.
      * exact demo_memory.
    + repeat constructor; intros [].
    + split; [lia|]. split; [in_memory|]. split; [reflexivity | lia].
    + intros H. contradiction.
    + constructor.
Qed.

Example c69_demo : dump_with true tr_demo 0x1210 0x8000 = ([Line 0x8000 0x1290 0x210; Line 0x8030 0 0x290], Ok tt).
Proof. vm_compute. reflexivity. Qed.

Print Assumptions c69_offset.
Print Assumptions c69_short_record_refuted.
Print Assumptions c69_caller.
Print Assumptions c69_trace.
Print Assumptions c69_deep.
Print Assumptions c69_prefix.
Print Assumptions c69_ends.
Print Assumptions c69_xmm_refuted.
Print Assumptions c69_xmm_panic_refuted.
Print Assumptions c69_xmm_caller_refuted.
Print Assumptions c69_boundary_refuted.
Print Assumptions c69_exact_fit_refuted.
Print Assumptions c69_false_header_refuted.
Print Assumptions c69_outside_refuted.
Print Assumptions c69_table_panic_refuted.
