(** C81: a stack trace on AArch64 shows the calls that are on the stack. *)
From Verif Require Import Base.Prelude Base.Bytes Mm.Model Mm.Spec Mm.Props Trace.Model Trace.Spec Trace.Proofs Trace.ArmModel Trace.ArmSpec.
From Coq Require Import ZifyBool ZifyNat ZifyN.
Local Open Scope N_scope.
Ltac Zify.zify_post_hook ::= Z.div_mod_to_equations.

(** ** The codes *)

Lemma walk_cons : forall dbg b r lr off, walk dbg (b :: r) lr off = (
      if b / 32 =? 0 then let* off := add32 dbg off (b mod 32 * 16) in walk dbg r lr off
      else if b / 32 =? 1 then let* off := add32 dbg off (b mod 32 * 8) in walk dbg r lr off
      else if b / 64 =? 1 then let* x := add32 dbg off (b mod 64 * 8) in let* lr := add32 dbg x 8 in walk dbg r lr off
      else if b / 64 =? 2 then let* off := add32 dbg off ((b mod 64 + 1) * 8) in let* lr := add32 dbg off 8 in walk dbg r lr off
      else if b / 8 =? 24 then match r with x :: r => let* off := add32 dbg off ((b mod 8 * 256 + x) * 16) in walk dbg r lr off | [] => Panic end
      else if b / 4 =? 50 then match r with _ :: r => walk dbg r lr off | [] => Ok (lr, off) end
      else if b / 4 =? 51 then match r with x :: r => let* off := add32 dbg off ((x mod 64 + 1) * 8) in walk dbg r lr off | [] => Panic end
      else if b / 4 =? 52 then match r with _ :: r => walk dbg r lr off | [] => Ok (lr, off) end
      else if b / 2 =? 106 then match r with x :: r => let* off := add32 dbg off ((x mod 32 + 1) * 8) in walk dbg r lr off | [] => Panic end
      else if (107 <=? b / 2) && (b / 2 <=? 110) then match r with _ :: r => walk dbg r lr off | [] => Ok (lr, off) end
      else if b =? 0xDE then match r with x :: r => let* off := add32 dbg off ((x mod 64 + 1) * 8) in walk dbg r lr off | [] => Panic end
      else if b =? 0xE0 then
        match r with x :: y :: z :: r => let* off := add32 dbg off ((x * 65536 + y * 256 + z) * 16) in walk dbg r lr off | _ => Panic end
      else if b =? 0xE1 then walk dbg r lr off
      else if b =? 0xE2 then match r with _ :: r => walk dbg r lr off | [] => Ok (lr, off) end
      else if b =? 0xE3 then walk dbg r lr off
      else if (b =? 0xE4) || (b =? 0xE5) then Ok (lr, off)
      else if (0xE6 <=? b) && (b <=? 0xEF) then walk dbg r lr off
      else if b =? 0xF8 then match r with _ :: r => walk dbg r lr off | [] => Panic end
      else if b =? 0xF9 then match r with _ :: _ :: r => walk dbg r lr off | _ => Ok (lr, off) end
      else if b =? 0xFA then match r with _ :: _ :: _ :: r => walk dbg r lr off | _ => Ok (lr, off) end
      else if b =? 0xFB then match r with _ :: _ :: _ :: _ :: r => walk dbg r lr off | _ => Ok (lr, off) end
      else if 0xFC <=? b then walk dbg r lr off
      else Err Never
).
Proof. reflexivity. Qed.

Lemma add32_ok : forall {E} dbg a b, a + b < 2 ^ 32 -> add32 (E := E) dbg a b = Ok (a + b).
Proof. intros E dbg a b H. unfold add32, two32. destruct (N.ltb_spec (a + b) (2 ^ 32)); [reflexivity | lia]. Qed.

Ltac branch := repeat match goal with
  | |- context [if ?c then _ else _] => first [replace c with false by lia | replace c with true by lia]; cbv iota
  end.

(** What the loop takes for the place of the link register after a code. *)
Definition lr_taken (c : code) (off lr : N) : N := match c with SaveFpLr z => off + 8 * z + 8 | SaveFpLrX z => off + 8 * (z + 1) + 8 | _ => lr end.

Lemma one_code : forall dbg c r lr off, code_ok c -> plain c -> off + down c + 2 ^ 10 < 2 ^ 32 ->
  walk dbg (code_bytes c ++ r) lr off = walk dbg r (lr_taken c off lr) (off + down c).
Proof.
  intros dbg c r lr off K P B. destruct c; cbn [code_ok plain code_bytes app down lr_taken] in *; rewrite walk_cons; branch; rewrite ?add32_ok by lia; cbn [bind]; rewrite ?add32_ok by lia; cbn [bind];
    (reflexivity || (f_equal; lia) || idtac).
Qed.

Lemma frame_app : forall a b, frame (a ++ b) = frame a + frame b.
Proof. induction a as [|c a IH]; intros b; cbn [frame fold_right app]; [reflexivity|]. fold (frame (a ++ b)) (frame a). rewrite IH. lia. Qed.
Lemma frame_rev : forall a, frame (rev a) = frame a.
Proof. induction a as [|c a IH]; [reflexivity|]. cbn [rev]. rewrite frame_app, IH. cbn [frame fold_right]. fold (frame a). lia. Qed.

Lemma many_codes : forall dbg l r lr off, Forall code_ok l -> Forall plain l -> Forall (fun c => lr_place c = None) l -> off + frame l + 2 ^ 10 < 2 ^ 32 ->
  walk dbg (concat (map code_bytes l) ++ r) lr off = walk dbg r lr (off + frame l).
Proof.
  induction l as [|c l IH]; intros r lr off K P L B; cbn [map concat frame fold_right app].
  - f_equal. lia.
  - fold (frame l) in *. cbn [frame fold_right] in B. fold (frame l) in B. inversion K; subst. inversion P; subst. inversion L as [|? ? L0 L1]; subst.
    rewrite <- app_assoc, one_code by (assumption || lia). replace (lr_taken c off lr) with lr by (destruct c; cbn in L0 |- *; congruence).
    rewrite IH by (assumption || lia). f_equal. lia.
Qed.

(** Of a prolog with one instruction that saves the link register, the loop takes these offsets. *)
Lemma prolog_part : forall dbg before c after rest, let p := before ++ c :: after in
  Forall code_ok p -> Forall plain p -> Forall (fun c => lr_place c = None) before -> Forall (fun c => lr_place c = None) after -> frame p < 2 ^ 31 ->
  walk dbg (concat (map code_bytes (rev p)) ++ rest) 0 0 = walk dbg rest (lr_taken c (frame after) 0) (frame p).
Proof.
  intros dbg before c after rest p K P B A F. unfold p in *. clear p. apply Forall_app in K. destruct K as [KB K]. inversion K as [|? ? KC KA]; subst.
  apply Forall_app in P. destruct P as [PB P]. inversion P as [|? ? PC PA]; subst.
  assert (FR : frame (before ++ c :: after) = frame before + (down c + frame after)) by (rewrite frame_app; reflexivity). rewrite FR in *.
  rewrite rev_app_distr. cbn [rev]. rewrite !map_app, !concat_app. rewrite <- !app_assoc.
  rewrite many_codes; try (apply Forall_rev; assumption); [|rewrite frame_rev; lia].
  rewrite frame_rev. cbn [map concat]. rewrite app_nil_r. rewrite one_code by (assumption || lia).
  rewrite many_codes; try (apply Forall_rev; assumption); [|rewrite frame_rev; lia].
  rewrite frame_rev, N.add_0_l. f_equal. lia.
Qed.

Lemma end_code : forall dbg rest lr off, walk dbg (0xE4 :: rest) lr off = Ok (lr, off).
Proof. reflexivity. Qed.

Lemma prolog_walk : forall dbg before c after rest, let p := before ++ c :: after in
  Forall code_ok p -> Forall plain p -> Forall (fun c => lr_place c = None) before -> Forall (fun c => lr_place c = None) after -> frame p < 2 ^ 31 ->
  walk dbg (prolog_bytes p ++ rest) 0 0 = Ok (lr_taken c (frame after) 0, frame p).
Proof.
  intros dbg before c after rest p K P B A F. unfold prolog_bytes. rewrite <- app_assoc. unfold p. rewrite prolog_part by assumption. apply end_code.
Qed.

(** ** Unwind words *)

Lemma word_at_ok : forall {E} m a size off v, holds m (a + off) (le_bytes 4 v) -> v < 2 ^ 32 -> off + 4 <= size -> word_at (E := E) m (Slice a size) off = Ok v.
Proof.
  intros E m a size off v H V L. unfold word_at. cbn [sl_base sl_len]. destruct (N.ltb_spec size (off + 4)); [lia|].
  assert (R : readm m (a + off) 4 = le_bytes 4 v) by (apply readm_holds; [apply le_bytes_length | exact H]). rewrite R, le_val_bytes by exact V. reflexivity.
Qed.

Lemma record_len : forall dbg m a size u len codes start, record_at m a size u len codes -> start + 4 * len < 2 ^ 32 ->
  function_end dbg m (Slice a size) start u = Ok (start + 4 * len).
Proof.
  intros dbg m a size u len codes start (U & x & e & ep & w & lg & L & X & E & C & H & AT & _) B. unfold function_end. rewrite U. cbn [N.eqb]. cbv zeta in AT.
  destruct lg.
  - destruct H as (W & EP & H1 & H2). rewrite (word_at_ok m a size u _ H1) by (destruct (N.eq_dec e 0); lia). cbn [bind].
    replace ((len + 2 ^ 20 * x + 2 ^ 21 * e) mod 2 ^ 18) with len by lia. replace (len * 4) with (4 * len) by lia. apply add32_ok. exact B.
  - destruct H as (W & EP & NZ & H1). rewrite (word_at_ok m a size u _ H1) by (destruct (N.eq_dec e 0); lia). cbn [bind].
    replace ((len + 2 ^ 20 * x + 2 ^ 21 * e + 2 ^ 22 * ep + 2 ^ 27 * w) mod 2 ^ 18) with len by lia. replace (len * 4) with (4 * len) by lia. apply add32_ok. exact B.
Qed.

Lemma record_codes : forall dbg m a size u len codes, record_at m a size u len codes -> offsets dbg m (Slice a size) u = walk dbg codes 0 0.
Proof.
  intros dbg m a size u len codes (U & x & e & ep & w & lg & L & X & E & C & H & AT & HC). unfold offsets. rewrite U. cbn [N.eqb]. cbv zeta in AT, HC. cbn [sl_base sl_len].
  assert (RD : forall at_, holds m (a + at_) codes -> readm m (a + at_) (N.to_nat (w * 4)) = codes) by (intros at_ Q; apply readm_holds; [lia | exact Q]).
  destruct lg.
  - destruct H as (W & EP & H1 & H2). rewrite (word_at_ok m a size u _ H1) by (destruct (N.eq_dec e 0); lia). cbn [bind].
    replace ((len + 2 ^ 20 * x + 2 ^ 21 * e) / 2 ^ 18 mod 4) with 0 by lia.
    replace ((len + 2 ^ 20 * x + 2 ^ 21 * e) / 2 ^ 27) with 0 by lia. replace ((len + 2 ^ 20 * x + 2 ^ 21 * e) / 2 ^ 22 mod 32) with 0 by lia.
    replace ((len + 2 ^ 20 * x + 2 ^ 21 * e) / 2 ^ 21 mod 2) with e by lia. cbn [N.eqb negb andb].
    rewrite <- N.add_assoc in H2. rewrite (word_at_ok m a size (u + 4) _ H2) by (destruct (N.eq_dec e 0); lia). cbn [bind].
    replace ((ep + 2 ^ 16 * w) / 2 ^ 16 mod 2 ^ 8) with w by lia. replace ((ep + 2 ^ 16 * w) mod 2 ^ 16) with ep by lia.
    destruct (N.eq_dec e 0) as [->|NE].
    + cbn [N.eqb]. replace (u + (2 + ep) * 4) with (u + 4 * (2 + ep)) by lia. destruct (N.ltb_spec size (u + 4 * (2 + ep) + w * 4)); [lia|]. rewrite RD by exact HC. reflexivity.
    + apply N.eqb_neq in NE. rewrite NE. replace (u + 2 * 4) with (u + 4 * (2 + 0)) by lia. destruct (N.ltb_spec size (u + 4 * (2 + 0) + w * 4)); [lia|]. rewrite RD by exact HC. reflexivity.
  - destruct H as (W & EP & NZ & H1). rewrite (word_at_ok m a size u _ H1) by (destruct (N.eq_dec e 0); lia). cbn [bind].
    set (h := len + 2 ^ 20 * x + 2 ^ 21 * e + 2 ^ 22 * ep + 2 ^ 27 * w).
    replace (h / 2 ^ 18 mod 4) with 0 by (unfold h; lia). replace (h / 2 ^ 27) with w by (unfold h; lia). replace (h / 2 ^ 22 mod 32) with ep by (unfold h; lia).
    replace (h / 2 ^ 21 mod 2) with e by (unfold h; lia). clear h. cbn [N.eqb negb].
    replace ((w =? 0) && (ep =? 0)) with false by lia. cbn [bind].
    destruct (N.eq_dec e 0) as [->|NE].
    + cbn [N.eqb]. replace (u + (1 + ep) * 4) with (u + 4 * (1 + ep)) by lia. destruct (N.ltb_spec size (u + 4 * (1 + ep) + w * 4)); [lia|]. rewrite RD by exact HC. reflexivity.
    + apply N.eqb_neq in NE. rewrite NE. replace (u + 1 * 4) with (u + 4 * (1 + 0)) by lia. destruct (N.ltb_spec size (u + 4 * (1 + 0) + w * 4)); [lia|]. rewrite RD by exact HC. reflexivity.
Qed.

Lemma packed_fields : forall flag len regf regi h cr fs, packed_ok flag len regf regi h cr fs -> let u := packed flag len regf regi h cr fs in
  u mod 4 = flag /\ u / 4 mod 2 ^ 11 = len /\ u / 2 ^ 21 mod 4 = cr /\ u / 2 ^ 23 mod 2 ^ 9 = fs.
Proof. intros flag len regf regi h cr fs (F & L & RF & RI & Hh & C & S). cbv zeta. unfold packed. repeat split; destruct F; lia. Qed.

Lemma packed_offsets : forall dbg m img flag len regf regi h cr fs, packed_ok flag len regf regi h cr fs ->
  offsets dbg m img (packed flag len regf regi h cr fs) = Ok (if cr <=? 1 then 0 else 8, 16 * fs).
Proof.
  intros dbg m img flag len regf regi h cr fs K. destruct (packed_fields _ _ _ _ _ _ _ K) as (A & B & C & D). unfold offsets. cbv zeta in *. rewrite A, C, D.
  rewrite (N.mul_comm fs). destruct K as ([-> | ->] & _); reflexivity.
Qed.

Lemma length_end : forall dbg m a size u len start, arm_length m a size u len -> start + 4 * len < 2 ^ 32 -> function_end dbg m (Slice a size) start u = Ok (start + 4 * len).
Proof.
  intros dbg m a size u len start [[codes R] | (flag & regf & regi & h & cr & fs & K & ->)] B; [exact (record_len dbg _ _ _ _ _ _ _ R B)|].
  destruct (packed_fields _ _ _ _ _ _ _ K) as (A & L & _ & _). unfold function_end. cbv zeta in *. rewrite A, L.
  rewrite (N.mul_comm len). destruct K as ([-> | ->] & _); exact (add32_ok dbg start (4 * len) B).
Qed.

(** ** Finding the function *)

Lemma arm_entry_rd : forall m t k s u len, arm_entry m t k s u -> 8 <= len ->
  rd m (Slice (t + 8 * k) (N.min 8 len)) 0 4 = Ok s /\ rd m (Slice (t + 8 * k) (N.min 8 len)) 4 4 = Ok u.
Proof.
  intros m t k s u len [H [S1 S2]] L. apply holds_app in H. destruct H as [H1 H2]. rewrite !le_bytes_length in *. split.
  - apply (rd_at _ _ _ _ _ _ _ H1); [lia | exact S1 | lia].
  - apply (rd_at _ _ _ _ _ _ _ H2); [lia | exact S2 | lia].
Qed.

Lemma arm_table_ok : forall m a pe size rva n, image_at m a pe size -> arm_table m a pe size rva n -> exception_table m (Slice a size) = Ok (rva, 8 * n).
Proof.
  intros m a pe size rva n I [T1 [T2 [T3 [T4 [T5 [T6 [T7 T8]]]]]]]. unfold exception_table. destruct I as [I1 I2 I3 I4 I5 I6 I7 I8 I9].
  rewrite (rd_at m a size PE_POINTER 4 pe (a + 60)) by (first [exact I3 | unfold PE_POINTER; change (256 ^ N.of_nat 4) with (2 ^ 32); lia]). cbn [bind].
  rewrite (rd_at m a size (pe + PE_MAGIC) 2 PE64 (a + pe + 24)) by (first [exact T1 | unfold PE_MAGIC, PE64; lia]). cbn [bind]. rewrite N.eqb_refl.
  rewrite (rd_at m a size (pe + EXC64) 4 rva (a + pe + 160)) by (first [exact T2 | unfold EXC64; change (256 ^ N.of_nat 4) with (2 ^ 32); lia]). cbn [bind].
  rewrite (rd_at m a size (pe + EXC64 + 4) 4 (8 * n) (a + pe + 164)) by (first [exact T3 | unfold EXC64; change (256 ^ N.of_nat 4) with (2 ^ 32); lia]). cbn [bind].
  destruct (N.eqb_spec rva 0); [lia|]. destruct (N.eqb_spec (8 * n) 0); [lia|]. reflexivity.
Qed.

Lemma find_arm_entry_ok : forall dbg m a size t rva d n j k s u l, arm_entry m t k s u -> arm_length m a size u l -> s <= rva <= s + 4 * l -> s + 4 * l < 2 ^ 32 ->
  k = j + N.of_nat d -> (d < n)%nat ->
  (forall i, j <= i < k -> exists s u l, arm_entry m t i s u /\ arm_length m a size u l /\ s + 4 * l < 2 ^ 32) ->
  (forall i s u l, j <= i < k -> arm_entry m t i s u -> arm_length m a size u l -> rva < s \/ s + 4 * l < rva) ->
  forall len, 8 * N.of_nat n <= len -> find_arm_entry n dbg m (Slice a size) (t + 8 * j) len rva = Ok (s, s + 4 * l, u).
Proof.
  intros dbg m a size t rva d. induction d as [|d IH]; intros n j k s u l E AL B M K L X F len Q; (destruct n as [|n]; [lia|]); cbn [find_arm_entry].
  - replace j with k by lia. destruct (arm_entry_rd _ _ _ _ _ len E ltac:(lia)) as [R1 R2]. rewrite R1, R2. rewrite (length_end dbg m a size u l s AL M). cbn [bind].
    destruct (N.leb_spec s rva); [|lia]. destruct (N.leb_spec rva (s + 4 * l)); [|lia]. reflexivity.
  - destruct (X j) as [s0 [u0 [l0 [E0 [A0 M0]]]]]; [lia|]. destruct (arm_entry_rd _ _ _ _ _ len E0 ltac:(lia)) as [R1 R2]. rewrite R1, R2.
    rewrite (length_end dbg m a size u0 l0 s0 A0 M0). cbn [bind].
    assert (O := F j s0 u0 l0 ltac:(lia) E0 A0).
    assert (C : (s0 <=? rva) && (rva <=? s0 + 4 * l0) = false) by lia. rewrite C.
    replace (t + 8 * j + 8) with (t + 8 * (j + 1)) by lia. apply (IH n (j + 1) k); [exact E | exact AL | exact B | exact M | lia | lia | | | lia].
    + intros i I. apply X. lia.
    + intros i s1 u1 l1 I. apply F. lia.
Qed.

Lemma find_arm_ok : forall dbg m a pe size rva n k s u l pc, image_at m a pe size -> arm_table m a pe size rva n -> k < n ->
  arm_entry m (a + rva) k s u -> arm_length m a size u l -> s <= pc <= s + 4 * l -> s + 4 * l < 2 ^ 32 ->
  (forall j s u l, j < k -> arm_entry m (a + rva) j s u -> arm_length m a size u l -> pc < s \/ s + 4 * l < pc) ->
  find_arm_function dbg m (Slice a size) pc = Ok (s, s + 4 * l, u).
Proof.
  intros dbg m a pe size rva n k s u l pc I T K E AL B M F. unfold find_arm_function. rewrite (arm_table_ok _ _ _ _ _ _ I T). cbn [lift bind].
  destruct I as [I1 I2 I3 I4 I5 I6 I7 I8 I9]. destruct T as [T1 [T2 [T3 [T4 [T5 [T6 [T7 T8]]]]]]]. cbn [sl_base sl_len].
  assert (W : rva + 8 * n < two32) by (unfold two32; lia).
  destruct (N.leb_spec two32 (rva + 8 * n)); [lia|]. rewrite Bool.andb_false_r. rewrite N.mod_small by exact W.
  destruct (N.ltb_spec (rva + 8 * n) rva); [lia|]. destruct (N.ltb_spec size (rva + 8 * n)); [lia|]. cbn [orb].
  replace (rva + 8 * n - rva) with (8 * n) by lia. replace ((8 * n + 7) / 8) with n by lia.
  replace (a + rva) with (a + rva + 8 * 0) by lia. apply (find_arm_entry_ok dbg m a size (a + rva) pc (N.to_nat k) (N.to_nat n) 0 k); [exact E | exact AL | exact B | exact M | lia | lia | | | lia].
  - intros i Q. apply T8. lia.
  - intros i s0 u0 l0 Q. apply F. lia.
Qed.

(** Only one entry and one length can be read at a place. *)
Lemma le4_inj : forall m x v w, holds m x (le_bytes 4 v) -> holds m x (le_bytes 4 w) -> v < 2 ^ 32 -> w < 2 ^ 32 -> v = w.
Proof.
  intros m x v w A B V W. assert (Q : le_bytes 4 v = le_bytes 4 w) by (rewrite <- (proj2 (readm_holds m _ _ 4 (le_bytes_length 4 v)) A); exact (proj2 (readm_holds m _ _ 4 (le_bytes_length 4 w)) B)).
  rewrite <- (le_val_bytes 4 v V), Q. apply le_val_bytes. exact W.
Qed.
Lemma arm_entry_det : forall m t k s u s' u', arm_entry m t k s u -> arm_entry m t k s' u' -> s = s' /\ u = u'.
Proof.
  intros m t k s u s' u' [A [A1 A2]] [B [B1 B2]]. apply holds_app in A. destruct A as [A3 A4]. apply holds_app in B. destruct B as [B3 B4]. rewrite !le_bytes_length in *.
  split; eapply le4_inj; eassumption.
Qed.
Lemma arm_length_det : forall m a size u l l', arm_length m a size u l -> arm_length m a size u l' -> l = l'.
Proof.
  intros m a size u l l' A B.
  assert (Q : forall x, arm_length m a size u x -> x < 2 ^ 18).
  { intros x [[c (_ & ? & ? & ? & ? & ? & H & _)] | (? & ? & ? & ? & ? & ? & (_ & H & _) & _)]; lia. }
  assert (A1 := length_end true m a size u l 0 A). assert (B1 := length_end true m a size u l' 0 B). assert (A2 := Q _ A). assert (B2 := Q _ B). specialize (A1 ltac:(lia)). specialize (B1 ltac:(lia)). assert (X : 0 + 4 * l = 0 + 4 * l') by congruence. clear - X. lia.
Qed.

Lemma arm_found : forall dbg m pc a size u, arm_function m pc a size u ->
  exists s e, locate_image m pc = Ok (Slice a size) /\ find_arm_function dbg m (Slice a size) ((pc - a) mod two32) = Ok (s, e, u) /\ a <= pc.
Proof.
  intros dbg m pc a size u (M & pe & rva & n & k & s & l & [IB IN] & T & K & E & AL & B & F).
  exists s, (s + 4 * l). split; [exact (locate_image_ok _ _ _ _ _ M IB)|]. destruct IB as [IA [NZ [LE NI]]]. split; [|exact LE].
  assert (SZ := ia_bounded _ _ _ _ IA). rewrite N.mod_small by (unfold two32; lia).
  apply (find_arm_ok dbg m a pe size rva n k s u l (pc - a) IA T K E AL); [lia | | exact F].
  destruct T as (_ & _ & _ & _ & _ & _ & _ & T). destruct (T k K) as (s' & u' & l' & E' & AL' & Q). destruct (arm_entry_det _ _ _ _ _ _ _ E E') as [<- <-].
  rewrite (arm_length_det _ _ _ _ _ _ AL AL'). exact Q.
Qed.

(** ** One call *)

Lemma uadd_fine : forall {E} dbg a b, a + b < 2 ^ 64 -> uadd (E := E) dbg a b = Ok (a + b).
Proof. intros E dbg a b H. unfold uadd, two64. destruct (N.ltb_spec (a + b) (2 ^ 64)); [|lia]. reflexivity. Qed.

Lemma step_with : forall dbg m pc sp a size u d f pc1, arm_function m pc a size u -> offsets dbg m (Slice a size) u = Ok (d, f) ->
  sp + f < 2 ^ 64 -> sp + d < 2 ^ 64 -> pc1 < 2 ^ 64 -> holds m (sp + d) (le_bytes 8 pc1) -> arm_step dbg m pc sp = Ok (Line sp pc1 (pc - a), sp + f, pc1).
Proof.
  intros dbg m pc sp a size u d f pc1 AF O B1 B2 P H. destruct (arm_found dbg _ _ _ _ _ AF) as (s & e & L & FF & LE). unfold arm_step. rewrite L. cbn [lift bind sl_base]. rewrite FF. cbn [bind].
  unfold arm_frame. rewrite O. cbn [bind]. rewrite (uadd_fine dbg sp d) by exact B2. cbn [bind]. rewrite (uadd_fine dbg sp f) by exact B1. cbn [bind].
  assert (RD : readm m (sp + d) 8 = le_bytes 8 pc1) by (apply readm_holds; [apply le_bytes_length | exact H]). rewrite RD, le_val_bytes by exact P. reflexivity.
Qed.

(** C81: for a function whose prolog saves the frame pointer and the link register as a pair below the stack pointer's last change or at an offset, whatever else it
    saves or allocates, the offsets found are those at which the prolog left the link register and the caller's stack pointer; so too for chained packed functions. *)
Theorem c81_offsets : forall dbg m a size u d f, seen m a size u d f -> offsets dbg m (Slice a size) u = Ok (d, f).
Proof.
  intros dbg m a size u d f [(p & rest & len & z & R & K & P & (before & after & k & -> & LP & -> & B & A) & -> & F) | (flag & len & regf & regi & h & cr & fs & K & -> & LR & -> & C)].
  - rewrite (record_codes dbg _ _ _ _ _ _ R). rewrite prolog_walk by assumption. cbn [lr_taken lr_place] in *. assert (X : k = 8 * z + 8) by congruence. subst k. clear. do 2 f_equal. lia.
  - rewrite packed_offsets by exact K. unfold packed_lr in LR. destruct (N.eq_dec cr 0); [discriminate|]. destruct (N.eq_dec cr 1); [lia|]. injection LR as <-.
    destruct (N.leb_spec cr 1); [lia | reflexivity].
Qed.

Theorem c81_caller : forall dbg m pc sp a size u d f pc1, arm_function m pc a size u -> seen m a size u d f ->
  sp + f < 2 ^ 64 -> sp + d < 2 ^ 64 -> pc1 < 2 ^ 64 -> holds m (sp + d) (le_bytes 8 pc1) ->
  exists l, arm_step dbg m pc sp = Ok (l, sp + f, pc1) /\ ln_sp l = sp /\ ln_ret l = pc1 /\ a + ln_rva l = pc.
Proof.
  intros dbg m pc sp a size u d f pc1 AF SN B1 B2 P H. exists (Line sp pc1 (pc - a)). split; [apply (step_with dbg m pc sp a size u d f pc1); auto; apply c81_offsets; exact SN|].
  destruct (arm_found dbg _ _ _ _ _ AF) as (s & e & _ & _ & LE). cbn [ln_sp ln_ret ln_rva]. lia.
Qed.

(** ** The trace *)

Lemma arm_dump_calls : forall dbg m pc sp ls pc2 sp2, arm_calls m pc sp ls pc2 sp2 -> forall n, (length ls <= n)%nat -> ls <> [] ->
  arm_dump_from n dbg m pc sp = if pc2 =? 0 then (ls, Ok tt) else let (r, o) := arm_dump_from (n - length ls) dbg m pc2 sp2 in (ls ++ r, o).
Proof.
  intros dbg m pc sp ls pc2 sp2 C. induction C as [pc sp|pc sp a size u d f pc1 ls pc2 sp2 AF SN B1 B2 P H NZ C IH]; intros n L NE; [contradiction|].
  cbn [length] in L. destruct n as [|n]; [lia|]. cbn [arm_dump_from]. rewrite (step_with dbg _ _ _ _ _ _ d f pc1 AF (c81_offsets dbg _ _ _ _ _ _ SN) B1 B2 P H).
  destruct ls as [|l ls].
  - inversion C; subst. destruct (pc2 =? 0); [reflexivity|]. cbn [length]. replace (S n - 1)%nat with n by lia. destruct (arm_dump_from n dbg m pc2 (sp + f)). reflexivity.
  - destruct (N.eqb_spec pc1 0) as [Z|_]; [exfalso; apply NZ; [discriminate | exact Z]|]. rewrite (IH n) by (first [discriminate | lia]).
    destruct (pc2 =? 0); [reflexivity|]. cbn [length]. replace (S n - S (S (length ls)))%nat with (n - S (length ls))%nat by lia.
    destruct (arm_dump_from (n - S (length ls)) dbg m pc2 sp2). reflexivity.
Qed.

(** C81: a stack of up to twenty such calls, the outermost returning to zero, is shown in full: one line for each, from the innermost, and that is success. *)
Theorem c81_trace_partial : forall dbg m pc sp ls sp2, arm_calls m pc sp ls 0 sp2 -> ls <> [] -> (length ls <= 20)%nat -> arm_dump_with dbg m pc sp = (ls, Ok tt).
Proof. intros dbg m pc sp ls sp2 C NE L. unfold arm_dump_with. rewrite (arm_dump_calls dbg _ _ _ _ _ _ C 20 L NE). reflexivity. Qed.

(** Of a deeper stack the innermost twenty are shown, and the trace reports failure. *)
Theorem c81_deep : forall dbg m pc sp ls pc2 sp2, arm_calls m pc sp ls pc2 sp2 -> length ls = 20%nat -> pc2 <> 0 -> arm_dump_with dbg m pc sp = (ls, Err (Fails StackTraceDumpFailed)).
Proof.
  intros dbg m pc sp ls pc2 sp2 C L Z. unfold arm_dump_with. rewrite (arm_dump_calls dbg _ _ _ _ _ _ C 20); [|lia | destruct ls; discriminate].
  apply N.eqb_neq in Z. rewrite Z, L. cbn. now rewrite app_nil_r.
Qed.

(** Whatever memory holds, there are at most twenty lines, and the trace reports success exactly when the last one returns to zero. *)
Theorem c81_ends : forall dbg m pc sp, let (ls, r) := arm_dump_with dbg m pc sp in
  (length ls <= 20)%nat /\ (r = Ok tt <-> exists p l, ls = p ++ [l] /\ ln_ret l = 0).
Proof.
  intros dbg m pc sp. unfold arm_dump_with. generalize 20%nat as n. intros n. revert pc sp.
  induction n as [|n IH]; intros pc sp; cbn [arm_dump_from].
  - split; [reflexivity|]. split; [discriminate|]. intros [[|] [x [H _]]]; discriminate.
  - destruct (arm_step dbg m pc sp) as [[[l sp'] pc']|e|] eqn:S1.
    + assert (RL : ln_ret l = pc').
      { unfold arm_step in S1. destruct (lift (locate_image m pc)) as [img| |]; try discriminate S1. cbn [bind] in S1.
        destruct (find_arm_function _ _ _ _) as [[[? ?] u]| |]; try discriminate S1. cbn [bind] in S1.
        destruct (arm_frame dbg m img u sp) as [[x y]| |]; try discriminate S1. cbn [bind] in S1. injection S1 as E1 E2 E3. subst l. exact E3. }
      destruct (N.eqb_spec pc' 0) as [Z|Z].
      * split; [cbn; lia|]. split; [|reflexivity]. intros _. exists [], l. split; [reflexivity | congruence].
      * assert (H := IH pc' sp'). destruct (arm_dump_from n dbg m pc' sp') as [ls r]. destruct H as [H1 H2]. split; [cbn; lia|].
        rewrite H2. split.
        -- intros [p [x [E Q]]]. exists (l :: p), x. split; [now rewrite E | exact Q].
        -- intros [[|y p] [x [E Q]]]; injection E as E1 E2; [congruence|]. exists p, x. auto.
    + split; [cbn; lia|]. split; [discriminate|]. intros [[|] [x [H _]]]; discriminate.
    + split; [cbn; lia|]. split; [discriminate|]. intros [[|] [x [H _]]]; discriminate.
Qed.

(** ** What the trace does not get right *)

(** The usual way to make a frame, [stp fp, lr, [sp, -n]!]: the link register is taken from [n] bytes too far up, in the caller's frame if that was the first or only
    change of the stack pointer, and what is shown is whatever is there. *)
Theorem c81_fplrx_refuted : forall dbg m pc sp a size u p rest len z d other, arm_function m pc a size u -> record_at m a size u len (prolog_bytes p ++ rest) ->
  Forall code_ok p -> Forall plain p -> lr_saved p (SaveFpLrX z) d -> frame p < 2 ^ 31 ->
  other < 2 ^ 64 -> holds m (sp + (d + 8 * (z + 1))) (le_bytes 8 other) -> sp + frame p < 2 ^ 64 -> sp + (d + 8 * (z + 1)) < 2 ^ 64 ->
  arm_step dbg m pc sp = Ok (Line sp other (pc - a), sp + frame p, other).
Proof.
  intros dbg m pc sp a size u p rest len z d other AF R K P (before & after & k & -> & LP & -> & B & A) F O H B1 B2. apply (step_with dbg m pc sp a size u (frame after + k + 8 * (z + 1)) _ other AF); try assumption.
  rewrite (record_codes dbg _ _ _ _ _ _ R). rewrite prolog_walk by assumption. cbn [lr_taken lr_place] in *. assert (X : k = 8) by congruence. subst k. do 2 f_equal. clear. lia.
Qed.

(** Any other instruction that saves the link register goes unnoticed: it is taken from where the stack pointer points.  That is right exactly where the link register
    is the last thing stored. *)
Theorem c81_lr_unnoticed_refuted : forall dbg m a size u p rest len c d, record_at m a size u len (prolog_bytes p ++ rest) ->
  Forall code_ok p -> Forall plain p -> lr_saved p c d -> frame p < 2 ^ 31 -> (forall z, c <> SaveFpLr z) -> (forall z, c <> SaveFpLrX z) ->
  offsets dbg m (Slice a size) u = Ok (0, frame p) /\ (offsets dbg m (Slice a size) u = Ok (d, frame p) <-> d = 0).
Proof.
  intros dbg m a size u p rest len c d R K P (before & after & k & -> & LP & -> & B & A) F N1 N2.
  assert (E : offsets dbg m (Slice a size) u = Ok (0, frame (before ++ c :: after))).
  { rewrite (record_codes dbg _ _ _ _ _ _ R). rewrite prolog_walk by assumption. destruct c; try reflexivity; [exfalso; exact (N1 _ eq_refl) | exfalso; exact (N2 _ eq_refl)]. }
  rewrite E. split; [reflexivity|]. split; intros X; [|now rewrite X]. congruence.
Qed.

(** A function that does not save its link register, as a leaf, is taken to have it where the stack pointer points. *)
Theorem c81_leaf_refuted : forall dbg m pc sp a size u p rest len other, arm_function m pc a size u -> record_at m a size u len (prolog_bytes p ++ rest) ->
  Forall code_ok p -> Forall plain p -> Forall (fun c => lr_place c = None) p -> frame p < 2 ^ 31 ->
  other < 2 ^ 64 -> holds m sp (le_bytes 8 other) -> sp + frame p < 2 ^ 64 ->
  arm_step dbg m pc sp = Ok (Line sp other (pc - a), sp + frame p, other).
Proof.
  intros dbg m pc sp a size u p rest len other AF R K P L F O H B1. apply (step_with dbg m pc sp a size u 0 _ other AF); try assumption; [|lia | replace (sp + 0) with sp by lia; exact H].
  rewrite (record_codes dbg _ _ _ _ _ _ R). unfold prolog_bytes. rewrite <- app_assoc. rewrite many_codes; try (apply Forall_rev; assumption); [|rewrite frame_rev; lia].
  rewrite frame_rev. apply end_code.
Qed.

(** A pair of vector registers stored with a change of the stack pointer, here first of all, makes the frame found too small. *)
Theorem c81_vector_pair_refuted : forall dbg m a size u p rest len x z y d, record_at m a size u len (prolog_bytes (SaveFRegPX x z :: p) ++ rest) -> x < 8 -> z < 64 ->
  Forall code_ok p -> Forall plain p -> lr_saved p (SaveFpLr y) d -> frame p < 2 ^ 31 ->
  offsets dbg m (Slice a size) u = Ok (d, frame (SaveFRegPX x z :: p) - 8 * (z + 1)).
Proof.
  intros dbg m a size u p rest len x z y d R X Z K P (before & after & k & -> & LP & -> & B & A) F. rewrite (record_codes dbg _ _ _ _ _ _ R). unfold prolog_bytes. cbn [rev].
  rewrite map_app, concat_app, <- !app_assoc. rewrite prolog_part by assumption. cbn [map concat code_bytes app]. rewrite walk_cons. branch. rewrite end_code.
  cbn [lr_taken lr_place] in *. assert (Q : k = 8 * y + 8) by congruence. subst k.
  replace (frame (SaveFRegPX x z :: before ++ SaveFpLr y :: after)) with (8 * (z + 1) + frame (before ++ SaveFpLr y :: after)) by reflexivity. do 2 f_equal; clear; lia.
Qed.

(** A single one of d9, d11, d13 and d15 makes it 256 too large. *)
Theorem c81_vector_refuted : forall dbg m a size u p rest len x z y d, record_at m a size u len (prolog_bytes (SaveFRegX x z :: p) ++ rest) -> x < 8 -> z < 32 -> x mod 2 = 1 ->
  Forall code_ok p -> Forall plain p -> lr_saved p (SaveFpLr y) d -> frame p < 2 ^ 31 ->
  offsets dbg m (Slice a size) u = Ok (d, frame (SaveFRegX x z :: p) + 256).
Proof.
  intros dbg m a size u p rest len x z y d R X Z O K P (before & after & k & -> & LP & -> & B & A) F. rewrite (record_codes dbg _ _ _ _ _ _ R). unfold prolog_bytes. cbn [rev].
  rewrite map_app, concat_app, <- !app_assoc. rewrite prolog_part by assumption. cbn [map concat code_bytes app]. rewrite walk_cons. branch. rewrite add32_ok by lia. cbn [bind]. rewrite end_code.
  cbn [lr_taken lr_place] in *. assert (Q : k = 8 * y + 8) by congruence. subst k.
  replace (frame (SaveFRegX x z :: before ++ SaveFpLr y :: after)) with (8 * (z + 1) + frame (before ++ SaveFpLr y :: after)) by reflexivity.
  remember (frame (before ++ SaveFpLr y :: after)) as w. clear Heqw. do 2 f_equal; lia.
Qed.

(** A byte that is no code the loop knows, 0xDF or 0xF0 to 0xF7, is looked at forever: the trace does not end. *)
Theorem c81_hang_refuted : forall dbg m pc sp a size u l b rest len, arm_function m pc a size u ->
  record_at m a size u len (concat (map code_bytes l) ++ b :: rest) -> Forall code_ok l -> Forall plain l -> Forall (fun c => lr_place c = None) l -> frame l < 2 ^ 31 ->
  b = 0xDF \/ 0xF0 <= b <= 0xF7 -> arm_dump_with dbg m pc sp = ([], Err Never).
Proof.
  intros dbg m pc sp a size u l b rest len AF R K P L F B. unfold arm_dump_with. cbn [arm_dump_from]. unfold arm_step. destruct (arm_found dbg _ _ _ _ _ AF) as (s & e & LO & FF & LE).
  rewrite LO. cbn [lift bind sl_base]. rewrite FF. cbn [bind]. unfold arm_frame. rewrite (record_codes dbg _ _ _ _ _ _ R), many_codes by (assumption || lia).
  rewrite walk_cons. branch. reflexivity.
Qed.

(** A list of codes that ends within a code is a panic. *)
Theorem c81_truncated_refuted : forall dbg m pc sp a size u l b len, arm_function m pc a size u ->
  record_at m a size u len (concat (map code_bytes l) ++ [b]) -> Forall code_ok l -> Forall plain l -> Forall (fun c => lr_place c = None) l -> frame l < 2 ^ 31 ->
  0xC0 <= b <= 0xC7 \/ 0xCC <= b <= 0xCF \/ 0xD4 <= b <= 0xD5 \/ b = 0xDE \/ b = 0xE0 -> arm_dump_with dbg m pc sp = ([], Panic).
Proof.
  intros dbg m pc sp a size u l b len AF R K P L F B. unfold arm_dump_with. cbn [arm_dump_from]. unfold arm_step. destruct (arm_found dbg _ _ _ _ _ AF) as (s & e & LO & FF & LE).
  rewrite LO. cbn [lift bind sl_base]. rewrite FF. cbn [bind]. unfold arm_frame. rewrite (record_codes dbg _ _ _ _ _ _ R), many_codes by (assumption || lia).
  rewrite walk_cons. destruct B as [B|[B|[B|[B|B]]]]; branch; reflexivity.
Qed.

(** A packed function that saves its link register behind its integer registers, or not at all: it is taken from where the stack pointer points. *)
Theorem c81_packed_refuted : forall dbg m a size flag len regf regi h cr fs, packed_ok flag len regf regi h cr fs -> cr < 2 ->
  offsets dbg m (Slice a size) (packed flag len regf regi h cr fs) = Ok (0, 16 * fs) /\
  (packed_lr regf regi h cr fs = Some 0 <-> cr = 1 /\ regi = 0 /\ 16 * fs <= save_area regf regi h cr).
Proof.
  intros dbg m a size flag len regf regi h cr fs K C. rewrite packed_offsets by exact K. split; [destruct (N.leb_spec cr 1); [reflexivity | lia]|].
  unfold packed_lr, local_area. destruct (N.eq_dec cr 0); [split; [discriminate | lia]|]. destruct (N.eq_dec cr 1); [|lia]. split.
  - intros X. assert (Y : 16 * fs - save_area regf regi h cr + 8 * regi = 0) by congruence. lia.
  - intros (_ & -> & Y). f_equal. lia.
Qed.

(** The end of a function is taken as part of it. *)
Theorem c81_boundary_refuted : forall dbg m a pe size rva n k s1 u1 l1 u2 l2, image_at m a pe size -> arm_table m a pe size rva n -> k + 1 < n ->
  arm_entry m (a + rva) k s1 u1 -> arm_length m a size u1 l1 -> arm_entry m (a + rva) (k + 1) (s1 + 4 * l1) u2 -> arm_length m a size u2 l2 -> 0 < l1 -> 0 < l2 ->
  (forall j s u l, j < k -> arm_entry m (a + rva) j s u -> arm_length m a size u l -> s1 + 4 * l1 < s \/ s + 4 * l < s1 + 4 * l1) ->
  find_arm_function dbg m (Slice a size) (s1 + 4 * l1) = Ok (s1, s1 + 4 * l1, u1).
Proof.
  intros dbg m a pe size rva n k s1 u1 l1 u2 l2 I T K E1 L1 E2 L2 P1 P2 F. apply (find_arm_ok dbg m a pe size rva n k); auto; try lia. destruct E2 as [_ [X _]]. exact X.
Qed.

(** ** An example: a function with a record calls, called from a packed one *)
Definition demo_prolog : list code := [AllocS 4; SaveFpLr 2; AddFp 2; SaveRegP 0 4].
Definition demo_packed : N := packed 1 0x20 0 2 0 3 4.
Definition arm_demo : mem := fold_right (fun p m => writem m (fst p) (snd p)) (fun _ => 0)
  [(0x1000, [0x4D; 0x5A]); (0x103C, le_bytes 4 0x80); (0x1080, [0x50; 0x45; 0; 0]); (0x1098, [0x0B; 0x02]); (0x10D0, le_bytes 4 0x1000);
   (0x1120, le_bytes 4 0x400); (0x1124, le_bytes 4 16);
   (0x1400, le_bytes 4 0x200 ++ le_bytes 4 0x500); (0x1408, le_bytes 4 0x280 ++ le_bytes 4 demo_packed);
   (0x1500, le_bytes 4 (0x10 + 2 ^ 21 + 2 ^ 27 * 2) ++ prolog_bytes demo_prolog ++ [0xE3]);
   (0x8018, le_bytes 8 0x1290)].

Lemma arm_demo_memory : mem_ok arm_demo.
Proof.
  unfold arm_demo. cbn [fold_right fst snd]. repeat (apply writem_ok; [| repeat (apply Forall_app; split); first [apply le_bytes_ok | (unfold prolog_bytes; cbn; repeat constructor)] ]).
  intros x. lia.
Qed.
Ltac in_memory := apply (readm_holds _ _ _ _ eq_refl); vm_compute; reflexivity.
Lemma arm_demo_image : forall pc, 0x1000 <= pc < 0x2000 -> image_of arm_demo pc 0x1000 0x80 0x1000.
Proof.
  intros pc B. split; [|lia]. split; [|split; [lia | split; [lia|]]].
  - split; [reflexivity | in_memory | in_memory | in_memory | lia | in_memory | lia | | lia].
    exists 0, 0. split; [lia|]. split; [lia|]. split; [in_memory|]. split; [in_memory|]. intros k rs H. lia.
  - intros b B1 B2. lia.
Qed.
Lemma arm_demo_record : record_at arm_demo 0x1000 0x1000 0x500 0x10 (prolog_bytes demo_prolog ++ [0xE3]).
Proof.
  split; [reflexivity|]. exists 0, 1, 0, 2, false. do 3 (split; [lia|]). split; [reflexivity|]. split; [repeat (split; [lia|]); in_memory|].
  cbv zeta. split; [vm_compute; discriminate|]. in_memory.
Qed.
Lemma arm_demo_lengths : arm_length arm_demo 0x1000 0x1000 0x500 0x10 /\ arm_length arm_demo 0x1000 0x1000 demo_packed 0x20.
Proof. split; [left; exists (prolog_bytes demo_prolog ++ [0xE3]); exact arm_demo_record | right; exists 1, 0, 2, 0, 3, 4; split; [unfold packed_ok; lia | reflexivity]]. Qed.
Lemma arm_demo_entries : arm_entry arm_demo 0x1400 0 0x200 0x500 /\ arm_entry arm_demo 0x1400 1 0x280 demo_packed.
Proof. split; (split; [in_memory | unfold demo_packed, packed; lia]). Qed.
Lemma arm_demo_table : arm_table arm_demo 0x1000 0x80 0x1000 0x400 2.
Proof.
  unfold arm_table. split; [in_memory|]. split; [in_memory|]. split; [in_memory|]. do 4 (split; [lia|]). intros k K.
  change (0x1000 + 0x400) with 0x1400. destruct arm_demo_entries as [E1 E2]. destruct arm_demo_lengths as [L1 L2].
  assert (C : k = 0 \/ k = 1) by lia. destruct C as [-> | ->]; do 3 eexists; [split; [exact E1 | split; [exact L1 | lia]] | split; [exact E2 | split; [exact L2 | lia]]].
Qed.

Example c81_demo_calls : arm_calls arm_demo 0x1210 0x8000 [Line 0x8000 0x1290 0x210; Line 0x8040 0 0x290] 0 0x8080.
Proof.
  destruct arm_demo_entries as [E1 E2]. destruct arm_demo_lengths as [L1 L2].
  apply (a_call arm_demo 0x1210 0x8000 0x1000 0x1000 0x500 24 64 0x1290).
  - split; [exact arm_demo_memory|]. exists 0x80, 0x400, 2, 0, 0x200, 0x10. split; [apply arm_demo_image; lia|]. split; [exact arm_demo_table|]. split; [lia|]. split; [exact E1|].
    split; [exact L1|]. split; [lia|]. intros; lia.
  - left. exists demo_prolog, [0xE3], 0x10, 2. split; [exact arm_demo_record|]. split; [repeat constructor; cbn; lia|]. split; [repeat constructor|].
    split; [exists [AllocS 4], [AddFp 2; SaveRegP 0 4], 24; repeat split; repeat constructor | split; vm_compute; reflexivity].
  - lia.
  - lia.
  - lia.
  - in_memory.
  - lia.
  - apply (a_call arm_demo 0x1290 0x8040 0x1000 0x1000 demo_packed 8 64 0).
    + split; [exact arm_demo_memory|]. exists 0x80, 0x400, 2, 1, 0x280, 0x20. split; [apply arm_demo_image; lia|]. split; [exact arm_demo_table|]. split; [lia|]. split; [exact E2|].
      split; [exact L2|]. split; [lia|]. intros j s v l J EJ LJ. replace j with 0 in EJ by lia. change (0x1000 + 0x400) with 0x1400 in EJ. destruct (arm_entry_det _ _ _ _ _ _ _ EJ E1) as [-> ->].
      rewrite (arm_length_det _ _ _ _ _ _ LJ L1). lia.
    + right. exists 1, 0x20, 0, 2, 0, 3, 4. split; [unfold packed_ok; lia|]. split; [reflexivity|]. split; [reflexivity|]. split; [reflexivity | lia].
    + lia.
    + lia.
    + lia.
    + in_memory.
    + intros H. contradiction.
    + constructor.
Qed.
Example c81_demo : arm_dump_with true arm_demo 0x1210 0x8000 = ([Line 0x8000 0x1290 0x210; Line 0x8040 0 0x290], Ok tt).
Proof. vm_compute. reflexivity. Qed.
(** The usual frame: the caller's frame is read. *)
Example c81_demo_fplrx : lr_saved [SaveFpLrX 3; SetFp] (SaveFpLrX 3) 8 /\ walk true (prolog_bytes [SaveFpLrX 3; SetFp]) 0 0 = Ok (40, 32).
Proof. split; [exists [], [SetFp], 8; repeat split; repeat constructor | reflexivity]. Qed.

Print Assumptions c81_offsets.
Print Assumptions c81_caller.
Print Assumptions c81_trace_partial.
Print Assumptions c81_deep.
Print Assumptions c81_ends.
Print Assumptions c81_fplrx_refuted.
Print Assumptions c81_lr_unnoticed_refuted.
Print Assumptions c81_leaf_refuted.
Print Assumptions c81_vector_pair_refuted.
Print Assumptions c81_vector_refuted.
Print Assumptions c81_hang_refuted.
Print Assumptions c81_truncated_refuted.
Print Assumptions c81_packed_refuted.
Print Assumptions c81_boundary_refuted.
