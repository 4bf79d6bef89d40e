(** A reader of JSON objects whose values are strings (RFC 8259), prefixes, and lines. *)
From Verif Require Import Base.Prelude.
From Coq Require Import String Ascii.
Local Open Scope N_scope.

(** Text is the codes of its characters. *)
Definition text := list N.
Fixpoint codes (s : string) : text := match s with EmptyString => [] | String a s => N_of_ascii a :: codes s end.

Definition hex_value (c : N) : option N :=
  if (48 <=? c) && (c <=? 57) then Some (c - 48) else if (97 <=? c) && (c <=? 102) then Some (c - 87) else if (65 <=? c) && (c <=? 70) then Some (c - 55) else None.
(** A string, after its opening quote: what it says, and the text behind it. *)
Fixpoint read_string (l : text) : option (text * text) :=
  match l with
  | [] => None
  | c :: r =>
      if c =? 34 then Some ([], r)
      else if c =? 92 then
        match r with
        | e :: r1 =>
            let simple (x : N) := match read_string r1 with Some (s, q) => Some (x :: s, q) | None => None end in
            if (e =? 34) || (e =? 92) || (e =? 47) then simple e
            else if e =? 98 then simple 8 else if e =? 102 then simple 12 else if e =? 110 then simple 10 else if e =? 114 then simple 13 else if e =? 116 then simple 9
            else if e =? 117 then
              match r1 with
              | h3 :: h2 :: h1 :: h0 :: r2 =>
                  match hex_value h3, hex_value h2, hex_value h1, hex_value h0, read_string r2 with
                  | Some a, Some b, Some c, Some d, Some (s, q) => Some (((a * 16 + b) * 16 + c) * 16 + d :: s, q)
                  | _, _, _, _, _ => None
                  end
              | _ => None
              end
            else None
        | [] => None
        end
      else if c <? 32 then None
      else match read_string r with Some (s, q) => Some (c :: s, q) | None => None end
  end.
Fixpoint skip_ws (l : text) : text := match l with c :: r => if (c =? 32) || (c =? 9) || (c =? 10) || (c =? 13) then skip_ws r else l | [] => [] end.
(** One character is expected. *)
Definition expect (c : N) (l : text) : option text := match l with x :: r => if x =? c then Some r else None | [] => None end.
Definition read_quoted (l : text) : option (text * text) := match expect 34 (skip_ws l) with Some r => read_string r | None => None end.
(** Members, up to the closing brace; [fuel] at least their number. *)
Fixpoint read_members (fuel : nat) (l : text) : option (list (text * text) * text) :=
  match fuel with
  | O => None
  | S fuel =>
      match read_quoted l with
      | None => None
      | Some (k, r) =>
          match expect 58 (skip_ws r) with
          | None => None
          | Some r =>
              match read_quoted r with
              | None => None
              | Some (v, r) =>
                  match skip_ws r with
                  | c :: r => if c =? 125 then Some ([(k, v)], r)
                              else if c =? 44 then match read_members fuel r with Some (m, q) => Some ((k, v) :: m, q) | None => None end
                              else None
                  | [] => None
                  end
              end
          end
      end
  end.
Definition read_object (l : text) : option (list (text * text)) :=
  match expect 123 (skip_ws l) with
  | None => None
  | Some r => match expect 125 (skip_ws r) with
              | Some q => match skip_ws q with [] => Some [] | _ => None end
              | None => match read_members (List.length r) r with Some (m, q) => match skip_ws q with [] => Some m | _ => None end | None => None end
              end
  end.

(** Characters that need no escape. *)
Definition plain (c : N) : Prop := 32 <= c /\ c <> 34 /\ c <> 92.
Definition newlines (l : text) : nat := count_occ N.eq_dec l 10.
Definition is_prefix (p l : text) : Prop := exists r, l = p ++ r.
