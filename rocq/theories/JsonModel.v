(** Model of json.dumps / json.loads as used by load_dict, dump_dict and
    check_if_damaged, /repo/smote_variants/base/_base.py lines 197-289.

    Characters and bytes are code points (Z); json.dumps with its default
    ensure_ascii=True emits only ASCII, so that bytes and characters of a file
    coincide. A Python float is a value of an abstract type [F] with its printed
    form [frepr] (float.__repr__, or NaN, Infinity, -Infinity) and the conversion
    [fparse] of such text. Recursion limits are not modelled. *)

From Coq Require Import List ZArith Bool Lia.
Import ListNotations.
Open Scope Z_scope.

Definition text := list Z.

Section JSON.
Context {F : Type}.
Variable frepr : F -> text.
Variable fparse : text -> F.

(** JSON-representable Python values; a dictionary is the list of its items in
    insertion order. *)
Inductive json :=
  | JNull | JBool (b : bool) | JInt (z : Z) | JFloat (f : F) | JStr (s : text)
  | JArr (l : list json) | JObj (l : list (text * json)).

(** ** json.dumps *)

Definition hex_digit (d : Z) : Z := if d <? 10 then 48 + d else 87 + d.
Definition hex4 (c : Z) : text :=
  [hex_digit (c / 4096); hex_digit (c / 256 mod 16); hex_digit (c / 16 mod 16); hex_digit (c mod 16)].

(** json.encoder.py_encode_basestring_ascii *)
Definition escape (c : Z) : text :=
  if c =? 34 then [92; 34] else if c =? 92 then [92; 92]
  else if c =? 10 then [92; 110] else if c =? 13 then [92; 114] else if c =? 9 then [92; 116]
  else if c =? 12 then [92; 102] else if c =? 8 then [92; 98]
  else if (32 <=? c) && (c <=? 126) then [c]
  else if c <? 65536 then [92; 117] ++ hex4 c
  else [92; 117] ++ hex4 (55296 + (c - 65536) / 1024) ++ [92; 117] ++ hex4 (56320 + (c - 65536) mod 1024).

Definition print_str (s : text) : text := 34 :: flat_map escape s ++ [34].

(** Decimal digits of a non-negative number, most significant first. *)
Fixpoint digits_rev (fuel : nat) (z : Z) : text :=
  match fuel with
  | O => []
  | S k => (48 + z mod 10) :: (if z <? 10 then [] else digits_rev k (z / 10))
  end.
Definition digits (z : Z) : text := rev (digits_rev (S (Z.to_nat (Z.log2 z))) z).
(** int.__repr__ *)
Definition print_int (z : Z) : text := if z <? 0 then 45 :: digits (- z) else digits z.

Definition t_null : text := [110; 117; 108; 108].
Definition t_true : text := [116; 114; 117; 101].
Definition t_false : text := [102; 97; 108; 115; 101].
Definition t_nan : text := [78; 97; 78].
Definition t_inf : text := [73; 110; 102; 105; 110; 105; 116; 121].
Definition t_ninf : text := 45 :: t_inf.

Fixpoint print (v : json) : text :=
  match v with
  | JNull => t_null
  | JBool true => t_true
  | JBool false => t_false
  | JInt z => print_int z
  | JFloat f => frepr f
  | JStr s => print_str s
  | JArr l => 91 :: (fix items l := match l with
                      | [] => []
                      | [x] => print x
                      | x :: r => print x ++ [44; 32] ++ items r
                      end) l ++ [93]
  | JObj l => 123 :: (fix items l := match l with
                      | [] => []
                      | [(k, x)] => print_str k ++ [58; 32] ++ print x
                      | (k, x) :: r => print_str k ++ [58; 32] ++ print x ++ [44; 32] ++ items r
                      end) l ++ [125]
  end.

(** ** json.loads *)

(** A parser either returns a value and the text after it, or raises
    JSONDecodeError; [Fuel] marks the model's own bound on the recursion. *)
Inductive pres (A : Type) := POk (a : A) (rest : text) | PBad | PFuel.
Arguments POk {A}. Arguments PBad {A}. Arguments PFuel {A}.

Definition is_ws (c : Z) : bool := (c =? 32) || (c =? 9) || (c =? 10) || (c =? 13).
Fixpoint skip_ws (s : text) : text :=
  match s with c :: r => if is_ws c then skip_ws r else s | [] => [] end.

Definition hex_value (c : Z) : option Z :=
  if (48 <=? c) && (c <=? 57) then Some (c - 48)
  else if (97 <=? c) && (c <=? 102) then Some (c - 87)
  else if (65 <=? c) && (c <=? 70) then Some (c - 55) else None.
(** json.decoder._decode_uXXXX *)
Definition scan_hex4 (s : text) : option (Z * text) :=
  match s with
  | a :: b :: c :: d :: r =>
      match hex_value a, hex_value b, hex_value c, hex_value d with
      | Some a, Some b, Some c, Some d => Some (4096 * a + 256 * b + 16 * c + d, r)
      | _, _, _, _ => None
      end
  | _ => None
  end.

Definition unescape (c : Z) : option Z :=
  if c =? 34 then Some 34 else if c =? 92 then Some 92 else if c =? 47 then Some 47
  else if c =? 98 then Some 8 else if c =? 102 then Some 12 else if c =? 110 then Some 10
  else if c =? 114 then Some 13 else if c =? 116 then Some 9 else None.

Definition is_high (c : Z) : bool := (55296 <=? c) && (c <=? 56319).
Definition is_low (c : Z) : bool := (56320 <=? c) && (c <=? 57343).

(** The rest of the text if it begins with character [c]. *)
Definition eat (c : Z) (s : text) : option text :=
  match s with x :: r => if x =? c then Some r else None | [] => None end.

(** The text begins with [w]: what follows. *)
Fixpoint after (w s : text) : option text :=
  match w with
  | [] => Some s
  | a :: w' => match eat a s with Some r => after w' r | None => None end
  end.

(** json.decoder.py_scanstring, after the opening quote, strict mode. *)
Fixpoint scan_str (fuel : nat) (s : text) : pres text :=
  match fuel with
  | O => PFuel
  | S k =>
      let more c r := match scan_str k r with POk t r' => POk (c :: t) r' | PBad => PBad | PFuel => PFuel end in
      match s with
      | [] => PBad
      | c :: r =>
          if c =? 34 then POk [] r
          else if c =? 92 then
            match eat 117 r with
            | None => match r with
                      | e :: r' => match unescape e with Some u => more u r' | None => PBad end
                      | [] => PBad
                      end
            | Some r0 =>
                match scan_hex4 r0 with
                | None => PBad
                | Some (u, r1) =>
                    if is_high u then
                      match after [92; 117] r1 with
                      | Some r2 =>
                          match scan_hex4 r2 with
                          | None => PBad
                          | Some (u2, r3) =>
                              if is_low u2 then more (65536 + 1024 * (u - 55296) + (u2 - 56320)) r3 else more u r1
                          end
                      | None => more u r1
                      end
                    else more u r1
                end
            end
          else if c <? 32 then PBad else more c r
      end
  end.

Definition is_digit (c : Z) : bool := (48 <=? c) && (c <=? 57).
Fixpoint span_digits (s : text) : text * text :=
  match s with
  | c :: r => if is_digit c then let (a, b) := span_digits r in (c :: a, b) else ([], s)
  | [] => ([], [])
  end.

(** json.scanner.NUMBER_RE: integer part, fraction, exponent. *)
Definition scan_frac (s : text) : text * text :=
  match eat 46 s with
  | Some r => let (d, r') := span_digits r in match d with [] => ([], s) | _ => (46 :: d, r') end
  | None => ([], s)
  end.
Definition scan_exp (s : text) : text * text :=
  match s with
  | e :: r =>
      if (e =? 101) || (e =? 69) then
        let '(sg, r1) := match r with x :: r1 => if (x =? 43) || (x =? 45) then ([x], r1) else ([], r) | [] => ([], r) end in
        let (d, r2) := span_digits r1 in
        match d with [] => ([], s) | _ => (e :: sg ++ d, r2) end
      else ([], s)
  | [] => ([], s)
  end.
Definition scan_nat (s : text) : option (text * text) :=
  match s with
  | c :: r => if c =? 48 then Some ([48], r) else if is_digit c then Some (span_digits s) else None
  | [] => None
  end.
Definition scan_int (s : text) : option (text * text) :=
  match eat 45 s with
  | Some r => match scan_nat r with Some (d, r') => Some (45 :: d, r') | None => None end
  | None => scan_nat s
  end.

(** int(text) *)
Definition digits_value (d : text) : Z := fold_left (fun a c => 10 * a + (c - 48)) d 0.
Definition int_value (d : text) : Z :=
  match eat 45 d with Some r => - digits_value r | None => digits_value d end.

Definition scan_number (s : text) : pres json :=
  match scan_int s with
  | Some (d, r) =>
      let (f, r1) := scan_frac r in
      let (e, r2) := scan_exp r1 in
      match f, e with
      | [], [] => POk (JInt (int_value d)) r2
      | _, _ => POk (JFloat (fparse (d ++ f ++ e))) r2
      end
  | None =>
      match after t_nan s with Some r => POk (JFloat (fparse t_nan)) r | None =>
      match after t_inf s with Some r => POk (JFloat (fparse t_inf)) r | None =>
      match after t_ninf s with Some r => POk (JFloat (fparse t_ninf)) r | None => PBad
      end end end
  end.

Fixpoint eqb_text (a b : text) : bool :=
  match a, b with [], [] => true | x :: a', y :: b' => (x =? y) && eqb_text a' b' | _, _ => false end.
(** [d\[k\] = v] *)
Fixpoint dict_set (d : list (text * json)) (k : text) (v : json) : list (text * json) :=
  match d with
  | [] => [(k, v)]
  | (k', v') :: r => if eqb_text k' k then (k', v) :: r else (k', v') :: dict_set r k v
  end.
Definition dict_of (l : list (text * json)) : list (text * json) := fold_left (fun d kv => dict_set d (fst kv) (snd kv)) l [].

(** json.scanner.py_make_scanner, JSONObject, JSONArray. [members] starts after
    the opening quote of a key, [elems] at an element. *)
Fixpoint scan (fuel : nat) (s : text) {struct fuel} : pres json :=
  match fuel with
  | O => PFuel
  | S k =>
      match eat 34 s with
      | Some r => match scan_str (S (length r)) r with POk t r' => POk (JStr t) r' | PBad => PBad | PFuel => PFuel end
      | None =>
      match eat 123 s with
      | Some r =>
          match eat 125 (skip_ws r) with
          | Some r' => POk (JObj []) r'
          | None =>
              match eat 34 (skip_ws r) with
              | Some r' => match members k r' with POk l r'' => POk (JObj (dict_of l)) r'' | PBad => PBad | PFuel => PFuel end
              | None => PBad
              end
          end
      | None =>
      match eat 91 s with
      | Some r =>
          match eat 93 (skip_ws r) with
          | Some r' => POk (JArr []) r'
          | None => match elems k (skip_ws r) with POk l r'' => POk (JArr l) r'' | PBad => PBad | PFuel => PFuel end
          end
      | None =>
      match after t_null s with Some r => POk JNull r | None =>
      match after t_true s with Some r => POk (JBool true) r | None =>
      match after t_false s with Some r => POk (JBool false) r | None => scan_number s
      end end end end end end
  end
with members (fuel : nat) (s : text) {struct fuel} : pres (list (text * json)) :=
  match fuel with
  | O => PFuel
  | S k =>
      match scan_str (S (length s)) s with
      | PBad => PBad | PFuel => PFuel
      | POk key r =>
          match eat 58 (skip_ws r) with
          | Some r1 =>
              match scan k (skip_ws r1) with
              | PBad => PBad | PFuel => PFuel
              | POk v r2 =>
                  match eat 125 (skip_ws r2) with
                  | Some r3 => POk [(key, v)] r3
                  | None =>
                      match eat 44 (skip_ws r2) with
                      | Some r3 =>
                          match eat 34 (skip_ws r3) with
                          | Some r4 => match members k r4 with POk l r5 => POk ((key, v) :: l) r5 | PBad => PBad | PFuel => PFuel end
                          | None => PBad
                          end
                      | None => PBad
                      end
                  end
              end
          | None => PBad
          end
      end
  end
with elems (fuel : nat) (s : text) {struct fuel} : pres (list json) :=
  match fuel with
  | O => PFuel
  | S k =>
      match scan k s with
      | PBad => PBad | PFuel => PFuel
      | POk v r =>
          match eat 93 (skip_ws r) with
          | Some r1 => POk [v] r1
          | None =>
              match eat 44 (skip_ws r) with
              | Some r1 => match elems k (skip_ws r1) with POk l r2 => POk (v :: l) r2 | PBad => PBad | PFuel => PFuel end
              | None => PBad
              end
          end
      end
  end.

(** JSONDecoder.decode; loads rejects a leading byte order mark. *)
Definition loads (s : text) : pres json :=
  match eat 65279 s with
  | Some _ => PBad
  | None =>
      match scan (2 * length s + 1) (skip_ws s) with
      | POk v r => match skip_ws r with [] => POk v [] | _ => PBad end
      | e => e
      end
  end.

End JSON.
Arguments json F : clear implicits.
Arguments POk {A}. Arguments PBad {A}. Arguments PFuel {A}.
