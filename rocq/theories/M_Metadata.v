(** Model of the metadata record: measureme/src/profiler.rs:54-69 (writer), decodeme/src/lib.rs:29-47,
    144-145 (reader).  The reader uses serde_json, an external crate; it is modelled by a JSON parser
    (RFC 8259) followed by the extraction of the fields.  Simplification: serde_json
    checks less of the values of unknown fields, which it skips (escapes and UTF-8 inside strings; their nesting is
    not limited, and the structures read here nest only to a fixed depth). *)
From Coq Require Import String ZArith List Lia Bool.
From Verif Require Import M_Base M_V8 M_Map M_Crox M_Counters.
Import ListNotations.
Open Scope Z_scope.

(** ** The writer *)
(** hexadecimal digits, lower case, no leading zeros *)
Definition hex_digit (d : Z) : Z := if d <? 10 then 48 + d else 87 + d.
Fixpoint hex_fuel (fuel : nat) (n : Z) (acc : bytes) : bytes :=
  match fuel with
  | O => acc
  | S f => let acc := hex_digit (n mod 16) :: acc in if n / 16 =? 0 then acc else hex_fuel f (n / 16) acc
  end.
(** [char::escape_default] (library/core/src/char/methods.rs) *)
Definition escape_char (c : Z) : bytes :=
  if c =? 9 then [92; 116]
  else if c =? 13 then [92; 114]
  else if c =? 10 then [92; 110]
  else if (c =? 92) || (c =? 34) || (c =? 39) then [92; c]
  else if (32 <=? c) && (c <=? 126) then [c]
  else [92; 117; 123] ++ hex_fuel 8 c [] ++ [125].
(** profiler.rs:54-58; an argument is a sequence of characters *)
Definition args_text (args : list (list Z)) : bytes := concat (map (fun a => concat (map escape_char a) ++ [32]) args).
(** profiler.rs:60-69 *)
Definition metadata_text (start_time process_id : Z) (args : list (list Z)) (k : counter_kind) : bytes :=
  str "{ ""start_time"": " ++ decimal start_time ++ str ", ""process_id"": " ++ decimal process_id ++
  str ", ""cmd"": """ ++ args_text args ++ str """, ""counter"": " ++ describe_as_json k ++ str " }".

(** ** JSON *)
(** [JFloat]: a number with a fraction or an exponent, as written *)
Inductive json := JNull | JBool (b : bool) | JInt (n : Z) | JFloat (text : bytes) | JStr (s : bytes) | JArr (l : list json) | JObj (l : list (bytes * json)).
Fixpoint skip_ws (b : bytes) : bytes :=
  match b with
  | c :: r => if (c =? 32) || (c =? 9) || (c =? 10) || (c =? 13) then skip_ws r else b
  | [] => []
  end.
Definition is_digit (c : Z) : bool := (48 <=? c) && (c <=? 57).
Fixpoint take_digits (b : bytes) : bytes * bytes :=
  match b with
  | c :: r => if is_digit c then let '(d, r') := take_digits r in (c :: d, r') else ([], b)
  | [] => ([], [])
  end.
Definition hex_value (c : Z) : option Z :=
  if is_digit c then Some (c - 48)
  else if (97 <=? c) && (c <=? 102) then Some (c - 87)
  else if (65 <=? c) && (c <=? 70) then Some (c - 55)
  else None.
Definition hex4 (a b c d : Z) : option Z :=
  match hex_value a, hex_value b, hex_value c, hex_value d with
  | Some a, Some b, Some c, Some d => Some (4096 * a + 256 * b + 16 * c + d)
  | _, _, _, _ => None
  end.
(** UTF-8 encoding of an escaped character *)
Definition utf8_bytes (c : Z) : bytes :=
  if c <? 128 then [c]
  else if c <? 2048 then [192 + c / 64; 128 + c mod 64]
  else if c <? 65536 then [224 + c / 4096; 128 + (c / 64) mod 64; 128 + c mod 64]
  else [240 + c / 262144; 128 + (c / 4096) mod 64; 128 + (c / 64) mod 64; 128 + c mod 64].
(** RFC 8259 section 7: the rest of a string after the opening quote *)
Fixpoint string_rest (b : bytes) : option (bytes * bytes) :=
  let put (s : bytes) (o : option (bytes * bytes)) := match o with Some (x, r) => Some (s ++ x, r) | None => None end in
  match b with
  | [] => None
  | c :: r =>
      if c =? 34 then Some ([], r)
      else if c =? 92 then
        match r with
        | [] => None
        | e :: r' =>
            if (e =? 34) || (e =? 92) || (e =? 47) then put [e] (string_rest r')
            else if e =? 98 then put [8] (string_rest r')
            else if e =? 102 then put [12] (string_rest r')
            else if e =? 110 then put [10] (string_rest r')
            else if e =? 114 then put [13] (string_rest r')
            else if e =? 116 then put [9] (string_rest r')
            else if e =? 117 then
              match r' with
              | h1 :: h2 :: h3 :: h4 :: r2 =>
                  match hex4 h1 h2 h3 h4 with
                  | None => None
                  | Some u =>
                      if (55296 <=? u) && (u <=? 56319) then
                        match r2 with
                        | b1 :: b2 :: l1 :: l2 :: l3 :: l4 :: r3 =>
                            if (b1 =? 92) && (b2 =? 117) then
                              match hex4 l1 l2 l3 l4 with
                              | Some v => if (56320 <=? v) && (v <=? 57343) then put (utf8_bytes (65536 + (u - 55296) * 1024 + (v - 56320))) (string_rest r3) else None
                              | None => None
                              end
                            else None
                        | _ => None
                        end
                      else if (56320 <=? u) && (u <=? 57343) then None
                      else put (utf8_bytes u) (string_rest r2)
                  end
              | _ => None
              end
            else None
        end
      else if c <? 32 then None
      else put [c] (string_rest r)
  end.
(** RFC 8259 section 6 *)
Definition digits_value (ds : bytes) : Z := fold_left (fun n d => 10 * n + (d - 48)) ds 0.
Definition frac (b : bytes) : option (bool * bytes) :=
  match b with
  | 46 :: r => let '(d, r') := take_digits r in match d with [] => None | _ => Some (true, r') end
  | _ => Some (false, b)
  end.
Definition expo (b : bytes) : option (bool * bytes) :=
  match b with
  | c :: r =>
      if (c =? 101) || (c =? 69) then
        let r1 := match r with s :: r1 => if (s =? 43) || (s =? 45) then r1 else r | [] => r end in
        let '(d, r') := take_digits r1 in match d with [] => None | _ => Some (true, r') end
      else Some (false, b)
  | [] => Some (false, [])
  end.
(** a number without fraction and exponent is an integer, except -0, which serde_json reads as a floating point number *)
Definition number (neg : bool) (b : bytes) : option (json * bytes) :=
  let '(d, r) := take_digits b in
  match d with
  | [] => None
  | z :: t =>
      if (z =? 48) && negb (zlen t =? 0) then None
      else match frac r with
           | None => None
           | Some (f, r1) =>
               match expo r1 with
               | None => None
               | Some (e, r2) => Some (if f || e || (neg && (z =? 48)) then JFloat ((if neg then [45] else []) ++ ztake (zlen b - zlen r2) b) else JInt (if neg then - digits_value d else digits_value d), r2)
               end
           end
  end.
Fixpoint literal (l b : bytes) : option bytes :=
  match l, b with
  | [], _ => Some b
  | x :: l', y :: b' => if x =? y then literal l' b' else None
  | _ :: _, [] => None
  end.
(** RFC 8259 sections 2-5; every level of nesting and every element costs one unit of fuel *)
Fixpoint value (fuel : nat) (b : bytes) : option (json * bytes) :=
  match fuel with
  | O => None
  | S f =>
      match skip_ws b with
      | [] => None
      | c :: r =>
          if c =? 123 then
            match skip_ws r with
            | [] => None
            | q :: r' => if q =? 125 then Some (JObj [], r') else match members f r with Some (ms, r2) => Some (JObj ms, r2) | None => None end
            end
          else if c =? 91 then
            match skip_ws r with
            | [] => None
            | q :: r' => if q =? 93 then Some (JArr [], r') else match elements f r with Some (l, r2) => Some (JArr l, r2) | None => None end
            end
          else if c =? 34 then match string_rest r with Some (s, r') => Some (JStr s, r') | None => None end
          else if c =? 45 then number true r
          else if is_digit c then number false (c :: r)
          else if c =? 116 then match literal (str "rue") r with Some r' => Some (JBool true, r') | None => None end
          else if c =? 102 then match literal (str "alse") r with Some r' => Some (JBool false, r') | None => None end
          else if c =? 110 then match literal (str "ull") r with Some r' => Some (JNull, r') | None => None end
          else None
      end
  end
with members (fuel : nat) (b : bytes) : option (list (bytes * json) * bytes) :=
  match fuel with
  | O => None
  | S f =>
      match skip_ws b with
      | q :: r =>
          if q =? 34 then
            match string_rest r with
            | None => None
            | Some (key, r1) =>
                match skip_ws r1 with
                | c :: r2 =>
                    if c =? 58 then
                      match value f r2 with
                      | None => None
                      | Some (v, r3) =>
                          match skip_ws r3 with
                          | d :: r4 =>
                              if d =? 125 then Some ([(key, v)], r4)
                              else if d =? 44 then match members f r4 with Some (ms, r5) => Some ((key, v) :: ms, r5) | None => None end
                              else None
                          | [] => None
                          end
                      end
                    else None
                | [] => None
                end
            end
          else None
      | [] => None
      end
  end
with elements (fuel : nat) (b : bytes) : option (list json * bytes) :=
  match fuel with
  | O => None
  | S f =>
      match value f b with
      | None => None
      | Some (v, r3) =>
          match skip_ws r3 with
          | d :: r4 =>
              if d =? 93 then Some ([v], r4)
              else if d =? 44 then match elements f r4 with Some (l, r5) => Some (v :: l, r5) | None => None end
              else None
          | [] => None
          end
      end
  end.
(** [serde_json::from_str]: one value and nothing but white space after it *)
Definition from_str (b : bytes) : option json :=
  match value (S (List.length b)) b with
  | Some (v, r) => match skip_ws r with [] => Some v | _ => None end
  | None => None
  end.

(** ** The reader *)
(** the values of the members named [k] *)
Definition fields (k : bytes) (l : list (bytes * json)) : list json := map snd (filter (fun m => beq (fst m) k) l).
(** the members of a structure with the given fields: those of an object, or, of an array with one element per
    field, the fields in order ([visit_seq] of a derived [Deserialize]) *)
Definition members_of (names : list bytes) (v : json) : option (list (bytes * json)) :=
  match v with
  | JObj l => Some l
  | JArr l => if (List.length l =? List.length names)%nat then Some (combine names l) else None
  | _ => None
  end.
(** lib.rs:29-47, 145: [#[derive(Deserialize)]]: every field exactly once, other fields are ignored;
    [u64], [u32] and [String] values *)
Definition parse_metadata (text : bytes) : res metadata :=
  match match from_str text with Some v => members_of [str "start_time"; str "process_id"; str "cmd"] v | None => None end with
  | Some l =>
      match fields (str "start_time") l, fields (str "process_id") l, fields (str "cmd") l with
      | [JInt t], [JInt p], [JStr c] =>
          if (0 <=? t) && (t <? 2 ^ 64) && ((0 <=? p) && (p <? 2 ^ 32)) then Ok (mkMd t p c) else Err
      | _, _, _ => Err
      end
  | _ => Err
  end.
