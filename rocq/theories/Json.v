(** JSON values as nlohmann::json holds them, with the conversions of
    [json::get<T>()] used by /repo/cpp/src/helper/config.cpp. *)
From Coq Require Import List ZArith Bool String Decimal DecimalString DecimalNat.
From Verif Require Import Base Machine.
Import ListNotations.
Local Open Scope Z_scope.

Section Json.
Context {MC : Machine}.

(** Integers are those nlohmann stores as int64_t/uint64_t; anything else numeric
    is a double.  Objects are association lists (nlohmann: std::map, keys unique). *)
Inductive json : Type :=
| JNull
| JBool (b : bool)
| JInt (z : Z)
| JFlt (d : D)
| JStr (s : string)
| JArr (l : list json)
| JObj (l : list (string * json)).

Fixpoint assoc {A} (k : string) (l : list (string * A)) : option A :=
  match l with
  | [] => None
  | (k', v) :: r => if String.eqb k k' then Some v else assoc k r
  end.

(** json::at(key): throws unless an object containing the key. *)
Definition jat (j : json) (k : string) : option json :=
  match j with JObj l => assoc k l | _ => None end.

(** json::contains(key). *)
Definition jcontains (j : json) (k : string) : bool :=
  match jat j k with Some _ => true | None => false end.

(** operator== of nlohmann::json; numbers of different kinds compare by value
    (integers converted to double). *)
Fixpoint jeqb (a b : json) {struct a} : bool :=
  match a, b with
  | JNull, JNull => true
  | JBool x, JBool y => Bool.eqb x y
  | JInt x, JInt y => Z.eqb x y
  | JFlt x, JFlt y => deq x y
  | JInt x, JFlt y => deq (d_of_Z x) y
  | JFlt x, JInt y => deq x (d_of_Z y)
  | JStr x, JStr y => String.eqb x y
  | JArr x, JArr y =>
      (fix go (x y : list json) {struct x} : bool :=
         match x, y with
         | [], [] => true
         | u :: x', v :: y' => jeqb u v && go x' y'
         | _, _ => false
         end) x y
  | JObj x, JObj y =>
      (fix go (x y : list (string * json)) {struct x} : bool :=
         match x, y with
         | [], [] => true
         | (k, u) :: x', (k', v) :: y' => String.eqb k k' && jeqb u v && go x' y'
         | _, _ => false
         end) x y
  | _, _ => false
  end.

(** Insertion / replacement of a key, keeping std::map's key order. *)
Fixpoint jput (l : list (string * json)) (k : string) (v : json) : list (string * json) :=
  match l with
  | [] => [(k, v)]
  | (k', v') :: r =>
      if String.eqb k k' then (k, v) :: r
      else if String.ltb k k' then (k, v) :: l
      else (k', v') :: jput r k v
  end.

(** [j[key] = v]: null becomes an object; any other non-object throws (None). *)
Definition jset (j : json) (k : string) (v : json) : option json :=
  match j with
  | JObj l => Some (JObj (jput l k v))
  | JNull => Some (JObj [(k, v)])
  | _ => None
  end.

(** json::items(): arrays yield decimal indices as keys, primitives one item with
    an empty key, null nothing. *)
Definition jitems (j : json) : list (string * json) :=
  match j with
  | JObj l => l
  | JArr l => combine (map (fun i => NilZero.string_of_uint (Nat.to_uint i)) (seq 0 (List.length l))) l
  | JNull => []
  | v => [(""%string, v)]
  end.

(** Result of [get<T>()]: a value, a type error (C++ exception), or undefined
    behaviour of the static_cast from double. *)
Inductive conv (A : Type) : Type := CVal (a : A) | CErr | CUB.
Arguments CVal {A} _.
Arguments CErr {A}.
Arguments CUB {A}.

(** get<uint32_t>(): modular for integers, truncation for doubles, 0/1 for booleans. *)
Definition as_u32 (j : json) : conv Z :=
  match j with
  | JInt z => CVal (u32 z)
  | JFlt d => match d_trunc d with
              | Some z => if (0 <=? z) && (z <? 2 ^ 32) then CVal z else CUB
              | None => CUB
              end
  | JBool b => CVal (if b then 1 else 0)
  | _ => CErr
  end.

(** get<int32_t>() / get<int>(). *)
Definition as_i32 (j : json) : conv Z :=
  match j with
  | JInt z => CVal (wrap32 z)
  | JFlt d => match d_trunc d with
              | Some z => if in32 z then CVal z else CUB
              | None => CUB
              end
  | JBool b => CVal (if b then 1 else 0)
  | _ => CErr
  end.

(** get<float>(). *)
Definition as_float (j : json) : conv F :=
  match j with
  | JInt z => CVal (f_of_Z z)
  | JFlt d => CVal (f_of_d d)
  | JBool b => CVal (f_of_Z (if b then 1 else 0))
  | _ => CErr
  end.

Definition as_bool (j : json) : conv bool :=
  match j with JBool b => CVal b | _ => CErr end.

Definition as_string (j : json) : conv string :=
  match j with JStr s => CVal s | _ => CErr end.

Fixpoint convs {A B} (f : A -> conv B) (l : list A) : conv (list B) :=
  match l with
  | [] => CVal []
  | x :: r =>
      match f x with
      | CVal y => match convs f r with CVal ys => CVal (y :: ys) | CErr => CErr | CUB => CUB end
      | CErr => CErr
      | CUB => CUB
      end
  end.

(** get<std::vector<uint32_t>>(). *)
Definition as_u32s (j : json) : conv (list Z) :=
  match j with JArr l => convs as_u32 l | _ => CErr end.

(** get<std::pair<float, float>>(): elements 0 and 1 of an array. *)
Definition as_pair (j : json) : conv (F * F) :=
  match j with
  | JArr (a :: b :: _) =>
      match as_float a with
      | CVal x => match as_float b with CVal y => CVal (x, y) | CErr => CErr | CUB => CUB end
      | CErr => CErr
      | CUB => CUB
      end
  | _ => CErr
  end.

(** get<std::map<std::string, std::pair<float, float>>>(). *)
Definition as_dict (j : json) : conv (list (string * (F * F))) :=
  match j with
  | JObj l => convs (fun kv => match as_pair (snd kv) with
                               | CVal p => CVal (fst kv, p)
                               | CErr => CErr
                               | CUB => CUB
                               end) l
  | _ => CErr
  end.

(** getConfigValue without default, config.cpp:27-41: absence or a type error
    terminates the process. *)
Definition need {A} (cv : json -> conv A) (j : json) (k : string) : out A :=
  match jat j k with
  | None => Died
  | Some v => match cv v with CVal a => Ok a | CErr => Died | CUB => UB FloatToInt end
  end.

(** getConfigValue with default: absence or a type error gives the default. *)
Definition opt {A} (cv : json -> conv A) (j : json) (k : string) (d : A) : out A :=
  match jat j k with
  | None => Ok d
  | Some v => match cv v with CVal a => Ok a | CErr => Ok d | CUB => UB FloatToInt end
  end.
End Json.
Arguments CVal {A} _.
Arguments CErr {A}.
Arguments CUB {A}.
