(** * Editing a native_string (libstdc++ 13)

    std::basic_string's functions that change or cut a string by octet positions, as a client applies them to the member
    [native_string] (include/u5e/basic_encodedstring.hpp:89).  [None]: std::out_of_range is thrown.  The branches on capacity and overlap
    in [_M_replace] (bits/basic_string.tcc:512-560) only choose how the same octets are moved; allocation failure is left out. *)
From Verif Require Import Prelude Utf8Model TextModel Utf8Spec NativeModel.

(** _M_limit, bits/basic_string.h:407-411 *)
Definition limit (s : list Z) (pos off : Z) : Z := if off <? zlen s - pos then off else zlen s - pos.
(** replace(pos, n, str), bits/basic_string.h:2155-2156, 2204-2210 *)
Definition string_replace (s : list Z) (pos n : Z) (t : list Z) : option (list Z) :=
  if zlen s <? pos then None
  else Some (firstn (Z.to_nat pos) s ++ t ++ skipn (Z.to_nat (pos + limit s pos n)) s).
(** insert(pos, str), bits/basic_string.h:1894-1896 *)
Definition string_insert (s : list Z) (pos : Z) (t : list Z) : option (list Z) := string_replace s pos 0 t.
(** erase(pos, n), bits/basic_string.h:2069-2077; [n = None] is npos. *)
Definition string_erase (s : list Z) (pos : Z) (n : option Z) : option (list Z) :=
  if zlen s <? pos then None
  else Some (match n with
             | None => firstn (Z.to_nat pos) s
             | Some n => if n =? 0 then s else firstn (Z.to_nat pos) s ++ skipn (Z.to_nat (pos + limit s pos n)) s
             end).
(** substr(pos, n), bits/basic_string.h:3163-3165, 581-589 *)
Definition string_substr (s : list Z) (pos n : Z) : option (list Z) :=
  if zlen s <? pos then None else Some (firstn (Z.to_nat (limit s pos n)) (skipn (Z.to_nat pos) s)).

(** The usual loop of a client:
      while ((p = s.find(t, p)) != npos) { s.replace(p, t.size(), r); p += r.size(); } *)
Fixpoint replace_all (fuel : nat) (s t r : list Z) (p : Z) : res (option (list Z)) :=
  match fuel with
  | O => OutOfFuel
  | S f =>
      let* found := string_find fuel s t p in
      match found with
      | None => Ok (Some s)
      | Some q =>
          match string_replace s q (zlen t) r with
          | None => Ok None
          | Some s => replace_all f s t r (q + zlen r)
          end
      end
  end.

(** The usual loop of a client who splits a string:
      while ((q = s.find(t, p)) != npos) { v.push_back(s.substr(p, q - p)); p = q + t.size(); } v.push_back(s.substr(p)); *)
Fixpoint split (fuel : nat) (s t : list Z) (p : Z) (v : list (list Z)) : res (option (list (list Z))) :=
  match fuel with
  | O => OutOfFuel
  | S f =>
      let* found := string_find (S (S (length s))) s t p in
      match found with
      | None => Ok (match string_substr s p (zlen s) with Some l => Some (v ++ [l]) | None => None end)
      | Some q =>
          match string_substr s p (q - p) with
          | None => Ok None
          | Some l => split f s t (q + zlen t) (v ++ [l])
          end
      end
  end.
