(** * std::string's comparison of a part (libstdc++ 13), and how a client asks for prefixes and suffixes *)
From Verif Require Import Prelude Utf8Model TextModel Utf8Spec NativeModel EditModel.

(** compare(pos, n, str), bits/basic_string.h:3280-3290; [None]: std::out_of_range is thrown. *)
Definition string_compare_part (s : list Z) (pos n : Z) (t : list Z) : res (option Z) :=
  if zlen s <? pos then Ok None
  else
    let n := limit s pos n in
    let osize := zlen t in
    let len := Z.min n osize in
    let* r := traits_compare (string_buffer s) pos (string_buffer t) 0 len in
    Ok (Some (if r =? 0 then s_compare n osize else r)).
(** [s.compare(0, t.size(), t) == 0] *)
Definition string_starts_with (s t : list Z) : res (option bool) :=
  let* r := string_compare_part s 0 (zlen t) t in Ok (option_map (fun r => r =? 0) r).
(** [s.size() >= t.size() && s.compare(s.size() - t.size(), t.size(), t) == 0] *)
Definition string_ends_with (s t : list Z) : res (option bool) :=
  if zlen t <=? zlen s then let* r := string_compare_part s (zlen s - zlen t) (zlen t) t in Ok (option_map (fun r => r =? 0) r) else Ok (Some false).
