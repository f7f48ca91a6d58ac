(** * Model of the example programs (examples/*.cpp)

    A program's arguments are C strings: each is the memory from argv[i] on, which holds a
    NUL somewhere.  What a program writes to its standard output is a list of octets.
    Simplification: the calls of printf are collected per argument (what was printed before
    undefined behaviour or in an endless loop is not represented). *)
From Verif Require Import Prelude PropsModel Utf8Model TextModel.

(** strlen, called at simple_iteration.cpp:21 and by the constructors of string_view
    (grapheme_iteration.cpp:27) and std::string (normalization_form_c.cpp:21 etc.). *)
Fixpoint strlen (mem : list Z) : res Z :=
  match mem with
  | [] => UB OobRead
  | x :: mem => if x =? 0 then Ok 0 else let* n := strlen mem in Ok (n + 1)
  end.

(** printf("%06llx", (long long unsigned int)v) (simple_iteration.cpp:31,
    grapheme_iteration.cpp:41, normalization_form_c.cpp:31 etc.): the hexadecimal digits of
    [v] modulo 2^64, filled up with zeros to six. *)
Definition hex_digit (d : Z) : Z := if d <? 10 then 48 + d else 87 + d.
Fixpoint hex_digits (n : nat) (v : Z) : list Z :=
  match n with
  | O => []
  | S n => (if v <? 16 then [] else hex_digits n (v / 16)) ++ [hex_digit (v mod 16)]
  end.
Definition printf_06llx (v : Z) : list Z :=
  let digits := hex_digits 16 (v mod 2 ^ 64) in
  repeat 48 (6 - length digits) ++ digits.
(** " U+%06llx" (grapheme_iteration.cpp:41, normalization_form_c.cpp:31) *)
Definition printf_codepoint (v : Z) : list Z := [32; 85; 43] ++ printf_06llx v.

(** for (int i = 1; i < argc; i++) { ...; printf("\n"); } (simple_iteration.cpp:18-36,
    grapheme_iteration.cpp:24-48, normalization_form_c.cpp:18-35 etc.) *)
Fixpoint for_each_argument (body : list Z -> res (list Z)) (argv : list (list Z)) : res (list Z) :=
  match argv with
  | [] => Ok []
  | mem :: argv =>
      let* line := body mem in
      let* rest := for_each_argument body argv in
      Ok (line ++ [10] ++ rest)
  end.

(** simple_iteration.cpp:16-38 *)
Definition simple_iteration (fuel : nat) (argv : list (list Z)) : res (list Z) :=
  for_each_argument (fun mem =>
    let* n := strlen mem in
    let* cs := iterate_codepoints fuel (utf8_ops mem) 0 n in
    Ok (flat_map (fun c => printf_codepoint c ++ [32]) cs)) argv.

(** grapheme_iteration.cpp:21-50 *)
Definition grapheme_iteration (fuel : nat) (argv : list (list Z)) : res (list Z) :=
  for_each_argument (fun mem =>
    let* n := strlen mem in
    let* gs := graphemes fuel (utf8_ops mem) 0 n in
    Ok (flat_map (fun g => [91] ++ flat_map printf_codepoint g ++ [32; 93]) gs)) argv.

(** normalization_form_c.cpp:15-37, normalization_form_d.cpp:15-37,
    normalization_form_kc.cpp:15-37, normalization_form_kd.cpp:15-37; [form] is the
    normalization form named.  The utf8_string constructor copies the argument. *)
Definition normalization_program
  (form : (list Z -> list Z -> res (list Z)) -> nat -> cp_ops -> Z * Z -> list Z -> res (Z * list Z))
  (fuel : nat) (argv : list (list Z)) : res (list Z) :=
  for_each_argument (fun arg =>
    let* n := strlen arg in
    let mem := firstn (Z.to_nat n) arg ++ [0] in
    let* '(_, output) := normalize fuel (utf8_ops mem) (form utf8_append_from_utf32ne fuel (utf8_ops mem)) 0 n [] in
    let* cs := iterate_codepoints_for fuel (utf8_ops (output ++ [0])) 0 (zlen output) in
    Ok (flat_map printf_codepoint cs)) argv.

(** normalization_form_c_utf32.cpp:16-30, normalization_form_d_utf32.cpp:16-30,
    normalization_form_kc_utf32.cpp:16-30, normalization_form_kd_utf32.cpp:16-30, for any
    [input] (there: { 0xC4, 0xFB03, 'n' }). *)
Definition normalization_program_utf32
  (form : (list Z -> list Z -> res (list Z)) -> nat -> cp_ops -> Z * Z -> list Z -> res (Z * list Z))
  (fuel : nat) (input : list Z) : res (list Z) :=
  let mem := input ++ [0] in
  let* '(_, output) := normalize fuel (utf32_ops mem) (form utf32_append_from_utf32ne fuel (utf32_ops mem)) 0 (zlen input) [] in
  let* cs := iterate_codepoints_for fuel (utf32_ops (output ++ [0])) 0 (zlen output) in
  Ok (flat_map printf_codepoint cs).

(** smallest_code.cpp:11-15: the value main returns. *)
Definition smallest_code (mem : list Z) : res Z :=
  let* '(c, _) := it_deref mem 0 in Ok c.

(** truncate_on_codepoint.cpp:19-36 for any string and count (there: "Ola\xCC\x81!", 4). *)
Definition truncate_on_codepoint (str : list Z) (count : Z) : res (list Z) :=
  let* output := utf8_append [] (str ++ [0]) 0 count in
  Ok (output ++ [10]).

(** truncate_on_grapheme.cpp:23-52 for any string and count (there: "Ola\xCC\x81!", 4). *)
Definition truncate_on_grapheme (fuel : nat) (str : list Z) (count : Z) : res (list Z) :=
  let ops := utf8_ops (str ++ [0]) in
  let* gb := gi_make2 fuel ops 0 (zlen str) in
  let* gi := gi_make3 fuel ops 0 (zlen str) count in
  let* output := utf8_append_graphemes fuel [] (str ++ [0]) gb gi in
  Ok (output ++ [10]).
