(** * The unit tests of the repository, run on the model

    Not proofs of properties, but evidence that the model behaves as the code does: every
    assertion of t/*.t.cpp about behaviour that is modelled, evaluated in the model.  Left out:
    t/001 (version constants) and the sizeof assertions of t/003 (traits). *)
From Coq Require Import Ascii String.
From Verif Require Import Prelude DataTables PropsModel Utf8Model TextModel StdSortModel Properties_Sort.
Open Scope Z_scope.

(** A C string or std::string literal with its terminating NUL. *)
Definition A (s : string) : list Z := map (fun c => Z.of_nat (nat_of_ascii c)) (list_ascii_of_string s).
Definition c_str (l : list Z) : list Z := l ++ [0].
Definition Ol := c_str (A "Ol" ++ [0xC3; 0x81] ++ A "!").       (* "Ol\xC3\x81!" *)
Definition Ola := c_str (A "Ola" ++ [0xCC; 0x81] ++ A "!").     (* "Ola\xCC\x81!" *)
Definition O_ := 79. Definition l_ := 108. Definition a_ := 97. Definition excl := 33.

(** Visit with ++ from [it] [n] times: the values *it before each and after the last ++ the iterator. *)
Fixpoint walk (ops : cp_ops) (n : nat) (it : Z) : res (list Z * Z) :=
  match n with
  | O => Ok ([], it)
  | S n => let* '(c, it) := op_deref ops it in
           let* it := op_step ops it in
           let* '(cs, it) := walk ops n it in Ok (c :: cs, it)
  end.

(** ** t/002 iteratora, iteratorb: "Hello" *)
Example t002_iterator :
  let hello := [72; 101; 108; 108; 111] in
  (let* '(cs, it) := walk (utf32_ops hello) 5 0 in
   let* e := op_eq (utf32_ops hello) it 5 in Ok (cs, e)) = Ok (hello, true).
Proof. reflexivity. Qed.

(** ** t/003 iteratora, iteratorb *)
Example t003_iteratora :
  (let* '(cs, it) := walk (utf8_ops Ol) 4 0 in
   let* e := op_eq (utf8_ops Ol) it 5 in Ok (cs, e)) = Ok ([O_; l_; 0xC1; excl], true).
Proof. vm_compute. reflexivity. Qed.
(** t/003 iteratorc, assertion by assertion *)
Example t003_iteratorc :
  (let* '(v1, it) := it_deref Ol 0 in
   let* it := it_preinc Ol it in let copy := it in
   let* e1 := it_eq Ol copy it in
   let* '(v2, it) := it_deref Ol it in
   let* '(copy, it) := it_postinc Ol it in
   let* e2 := it_neq Ol copy it in
   let* '(v3, it) := it_deref Ol it in
   let* '(_, it) := it_postinc Ol it in
   let* '(v4, it) := it_deref Ol it in
   let* '(_, it) := it_postinc Ol it in
   let* e3 := it_eq Ol it 5 in
   let* it := it_predec Ol it in let copy := it in
   let* e4 := it_eq Ol copy it in
   let* '(v5, it) := it_deref Ol it in
   let* '(copy, it) := it_postdec Ol it in
   let* e5 := it_neq Ol copy it in
   let* '(v6, it) := it_deref Ol it in
   let* '(_, it) := it_postdec Ol it in
   let* '(v7, it) := it_deref Ol it in
   let* '(_, it) := it_postdec Ol it in
   let* '(v8, it) := it_deref Ol it in
   let* e6 := it_eq Ol it 0 in
   Ok ([v1; v2; v3; v4; v5; v6; v7; v8], [e1; e2; e3; e4; e5; e6]))
  = Ok ([O_; l_; 0xC1; excl; excl; 0xC1; l_; O_], [true; true; true; true; true; true]).
Proof. vm_compute. reflexivity. Qed.
(** t/003 iteratord: writing *)
Example t003_iteratord :
  (let foo := c_str (A "Olaa!") in
   let it := 0 in
   let* v1 := proxy_read foo it in
   let* '(_, it) := it_postinc foo it in
   let* v2 := proxy_read foo it in
   let* '(_, it) := it_postinc foo it in
   let* '(foo, it) := it_assign foo it 0xC1 in
   let* v3 := proxy_read foo it in
   let* '(_, it) := it_postinc foo it in
   let* v4 := rd foo 3 in
   let* '(foo, it) := it_assign foo it excl in
   let* '(_, it) := it_postinc foo it in
   Ok ([v1; v2; v3; v4], foo)) = Ok ([O_; l_; 0xC1; 0x81], Ol).
Proof. vm_compute. reflexivity. Qed.
(** t/003 decode: buffers without anything behind the codepoint *)
Example t003_decode :
  it_deref [208; 160] 0 = Ok (1056, 0) /\ it_deref [232; 160; 160] 0 = Ok (34848, 0) /\
  it_deref [244; 160; 160; 160] 0 = Ok (1181728, 0).
Proof. vm_compute. auto. Qed.
(** t/003 output_iterator: std::copy *)
Example t003_output_iterator :
  (let* cps := iterate_codepoints_for 9 (utf8_ops Ol) 0 5 in
   write_codepoints (c_str (A "     ")) 0 cps) = Ok (Ol, 5).
Proof. vm_compute. reflexivity. Qed.

(** ** t/005 constructor_1, constructor_2 *)
Example t005_constructor :
  let ops := utf8_ops Ola in
  (let* '(_, i) := walk ops 2 0 in let g_start := i in
   let* '(_, i) := walk ops 2 i in let g_end := i in
   let gi := g_start in
   let* e1 := op_eq ops gi g_start in
   let* '(c1, gi) := op_deref ops gi in
   let* gi := op_step ops gi in
   let* '(c2, gi) := op_deref ops gi in
   let* gi := op_step ops gi in
   let* e2 := op_eq ops gi g_end in
   Ok ([c1; c2], [e1; e2])) = Ok ([a_; 769], [true; true]).
Proof. vm_compute. reflexivity. Qed.

(** ** t/006 utf8, utf32ne: the graphemes one by one, then == codepoint_cend() *)
Fixpoint grapheme_walk (ops : cp_ops) (n : nat) (g : gi) : res (list (list Z) * gi) :=
  match n with
  | O => Ok ([], g)
  | S n => let '(b, e) := gi_deref g in
           let* cps := iterate_codepoints_for 9 ops b e in
           let* g := gi_step 9 ops g in
           let* '(gs, g) := grapheme_walk ops n g in Ok (cps :: gs, g)
  end.
Example t006_utf8 :
  let ops := utf8_ops Ola in
  (let* g := grapheme_begin 9 ops 0 6 in
   let* '(gs, g) := grapheme_walk ops 4 g in
   let* e := gi_eq_cp 9 ops g 6 in Ok (gs, e)) = Ok ([[O_]; [l_]; [a_; 769]; [excl]], true).
Proof. vm_compute. reflexivity. Qed.
Example t006_utf32ne :
  let ops := utf32_ops [O_; l_; a_; 769; excl; 0] in
  (let* g := grapheme_begin 9 ops 0 5 in
   let* '(gs, g) := grapheme_walk ops 4 g in
   let* e := gi_eq_cp 9 ops g 5 in Ok (gs, e)) = Ok ([[O_]; [l_]; [a_; 769]; [excl]], true).
Proof. vm_compute. reflexivity. Qed.

(** ** t/007 *)
Definition check_of (l : list Z) : res bool := bounds_check (c_str l) 0 (zlen l).
Definition enforce_of (l : list Z) : res (list Z * bool) := bounds_enforce (c_str l) 0 (zlen l).
Definition OLA := A "Ol" ++ [0xC3; 0x81] ++ A "!".
Example t007_check :
  check_of OLA = Ok true /\ check_of ([0x81] ++ OLA) = Ok false /\
  check_of (OLA ++ [0xC3]) = Ok false /\ check_of ([0x81; 0x81] ++ OLA ++ [0xC3]) = Ok false.
Proof. vm_compute. auto. Qed.
Example t007_enforce :
  enforce_of OLA = Ok (c_str OLA, true) /\
  enforce_of ([0x81; 0x81] ++ OLA) = Ok (c_str (A "??" ++ OLA), false) /\
  enforce_of (OLA ++ [0xC3]) = Ok (c_str (OLA ++ A "?"), false) /\
  enforce_of ([0x81; 0x81] ++ OLA ++ [0xC3]) = Ok (c_str (A "??" ++ OLA ++ A "?"), false).
Proof. vm_compute. auto. Qed.

(** ** t/008: a filter keeping the first codepoint of each grapheme *)
Definition first_codepoint_in_grapheme (mem : list Z) (g : Z * Z) (output : list Z) : res (Z * list Z) :=
  let b := fst g in
  let* e := op_step (utf8_ops mem) b in
  let* output := utf8_append output mem b e in Ok (1, output).
Example t008_filter :
  normalize 9 (utf8_ops Ola) (first_codepoint_in_grapheme Ola) 0 6 [] = Ok (4, A "Ola!").
Proof. vm_compute. reflexivity. Qed.

(** ** t/009, t/017 *)
Example t009 :
  canonical_decomposition_mapping_resolve 191 = Ok None /\
  (exists t, canonical_decomposition_mapping_resolve 192 = Ok (Some (65 :: 768 :: 0 :: t))) /\
  (exists t, canonical_decomposition_mapping_resolve 195101 = Ok (Some (173568 :: 0 :: t))).
Proof. split; [|split; eexists]; vm_compute; reflexivity. Qed.
Example t017 :
  compatibility_and_canonical_decomposition_mapping_resolve 191 = Ok None /\
  (exists t, compatibility_and_canonical_decomposition_mapping_resolve 192 = Ok (Some (65 :: 768 :: 0 :: t))) /\
  (exists t, compatibility_and_canonical_decomposition_mapping_resolve 195101 = Ok (Some (173568 :: 0 :: t))).
Proof. split; [|split; eexists]; vm_compute; reflexivity. Qed.
(** ** t/010: a view of an array of one int, nothing behind it *)
Example t010 :
  filter_codepoints 9 (utf32_ops [0xC0]) canonical_decomposition 0 1 [] = Ok (2, [0x41; 0x300]).
Proof. vm_compute. reflexivity. Qed.
(** ** t/011 *)
Example t011 :
  map canonical_combining_class_resolve [191; 770; 1479; 119145; 119149; 119150]
  = [Ok 0; Ok 230; Ok 18; Ok 1; Ok 226; Ok 216].
Proof. vm_compute. reflexivity. Qed.
(** ** t/014 *)
Example t014 :
  canonical_composition_mapping_resolve 63 123 = Ok None /\
  canonical_composition_mapping_resolve 65 123 = Ok None /\
  canonical_composition_mapping_resolve 65 770 = Ok (Some 194).
Proof. vm_compute. auto. Qed.

(** ** t/012, t/013, t/015, t/016, t/018, t/019: the forms, with the sort of libstdc++ *)
Definition forms_utf32 form (l : list Z) : res (Z * list Z) :=
  let ops := utf32_ops (l ++ [0]) in
  normalize 9 ops (form gnu_sort utf32_append_from_utf32ne 9%nat ops) 0 (zlen l) [].
Definition forms_utf8 form (l : list Z) : res (Z * list Z) :=
  let ops := utf8_ops (c_str l) in
  normalize 9 ops (form gnu_sort utf8_append_from_utf32ne 9%nat ops) 0 (zlen l) [].
Example t012 : forms_utf32 normalization_form_d [0xC4; 0xFB03; 110] = Ok (4, [65; 0x308; 0xFB03; 110]).
Proof. vm_compute. reflexivity. Qed.
Example t013 : forms_utf8 normalization_form_d [0xC3; 0x84; excl] = Ok (3, [65; 0xCC; 0x88; excl]).
Proof. vm_compute. reflexivity. Qed.
Example t015 : forms_utf8 normalization_form_c [65; 0xCC; 0x88; excl] = Ok (2, [0xC3; 0x84; excl]).
Proof. vm_compute. reflexivity. Qed.
Example t016 : forms_utf32 normalization_form_c [65; 0x308; 0xFB03; 110] = Ok (3, [0xC4; 0xFB03; 110]).
Proof. vm_compute. reflexivity. Qed.
Example t018 : forms_utf32 normalization_form_kd [0xFB01] = Ok (2, [102; 105]) /\
  forms_utf32 normalization_form_kd [0x1E9B; 0x323] = Ok (3, [115; 0x323; 0x307]).
Proof. vm_compute. auto. Qed.
Example t019 : forms_utf32 normalization_form_kc [0x1E9B; 0x323] = Ok (1, [0x1E69]).
Proof. vm_compute. reflexivity. Qed.
