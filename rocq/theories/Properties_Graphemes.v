(** * Properties C26, C27, C37-C43: grapheme iteration

    Reading guide.  [string_in_memory ops b e cs pos] (TextSpec.v): a utf8_string or
    utf32ne_string whose text is [cs]; [ops] are its codepoint iterator operations, [b]
    and [e] its begin and end, [pos i] the start of codepoint number [i].
    [view_in_memory ops b e cs c pos]: the same for a view followed in memory by the
    codepoint [c].  [segments pairwise_boundary cs gs] (GraphemeSpec.v): [gs] is the
    text [cs] cut exactly at the positions where the pairwise rules put a boundary;
    [segments uax29_boundary cs gs] the same for the rules of UAX #29 proper.
    [nth_grapheme fuel ops b e k]: the iterator grapheme_begin() incremented [k] times. *)
From Verif Require Import Prelude DataTables PropsModel Utf8Model TextModel Utf8Spec UnicodeSpec GraphemeSpec TextSpec
  PropsProofs Utf8Proofs LawfulProofs IterProofs GraphemeProofs Uax29Proofs GraphemeText.
Require Import ZifyBool ZifyNat.

(** ** C37.  For every two values the answer is defined and is the one given by the
    first applicable rule. *)
Theorem C37_boundary_rule : forall a b v,
  is_grapheme_boundary a b = Ok v <->
  exists va vb, has_gcb a va /\ has_gcb b vb /\ first_match (pairwise_rules va vb) v.
Proof.
  intros a b v. rewrite is_grapheme_boundary_eq. unfold brk. split.
  - intros E. injection E as E. exists (gcb_of a), (gcb_of b).
    split; [apply gcb_spec; reflexivity|]. split; [apply gcb_spec; reflexivity|]. apply pairwise_spec. assumption.
  - intros (va & vb & Ha & Hb & F). apply gcb_spec in Ha, Hb. subst. apply pairwise_spec in F. congruence.
Qed.
Print Assumptions C37_boundary_rule.
Theorem C37_boundary_rule_defined : forall a b, exists v, is_grapheme_boundary a b = Ok v.
Proof. intros a b. rewrite is_grapheme_boundary_eq. eauto. Qed.
Print Assumptions C37_boundary_rule_defined.
Example C37_example : (* a + combining acute: no boundary; CR LF: none; LF CR: boundary *)
  is_grapheme_boundary 0x61 0x301 = Ok false /\ is_grapheme_boundary 13 10 = Ok false /\
  is_grapheme_boundary 10 13 = Ok true.
Proof. vm_compute. auto. Qed.

(** ** C39 *)
Theorem C39_graphemes_partition_the_text : forall ops b e cs pos fuel,
  string_in_memory ops b e cs pos -> (length cs < fuel)%nat ->
  exists gs, graphemes fuel ops b e = Ok gs /\ segments pairwise_boundary cs gs.
Proof.
  intros ops b e cs pos fuel M Hf. destruct (string_text _ _ _ _ _ M) as (pos' & inside & T & P).
  exists (seg cs). split; [|apply seg_segments].
  apply (text_graphemes ops b e cs 0 pos' inside T); [apply boundary_after_or, boundary_nul|assumption].
Qed.
Print Assumptions C39_graphemes_partition_the_text.
(** There is only one such partition. *)
Theorem C39_partition_is_unique : forall cs gs gs',
  segments pairwise_boundary cs gs -> segments pairwise_boundary cs gs' -> gs = gs'.
Proof. intros cs gs gs'. apply segments_unique. Qed.
Print Assumptions C39_partition_is_unique.
Example C39_example : (* "e" acute, CR LF, a Hangul syllable, a flag *)
  let cs := [0x65; 0x301; 13; 10; 0x1100; 0x1161; 0x11A8; 0x1F1E7; 0x1F1F7] in
  Forall codepoint31 cs /\
  graphemes 10 (utf8_ops (string_buffer (utf8_text cs))) 0 (zlen (utf8_text cs))
  = Ok [[0x65; 0x301]; [13; 10]; [0x1100; 0x1161; 0x11A8]; [0x1F1E7; 0x1F1F7]].
Proof. split; [repeat constructor; unfold codepoint31; lia|vm_compute; reflexivity]. Qed.

(** ** C40 *)
Theorem C40_same_graphemes_in_both_encodings : forall cs fuel,
  Forall codepoint31 cs -> (length cs < fuel)%nat ->
  exists gs,
    graphemes fuel (utf8_ops (string_buffer (utf8_text cs))) 0 (zlen (utf8_text cs)) = Ok gs /\
    graphemes fuel (utf32_ops (string_buffer cs)) 0 (zlen cs) = Ok gs.
Proof.
  intros cs fuel F Hf.
  destruct (C39_graphemes_partition_the_text _ _ _ _ _ fuel (utf8_string cs F) Hf) as (gs & E & S).
  destruct (C39_graphemes_partition_the_text _ _ _ _ _ fuel (utf32_string cs) Hf) as (gs' & E' & S').
  rewrite (C39_partition_is_unique _ _ _ S' S) in E'. eauto.
Qed.
Print Assumptions C40_same_graphemes_in_both_encodings.
Example C40_example : (* e and acute, a Hangul syllable in three parts *)
  let cs := [0x65; 0x301; 0x1100; 0x1161; 0x11A8] in
  graphemes 6 (utf8_ops (string_buffer (utf8_text cs))) 0 (zlen (utf8_text cs)) = Ok [[0x65; 0x301]; [0x1100; 0x1161; 0x11A8]] /\
  graphemes 6 (utf32_ops (string_buffer cs)) 0 5 = Ok [[0x65; 0x301]; [0x1100; 0x1161; 0x11A8]].
Proof. split; vm_compute; reflexivity. Qed.

(** ** C38.  False: three regional indicators are one grapheme instead of two, and a
    modifier after a plain letter with a combining mark does not start a grapheme. *)
Theorem C38_follows_uax29_refuted : exists cs gs,
  Forall codepoint31 cs /\
  graphemes 4 (utf8_ops (string_buffer (utf8_text cs))) 0 (zlen (utf8_text cs)) = Ok gs /\
  ~ segments uax29_boundary cs gs.
Proof.
  exists [0x1F1E7; 0x1F1F7; 0x1F1E7]. eexists. split; [repeat constructor; unfold codepoint31; lia|].
  split; [vm_compute; reflexivity|]. intros S.
  replace [[127463; 127479; 127463]] with (seg [0x1F1E7; 0x1F1F7; 0x1F1E7]) in S by (vm_compute; reflexivity).
  apply uax29_iff in S. destruct S as [N _]. apply (N [] 0x1F1E7 0x1F1F7 0x1F1E7 [] eq_refl).
  repeat split; apply gcb_spec; vm_compute; reflexivity.
Qed.
Print Assumptions C38_follows_uax29_refuted.
Theorem C38_follows_uax29_modifier_refuted : exists cs gs,
  Forall codepoint31 cs /\
  graphemes 4 (utf8_ops (string_buffer (utf8_text cs))) 0 (zlen (utf8_text cs)) = Ok gs /\
  ~ segments uax29_boundary cs gs.
Proof.
  exists [0x61; 0x301; 0x1F3FB]. eexists. split; [repeat constructor; unfold codepoint31; lia|].
  split; [vm_compute; reflexivity|]. intros S.
  replace [[97; 769; 127995]] with (seg [0x61; 0x301; 0x1F3FB]) in S by (vm_compute; reflexivity).
  apply uax29_iff in S. destruct S as [_ N].
  destruct (N [0x61] 0x301 0x1F3FB [] eq_refl) as (l & base & ext & E & B & X);
    [apply gcb_spec; vm_compute; reflexivity|apply gcb_spec; vm_compute; reflexivity|].
  destruct l as [|y [|]]; [|discriminate|discriminate].
  - injection E as <- _. destruct B as [B|B]; apply gcb_spec in B; vm_compute in B; discriminate.
Qed.
Print Assumptions C38_follows_uax29_modifier_refuted.
(** Exactly the texts on which grapheme iteration follows UAX #29. *)
Theorem C38_follows_uax29_partial : forall ops b e cs pos fuel,
  string_in_memory ops b e cs pos -> (length cs < fuel)%nat ->
  exists gs, graphemes fuel ops b e = Ok gs /\
    (segments uax29_boundary cs gs <-> no_ri_triple cs /\ modifiers_based cs).
Proof.
  intros ops b e cs pos fuel M Hf. destruct (C39_graphemes_partition_the_text _ _ _ _ _ fuel M Hf) as (gs & E & S).
  exists gs. split; [assumption|]. rewrite (seg_eq _ _ S). apply uax29_iff.
Qed.
Print Assumptions C38_follows_uax29_partial.
Example C38_example : (* two flags separated by a space, and an emoji with a skin tone *)
  let cs := [0x1F1E7; 0x1F1F7; 0x20; 0x1F1E7; 0x1F1F7; 0x1F466; 0x1F3FB] in
  no_ri_triple cs /\ modifiers_based cs.
Proof.
  apply uax29_iff. apply (segments_agree pairwise_boundary uax29_boundary _ _ (seg_segments _)).
  - intros before b. destruct before as [|x before].
    + right. intros (l & a & _ & _ & E & _). destruct l; discriminate.
    + destruct (snoc_cases (x :: before) ltac:(discriminate)) as (l & a & ->). rewrite pairwise_boundary_snoc.
      destruct (brk a b); [left; reflexivity|right; discriminate].
  - intros l b r E NE. destruct (snoc_cases l NE) as (l' & a & ->). rewrite pairwise_boundary_snoc, uax29_boundary_snoc.
    do 7 (destruct l' as [|x l'];
      [cbn in E; try discriminate E; injection E as <- <- _; vm_compute; tauto|cbn [app] in E; injection E as <- E]).
    destruct l'; discriminate.
Qed.

(** ** C41.  False: in a Hangul syllable written L V T, the iterator constructed at T
    starts at V. *)
Theorem C41_iterator_at_a_position_refuted : exists cs it,
  let ops := utf32_ops (string_buffer cs) in
  graphemes 4 ops 0 3 = Ok [cs] /\ gi_make3 4 ops 0 3 2 = Ok it /\ fst (gi_deref it) = 1.
Proof. exists [0x1100; 0x1161; 0x11A8]. eexists. split; [|split]; vm_compute; reflexivity. Qed.
Print Assumptions C41_iterator_at_a_position_refuted.
(** The end is always right.  The start is right exactly if the position is the start
    of the grapheme, or the rules read backwards put a boundary at the start of the
    grapheme and nowhere between there and the position. *)
Theorem C41_iterator_at_a_position_partial : forall ops b e cs pos before g after i fuel,
  string_in_memory ops b e cs pos ->
  segments pairwise_boundary cs (before ++ g :: after) ->
  let s := length (concat before) in
  (s <= i < s + length g)%nat -> (length cs < fuel)%nat ->
  exists it, gi_make3 fuel ops b e (pos i) = Ok it /\
    snd (gi_deref it) = pos (s + length g)%nat /\
    (fst (gi_deref it) = pos s <->
     i = s \/
     ((s = 0%nat \/ pairwise_boundary [nth (S s) cs 0] (nth s cs 0)) /\
      forall k, (s < k < i)%nat -> ~ pairwise_boundary [nth (S k) cs 0] (nth k cs 0))).
Proof.
  intros ops b e cs pos before g after i fuel M S s Hi Hf. destruct (string_text _ _ _ _ _ M) as (pos' & inside & T & P).
  exact (final_at_position ops b e cs 0 pos pos' inside T P before g after i fuel S Hi Hf).
Qed.
Print Assumptions C41_iterator_at_a_position_partial.
(** In particular it is right at every grapheme boundary. *)
Theorem C41_iterator_at_a_boundary : forall ops b e cs pos before g after fuel,
  string_in_memory ops b e cs pos ->
  segments pairwise_boundary cs (before ++ g :: after) -> (length cs < fuel)%nat ->
  exists it, gi_make3 fuel ops b e (pos (length (concat before))) = Ok it /\
    gi_deref it = (pos (length (concat before)), pos (length (concat before) + length g)%nat).
Proof.
  intros ops b e cs pos before g after fuel M S Hf.
  assert (NG : (0 < length g)%nat).
  { destruct S as (_ & N & _). destruct g; [|cbn; lia]. exfalso. apply N. apply in_or_app. right. left. reflexivity. }
  destruct (C41_iterator_at_a_position_partial ops b e cs pos before g after (length (concat before)) fuel M S
    ltac:(lia) Hf) as (it & E & Q & W).
  exists it. split; [assumption|]. unfold gi_deref in *. cbn [fst snd] in *. rewrite Q. f_equal. apply W. left. reflexivity.
Qed.
Print Assumptions C41_iterator_at_a_boundary.
Example C41_example : (* "abe\u0301": at the accent, the iterator covers e and the accent *)
  let cs := [0x61; 0x62; 0x65; 0x301] in
  exists it, gi_make3 5 (utf8_ops (string_buffer (utf8_text cs))) 0 5 3 = Ok it /\ gi_deref it = (2, 5).
Proof. eexists. split; vm_compute; reflexivity. Qed.

(** ** C42.  False: in the memory "ab" U+0301, the view "ab" ends at its last letter. *)
Theorem C42_end_of_a_view_refuted :
  let ops := utf32_ops [0x61; 0x62; 0x301] in
  graphemes 5 ops 0 2 = Ok [[0x61]].
Proof. vm_compute. reflexivity. Qed.
Print Assumptions C42_end_of_a_view_refuted.
(** grapheme_end() stands at the end of the view exactly if there is a boundary between
    the view and what follows it. *)
Theorem C42_end_of_a_view_partial : forall ops b e cs c pos fuel,
  view_in_memory ops b e cs c pos -> (length cs < fuel)%nat ->
  exists it, grapheme_end fuel ops b e = Ok it /\ snd (gi_deref it) = e /\
    (fst (gi_deref it) = e <-> cs = [] \/ pairwise_boundary cs c).
Proof.
  intros ops b e cs c pos fuel M Hf. destruct (view_text _ _ _ _ _ _ M) as (pos' & inside & T & P).
  exact (final_view_end ops b e cs c pos pos' inside T P fuel Hf).
Qed.
Print Assumptions C42_end_of_a_view_partial.
(** The loop yields the first graphemes, and all of them exactly in that case. *)
Theorem C42_loop_over_a_view_partial : forall ops b e cs c pos gs fuel,
  view_in_memory ops b e cs c pos -> (2 * length cs < fuel)%nat -> segments pairwise_boundary cs gs ->
  exists gs' rest, graphemes fuel ops b e = Ok gs' /\ gs = gs' ++ rest /\
    (rest = [] <-> cs = [] \/ pairwise_boundary cs c).
Proof.
  intros ops b e cs c pos gs fuel M Hf S. destruct (view_text _ _ _ _ _ _ M) as (pos' & inside & T & P).
  exact (final_view_loop ops b e cs c pos pos' inside T P fuel gs Hf S).
Qed.
Print Assumptions C42_loop_over_a_view_partial.
(** If nothing follows the view in memory, grapheme_end() reads past the memory. *)
Theorem C42_exact_size_view_refuted : forall before cs fuel, cs <> [] -> (0 < fuel)%nat ->
  grapheme_end fuel (utf32_ops (before ++ cs)) (zlen before) (zlen before + zlen cs) = UB OobRead.
Proof. exact exact_size_end. Qed.
Print Assumptions C42_exact_size_view_refuted.
(** For a string the end is the end. *)
Theorem C42_end_of_a_string : forall ops b e cs pos fuel,
  string_in_memory ops b e cs pos -> (length cs < fuel)%nat ->
  exists it, grapheme_end fuel ops b e = Ok it /\ gi_deref it = (e, e).
Proof.
  intros ops b e cs pos fuel M Hf. destruct (string_text _ _ _ _ _ M) as (pos' & inside & T & P).
  destruct (final_view_end ops b e cs 0 pos pos' inside T P fuel Hf) as (it & E & Q & W).
  exists it. split; [assumption|]. unfold gi_deref in *. cbn [fst snd] in *. rewrite Q. f_equal.
  apply W. apply boundary_nul.
Qed.
Print Assumptions C42_end_of_a_string.
Example C42_example : (* the view "ab" of "abc" *)
  view_in_memory (utf32_ops ([] ++ [0x61; 0x62] ++ 0x63 :: [])) (zlen (@nil Z)) (zlen (@nil Z) + 2) [0x61; 0x62] 0x63
    (fun i => zlen (@nil Z) + Z.of_nat i) /\
  pairwise_boundary [0x61; 0x62] 0x63 /\
  graphemes 5 (utf32_ops [0x61; 0x62; 0x63]) 0 2 = Ok [[0x61]; [0x62]].
Proof.
  split; [apply utf32_view|]. split; [|vm_compute; reflexivity].
  apply boundary_after; [discriminate|]. vm_compute. reflexivity.
Qed.

(** ** C43.  Iterators number [a] and [k] are equal exactly if [a = k] (number
    [length gs] is the end); ... *)
Theorem C43_iterator_equality : forall ops b e cs pos gs a k fuel,
  string_in_memory ops b e cs pos -> segments pairwise_boundary cs gs ->
  (a <= length gs)%nat -> (k <= length gs)%nat -> (2 * length cs < fuel)%nat ->
  exists ga gk, nth_grapheme fuel ops b e a = Ok ga /\ nth_grapheme fuel ops b e k = Ok gk /\
    gi_eq fuel ops ga gk = Ok (a =? k)%nat /\ gi_neq fuel ops ga gk = Ok (negb (a =? k)%nat).
Proof.
  intros ops b e cs pos gs a k fuel M S Ha Hk Hf. rewrite (seg_eq _ _ S) in *.
  destruct (string_text _ _ _ _ _ M) as (pos' & inside & T & P).
  destruct (final_nth ops b e cs 0 pos' inside T fuel a ltac:(lia) Ha) as (ga & Ea & Ga).
  destruct (final_nth ops b e cs 0 pos' inside T fuel k ltac:(lia) Hk) as (gk & Ek & Gk).
  exists ga, gk. split; [assumption|]. split; [assumption|].
  unfold gi_neq. rewrite (text_eq ops b e cs 0 pos' inside T fuel a k ga gk Hf Ha Hk Ga Gk). split; reflexivity.
Qed.
Print Assumptions C43_iterator_equality.
(** ... iterator number [a] is equal to grapheme_end(), on either side, exactly if it
    is past the last grapheme; ... *)
Theorem C43_equality_with_the_end : forall ops b e cs pos gs a fuel,
  string_in_memory ops b e cs pos -> segments pairwise_boundary cs gs ->
  (a <= length gs)%nat -> (2 * length cs < fuel)%nat ->
  exists ga ge, nth_grapheme fuel ops b e a = Ok ga /\ grapheme_end fuel ops b e = Ok ge /\
    gi_eq fuel ops ga ge = Ok (a =? length gs)%nat /\ gi_eq fuel ops ge ga = Ok (length gs =? a)%nat.
Proof.
  intros ops b e cs pos gs a fuel M S Ha Hf. rewrite (seg_eq _ _ S) in *.
  destruct (string_text _ _ _ _ _ M) as (pos' & inside & T & P).
  destruct (final_nth ops b e cs 0 pos' inside T fuel a ltac:(lia) Ha) as (ga & Ea & Ga).
  destruct (final_end_on ops b e cs 0 pos pos' inside T P fuel (boundary_nul cs) ltac:(lia)) as (ge & Ee & Ge).
  exists ga, ge. split; [assumption|]. split; [assumption|].
  rewrite (text_eq ops b e cs 0 pos' inside T fuel a (length (seg cs)) ga ge Hf Ha (le_n _) Ga Ge).
  rewrite (text_eq ops b e cs 0 pos' inside T fuel (length (seg cs)) a ge ga Hf (le_n _) Ha Ge Ga).
  split; reflexivity.
Qed.
Print Assumptions C43_equality_with_the_end.
(** ... and compared with the codepoint iterator at codepoint [i] the answer is whether
    [i] lies in the grapheme, or both are at the end. *)
Theorem C43_equality_with_a_codepoint_iterator : forall ops b e cs pos gs a i fuel,
  string_in_memory ops b e cs pos -> segments pairwise_boundary cs gs ->
  (a <= length gs)%nat -> (i <= length cs)%nat -> (length cs < fuel)%nat ->
  exists ga r, nth_grapheme fuel ops b e a = Ok ga /\ gi_eq_cp fuel ops ga (pos i) = Ok r /\
    (r = true <->
     (length (concat (firstn a gs)) <= i < length (concat (firstn (S a) gs)))%nat \/
     (a = length gs /\ i = length cs)).
Proof.
  intros ops b e cs pos gs a i fuel M S Ha Hi Hf. rewrite (seg_eq _ _ S) in *.
  destruct (string_text _ _ _ _ _ M) as (pos' & inside & T & P).
  destruct (final_nth ops b e cs 0 pos' inside T fuel a ltac:(lia) Ha) as (ga & Ea & Ga).
  assert (In : inside i (pos' i)) by (apply (lw_pos _ _ _ _ (ti_lawful _ _ _ _ _ _ _ T)); rewrite app_length; cbn; lia).
  destruct (text_eq_cp ops b e cs 0 pos' inside T fuel a ga i (pos' i) Hf Ha Hi In Ga) as (r & E & R).
  rewrite P in E by assumption. exists ga, r. auto.
Qed.
Print Assumptions C43_equality_with_a_codepoint_iterator.
Example C43_example : (* "e\u0301x": two graphemes *)
  let cs := [0x65; 0x301; 0x78] in
  segments pairwise_boundary cs [[0x65; 0x301]; [0x78]] /\
  string_in_memory (utf8_ops (string_buffer (utf8_text cs))) 0 4 cs (fun i => zlen (utf8_text (firstn i cs))).
Proof.
  split.
  - replace [[0x65; 0x301]; [0x78]] with (seg [0x65; 0x301; 0x78]) by (vm_compute; reflexivity). apply seg_segments.
  - apply (utf8_string [0x65; 0x301; 0x78]). repeat constructor; unfold codepoint31; lia.
Qed.

(** ** C26.  False: the octet appended for "é" is not its UTF-8 text. *)
Theorem C26_append_graphemes_utf8_refuted : exists ga gb,
  let mem := string_buffer (utf8_text [0xE9]) in
  nth_grapheme 3 (utf8_ops mem) 0 2 0 = Ok ga /\ grapheme_end 3 (utf8_ops mem) 0 2 = Ok gb /\
  utf8_append_graphemes 3 [] mem ga gb = Ok [0xE9] /\ utf8_text [0xE9] = [0xC3; 0xA9].
Proof. eexists _, _. split; [vm_compute; reflexivity|]. split; [vm_compute; reflexivity|]. split; vm_compute; reflexivity. Qed.
Print Assumptions C26_append_graphemes_utf8_refuted.
(** What is appended is one octet per codepoint of the graphemes number [a] to [k - 1],
    its low 8 bits; that is the UTF-8 text exactly if all of them are ASCII. *)
Theorem C26_append_graphemes_utf8_partial : forall cs gs a k fuel out,
  Forall codepoint31 cs -> segments pairwise_boundary cs gs -> (a <= k <= length gs)%nat ->
  (length cs < fuel)%nat ->
  let mem := string_buffer (utf8_text cs) in
  let range := concat (firstn (k - a) (skipn a gs)) in
  exists ga gk,
    nth_grapheme fuel (utf8_ops mem) 0 (zlen (utf8_text cs)) a = Ok ga /\
    nth_grapheme fuel (utf8_ops mem) 0 (zlen (utf8_text cs)) k = Ok gk /\
    utf8_append_graphemes fuel out mem ga gk = Ok (out ++ map (fun c => c mod 256) range) /\
    (map (fun c => c mod 256) range = utf8_text range <-> Forall (fun c => c < 128) range).
Proof.
  intros cs gs a k fuel out F S Ha Hf mem range. subst mem range. rewrite (seg_eq _ _ S) in *.
  destruct (string_text _ _ _ _ _ (utf8_string cs F)) as (pos' & inside & T & P).
  destruct (final_nth _ _ _ cs 0 pos' inside T fuel a ltac:(lia) ltac:(lia)) as (ga & Ea & Ga).
  destruct (final_nth _ _ _ cs 0 pos' inside T fuel k ltac:(lia) ltac:(lia)) as (gk & Ek & Gk).
  exists ga, gk. split; [assumption|]. split; [assumption|]. split.
  - exact (text_as_chars _ _ _ cs 0 pos' inside T fuel a k ga gk out Hf Ha Ga Gk).
  - apply map_u8_ascii. rewrite Forall_forall in *. intros x Hx. apply F. rewrite <- (seg_concat cs).
    rewrite <- (firstn_skipn a (seg cs)), concat_app. apply in_or_app. right.
    rewrite <- (firstn_skipn (k - a) (skipn a (seg cs))), concat_app. apply in_or_app. left. assumption.
Qed.
Print Assumptions C26_append_graphemes_utf8_partial.
Example C26_example :
  let cs := [0x61; 0x62; 0x63] in
  segments pairwise_boundary cs [[0x61]; [0x62]; [0x63]] /\ Forall (fun c => c < 128) cs.
Proof.
  split; [|repeat constructor].
  replace [[0x61]; [0x62]; [0x63]] with (seg [0x61; 0x62; 0x63]) by (vm_compute; reflexivity). apply seg_segments.
Qed.

(** ** C27 *)
Theorem C27_append_graphemes_utf32 : forall cs gs a k fuel out,
  segments pairwise_boundary cs gs -> (a <= k <= length gs)%nat -> (length cs < fuel)%nat ->
  let mem := string_buffer cs in
  exists ga gk,
    nth_grapheme fuel (utf32_ops mem) 0 (zlen cs) a = Ok ga /\
    nth_grapheme fuel (utf32_ops mem) 0 (zlen cs) k = Ok gk /\
    utf32_append_graphemes out mem ga gk = Ok (out ++ concat (firstn (k - a) (skipn a gs))).
Proof.
  intros cs gs a k fuel out S Ha Hf mem. subst mem. rewrite (seg_eq _ _ S) in *.
  pose proof (utf32_string_text cs) as T.
  destruct (final_nth _ _ _ cs 0 _ _ T fuel a ltac:(lia) ltac:(lia)) as (ga & Ea & (Wa & _ & La & _)).
  destruct (final_nth _ _ _ cs 0 _ _ T fuel k ltac:(lia) ltac:(lia)) as (gk & Ek & (Wk & _ & Lk & _)).
  exists ga, gk. split; [assumption|]. split; [assumption|].
  unfold utf32_append_graphemes, gi_deref. cbn [fst]. rewrite Wa, Wk.
  assert (LE : (length (concat (firstn a (seg cs))) <= length (concat (firstn k (seg cs))))%nat).
  { rewrite <- (firstn_skipn a (firstn k (seg cs))), firstn_firstn, Nat.min_l, concat_app, app_length by lia. lia. }
  rewrite utf32_slice by lia. cbn [bind]. rewrite seg_range by lia. reflexivity.
Qed.
Print Assumptions C27_append_graphemes_utf32.
Example C27_example : (* the second grapheme of "xe\u0301y" *)
  let mem := string_buffer [0x78; 0x65; 0x301; 0x79] in
  exists ga gk, nth_grapheme 5 (utf32_ops mem) 0 4 1 = Ok ga /\ nth_grapheme 5 (utf32_ops mem) 0 4 2 = Ok gk /\
  utf32_append_graphemes [0x21] mem ga gk = Ok [0x21; 0x65; 0x301].
Proof. eexists _, _. split; [vm_compute; reflexivity|]. split; vm_compute; reflexivity. Qed.
