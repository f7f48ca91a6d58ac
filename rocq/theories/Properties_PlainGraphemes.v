(** * Property C38 for texts without flags and skin tones *)
From Verif Require Import Prelude UnicodeSpec GraphemeSpec TextSpec TextModel DataTables UcdTables Utf8Model Utf8Spec Properties_Graphemes.

Definition is_ri (v : gcb) : bool := match v with G_REGIONAL_INDICATOR => true | _ => false end.
Definition is_mod (v : gcb) : bool := match v with G_E_MODIFIER => true | _ => false end.
Definition rows_in (f : gcb -> bool) (a b : Z) : bool :=
  forallb (fun r => match r with (lo, hi, v) => negb (f v) || ((a <=? lo) && (hi <=? b)) end) ucd_grapheme_break.
Lemma class_in f a b c v : rows_in f a b = true -> f v = true -> f G_OTHER = false -> has_gcb c v -> a <= c <= b.
Proof.
  intros R Fv Fo [(lo & hi & I & H)|(_ & ->)]; [|congruence].
  unfold rows_in in R. rewrite forallb_forall in R. specialize (R _ I). cbn beta iota in R. rewrite Fv in R. cbn [negb orb] in R.
  apply andb_prop in R. destruct R as [R1 R2]. apply Z.leb_le in R1, R2. lia.
Qed.
Lemma ri_rows : rows_in is_ri 0x1F1E6 0x1F1FF = true. Proof. vm_compute. reflexivity. Qed.
Lemma mod_rows : rows_in is_mod 0x1F3FB 0x1F3FF = true. Proof. vm_compute. reflexivity. Qed.

(** Texts without the letters of flags (U+1F1E6-1F1FF) and the skin tones (U+1F3FB-1F3FF), so all texts of
    the Basic Multilingual Plane, are broken as UAX #29 says. *)
Theorem C38_follows_uax29_plain_partial : forall ops b e cs pos fuel,
  string_in_memory ops b e cs pos -> (length cs < fuel)%nat ->
  (forall c, In c cs -> ~ 0x1F1E6 <= c <= 0x1F1FF /\ ~ 0x1F3FB <= c <= 0x1F3FF) ->
  exists gs, graphemes fuel ops b e = Ok gs /\ segments uax29_boundary cs gs.
Proof.
  intros ops b e cs pos fuel M L P. destruct (C38_follows_uax29_partial ops b e cs pos fuel M L) as (gs & E & H).
  exists gs. split; [exact E|]. apply H. split.
  - intros l x y z r -> (G & _). apply (class_in is_ri 0x1F1E6 0x1F1FF _ G_REGIONAL_INDICATOR ri_rows eq_refl eq_refl) in G.
    destruct (P x) as [N _]; [apply in_or_app; right; left; reflexivity|contradiction].
  - intros l x m r -> _ G. exfalso. apply (class_in is_mod 0x1F3FB 0x1F3FF _ G_E_MODIFIER mod_rows eq_refl eq_refl) in G.
    destruct (P m) as [_ N]; [apply in_or_app; right; right; left; reflexivity|contradiction].
Qed.
Print Assumptions C38_follows_uax29_plain_partial.
(** A Devanagari and a Korean syllable with a line break and an emoji between. *)
Example C38_plain_example :
  let cs := [0x928; 0x93F; 0xD; 0xA; 0x1F600; 0x1112; 0x1161; 0x11AB] in
  (forall c, In c cs -> ~ 0x1F1E6 <= c <= 0x1F1FF /\ ~ 0x1F3FB <= c <= 0x1F3FF) /\
  graphemes 9 (utf8_ops (string_buffer (utf8_text cs))) 0 (zlen (utf8_text cs)) =
    Ok [[0x928; 0x93F]; [0xD; 0xA]; [0x1F600]; [0x1112; 0x1161; 0x11AB]].
Proof. split; [intros c I; cbn in I; intuition lia|vm_compute; reflexivity]. Qed.
