(** * The grapheme break classes as a search tree, to make checks over the tables fast *)
From Verif Require Import Prelude DataTables UcdTables PropsModel Utf8Model TextModel UnicodeSpec GraphemeSpec PropsProofs.
Require Import ZifyBool ZifyNat.

Inductive rtree := Leaf | Node (l : rtree) (lo hi : Z) (v : gcb) (r : rtree).
Fixpoint build (depth : nat) (n : nat) (l : list (Z * Z * gcb)) : rtree * list (Z * Z * gcb) :=
  match depth, n with
  | S d, S _ =>
      let m := Nat.div2 n in
      match build d m l with
      | (lt, (lo, hi, v) :: rest) => match build d (n - m - 1)%nat rest with (rt, rest') => (Node lt lo hi v rt, rest') end
      | (lt, []) => (lt, [])
      end
  | _, _ => (Leaf, l)
  end.
Fixpoint find_range (c : Z) (t : rtree) : option gcb :=
  match t with
  | Leaf => None
  | Node l lo hi v r => if c <? lo then find_range c l else if hi <? c then find_range c r else Some v
  end.
Fixpoint flat (t : rtree) : list (Z * Z * gcb) :=
  match t with Leaf => [] | Node l lo hi v r => flat l ++ (lo, hi, v) :: flat r end.
(** Every range of the tree lies between the bounds, and the subtrees between theirs. *)
Fixpoint within (a b : Z) (t : rtree) : bool :=
  match t with Leaf => true | Node l lo hi v r => (a <? lo) && (lo <=? hi) && (hi <? b) && within a lo l && within hi b r end.
Lemma find_range_in c t v : find_range c t = Some v -> exists lo hi, In (lo, hi, v) (flat t) /\ lo <= c <= hi.
Proof.
  induction t as [|l IHl lo hi w r IHr]; cbn [find_range flat]; [discriminate|].
  destruct (Z.ltb_spec c lo); [|destruct (Z.ltb_spec hi c)].
  - intros E. destruct (IHl E) as (x & y & I & W). exists x, y. split; [apply in_or_app; left|]; assumption.
  - intros E. destruct (IHr E) as (x & y & I & W). exists x, y. split; [apply in_or_app; right; right|]; assumption.
  - intros E. injection E as ->. exists lo, hi. split; [apply in_or_app; right; left; reflexivity|lia].
Qed.
Lemma within_bounds t : forall a b, within a b t = true -> forall lo hi v, In (lo, hi, v) (flat t) -> a < lo /\ lo <= hi /\ hi < b.
Proof.
  induction t as [|l IHl x y w r IHr]; intros a b W lo hi v; cbn [flat]; [intros []|]. cbn [within] in W.
  repeat (apply andb_prop in W; destruct W as [W ?]). intros I. apply in_app_or in I. destruct I as [I|[I|I]].
  - destruct (IHl a x ltac:(assumption) lo hi v I) as (? & ? & ?). lia.
  - injection I as <- <- _. lia.
  - destruct (IHr y b ltac:(assumption) lo hi v I) as (? & ? & ?). lia.
Qed.
Lemma find_range_none c t : forall a b, within a b t = true -> find_range c t = None -> forall lo hi v, In (lo, hi, v) (flat t) -> ~ lo <= c <= hi.
Proof.
  induction t as [|l IHl x y w r IHr]; intros a b W E lo hi v; cbn [flat]; [intros []|]. cbn [within] in W.
  repeat (apply andb_prop in W; destruct W as [W ?]). cbn [find_range] in E.
  intros I B. apply in_app_or in I.
  assert (L : In (lo, hi, v) (flat l) -> hi < x).
  { intros J. destruct (within_bounds l a x ltac:(assumption) lo hi v J) as (_ & _ & ?). assumption. }
  assert (R : In (lo, hi, v) (flat r) -> y < lo).
  { intros J. destruct (within_bounds r y b ltac:(assumption) lo hi v J) as (? & _ & _). assumption. }
  destruct (Z.ltb_spec c x); [|destruct (Z.ltb_spec y c); [|discriminate]]; destruct I as [I|[I|I]].
  - exact (IHl a x ltac:(assumption) E lo hi v I B).
  - injection I as <- <- _. lia.
  - specialize (R I). lia.
  - specialize (L I). lia.
  - injection I as <- <- _. lia.
  - exact (IHr y b ltac:(assumption) E lo hi v I B).
Qed.

Definition gcb_tree : rtree := Eval vm_compute in fst (build 12 (length grapheme_cluster_break_data) grapheme_cluster_break_data).
Lemma gcb_tree_flat : flat gcb_tree = grapheme_cluster_break_data.
Proof. vm_compute. reflexivity. Qed.
Lemma gcb_tree_within : within (-1) 0x110000 gcb_tree = true.
Proof. vm_compute. reflexivity. Qed.
Definition fast_gcb (c : Z) : gcb := match find_range c gcb_tree with Some v => v | None => G_OTHER end.
Lemma fast_gcb_eq c : fast_gcb c = gcb_of c.
Proof.
  unfold fast_gcb. symmetry. destruct (find_range c gcb_tree) as [v|] eqn:E.
  - apply find_range_in in E. destruct E as (lo & hi & I & B). rewrite gcb_tree_flat in I.
    apply gcb_spec. left. exists lo, hi. split; [apply gcb_data_ucd; assumption|assumption].
  - unfold gcb_of. destruct (find _ _) as [[[lo hi] v]|] eqn:F; [|reflexivity]. exfalso.
    apply find_some in F. destruct F as (I & B). apply Z.eqb_eq in B. apply compare_range_zero in B.
    refine (find_range_none c gcb_tree (-1) 0x110000 gcb_tree_within E lo hi v _ B). rewrite gcb_tree_flat. assumption.
Qed.
