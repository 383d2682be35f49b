(** * PropGenerate: the table generators (C53). *)
From Coq Require Import Permutation.
From Verif Require Import GoBase IntervalSpec Uniseg Runewidth RuneWidthData Generate GenerateSpec GenerateProofs.
Local Open Scope Z_scope.

(** ** C53: generated tables *)

Theorem C53_shapeup : forall t, Sorted t ->
  Compact (shapeup t) /\ (forall r, Member r (shapeup t) <-> Member r t)
  /\ forall t', Compact t' -> (forall r, Member r t' <-> Member r t) -> t' = shapeup t.
Proof. exact shapeup_canonical. Qed.
Print Assumptions C53_shapeup.

(** The members stay in any order of the ranges. *)
Theorem C53_members : forall t r, Forall (fun e => fst e <= snd e) t -> (Member r (shapeup t) <-> Member r t).
Proof. exact shapeup_member. Qed.
Print Assumptions C53_members.

Theorem C53_package : Forall (fun t => Compact t /\ shapeup t = t)
  [tbl_combining; tbl_doublewidth; tbl_ambiguous; tbl_narrow; tbl_neutral; tbl_emoji].
Proof. exact package_shaped. Qed.
Print Assumptions C53_package.

Theorem C53_eastasian : forall lines, Forall ProperLine lines ->
  let t := eastasian lines in
  (forall r, Member r (eaDbl t) <-> exists l, In l lines /\ (eaClass l = W \/ eaClass l = F) /\ Covers l r)
  /\ (forall r, Member r (eaAmb t) <-> exists l, In l lines /\ eaClass l = A /\ Covers l r)
  /\ (forall r, Member r (eaNar t) <-> exists l, In l lines /\ eaClass l = Na /\ Covers l r)
  /\ (forall r, Member r (eaNeu t) <-> exists l, In l lines /\ eaClass l = N /\ Covers l r)
  /\ (forall r, Member r (eaCmb t) <-> exists l, In l lines /\ eaCombining l = true /\ Covers l r).
Proof. exact eastasian_tables. Qed.
Print Assumptions C53_eastasian.

Theorem C53_lookup : forall lines, Forall ProperLine lines -> Ascending lines ->
  let t := eastasian lines in
  Forall (fun x => Compact x /\ (x <> [] -> forall r, inTable r x = true <-> Member r x)) [eaCmb t; eaDbl t; eaAmb t; eaNar t; eaNeu t].
Proof. exact eastasian_lookup. Qed.
Print Assumptions C53_lookup.

(** The order of the lines matters: the generator does not sort them. *)
Theorem C53_unsorted_refuted : exists lines r, Forall ProperLine lines
  /\ Member r (eaDbl (eastasian lines)) /\ inTable r (eaDbl (eastasian lines)) = false.
Proof. exact unsorted_refuted. Qed.
Print Assumptions C53_unsorted_refuted.

Theorem C53_emoji : forall lines, Forall (fun '(lo, hi) => match hi with Some h => lo <= h | None => True end) lines ->
  forall r, Member r (emoji_table lines) <->
    exists lo hi, In (lo, hi) lines /\ match hi with Some h => lo <= r <= h /\ 255 <= h | None => r = lo /\ 255 <= lo end.
Proof. exact emoji_members. Qed.
Print Assumptions C53_emoji.

Theorem C53_properties : forall lines d, SortedEntries lines d ->
  Forall (fun '(from, to_, _) => match to_ with Some t => from <= t | None => True end) lines ->
  (forall r pre mid post x y p q, lines = pre ++ x :: mid ++ y :: post -> Speaks x r p -> ~ Speaks y r q) ->
  forall r, (forall p, (exists l, In l lines /\ Speaks l r p) -> property d r = p)
    /\ ((forall l p, In l lines -> ~ Speaks l r p) -> property d r = 0).
Proof. exact properties_lookup. Qed.
Print Assumptions C53_properties.

Example C53_example :
  let lines := [{| eaLo := 0x1100; eaHi := Some 0x115F; eaClass := W; eaCombining := false |};
                {| eaLo := 0x1160; eaHi := None; eaClass := W; eaCombining := true |};
                {| eaLo := 0x2010; eaHi := None; eaClass := A; eaCombining := false |};
                {| eaLo := 0x3000; eaHi := None; eaClass := F; eaCombining := false |}] in
  Forall ProperLine lines /\ Ascending lines
  /\ eaDbl (eastasian lines) = [(0x1100, 0x1160); (0x3000, 0x3000)]
  /\ eaCmb (eastasian lines) = [(0x1160, 0x1160)] /\ eaAmb (eastasian lines) = [(0x2010, 0x2010)].
Proof. exact eastasian_example. Qed.

Example C53_shapeup_example : Sorted [(1, 2); (3, 4); (5, 5); (7, 9); (10, 10)]
  /\ shapeup [(1, 2); (3, 4); (5, 5); (7, 9); (10, 10)] = [(1, 5); (7, 10)]
  /\ shapeup [(7, 9); (1, 2); (3, 4); (10, 10)] = [(7, 9); (1, 4); (10, 10)].
Proof. cbn. repeat split; discriminate. Qed.

Example C53_properties_example : SortedEntries [(20, Some 29, 5); (7, None, 3)] [(7, 7, 3); (20, 29, 5)]
  /\ property [(7, 7, 3); (20, 29, 5)] 24 = 5 /\ property [(7, 7, 3); (20, 29, 5)] 8 = 0.
Proof. split; [split; [apply perm_swap|repeat constructor; discriminate]|split; reflexivity]. Qed.

Example C53_emoji_example : emoji_table [(0x23, None); (0xA9, None); (0x231A, Some 0x231B); (0x231C, None)] = [(0x231A, 0x231C)].
Proof. reflexivity. Qed.
