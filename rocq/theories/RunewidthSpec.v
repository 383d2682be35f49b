(** * RunewidthSpec: rune widths stated directly over the Unicode tables. *)
From Verif Require Import GoBase IntervalSpec RuneWidthData.
Local Open Scope Z_scope.

Definition Invisible (r : Z) : Prop := Member r tbl_nonprint \/ Member r tbl_combining.
Definition Narrow (r : Z) : Prop := Member r tbl_narrow.
Definition Wide (r : Z) : Prop := Member r tbl_doublewidth.
Definition Ambiguous (r : Z) : Prop := Member r tbl_ambiguous.
Definition Emoji (r : Z) : Prop := Member r tbl_emoji.

(** Width outside East Asian mode: invisible runes take no cell, double-width
    runes two, all others one. *)
Inductive WidthPlain (r : Z) : Z -> Prop :=
| wp_invisible : Invisible r -> WidthPlain r 0
| wp_wide : ~ Invisible r -> Wide r -> WidthPlain r 2
| wp_other : ~ Invisible r -> ~ Wide r -> WidthPlain r 1.

(** Width in East Asian mode: also ambiguous runes take two cells, narrow
    ones always one; with [strict = false] emoji take two. *)
Inductive WidthEastAsian (strict : bool) (r : Z) : Z -> Prop :=
| we_invisible : Invisible r -> WidthEastAsian strict r 0
| we_narrow : ~ Invisible r -> Narrow r -> WidthEastAsian strict r 1
| we_wide : ~ Invisible r -> ~ Narrow r -> (Ambiguous r \/ Wide r) ->
    WidthEastAsian strict r 2
| we_emoji : ~ Invisible r -> ~ Narrow r -> ~ Ambiguous r -> ~ Wide r ->
    strict = false -> Emoji r -> WidthEastAsian strict r 2
| we_other : ~ Invisible r -> ~ Narrow r -> ~ Ambiguous r -> ~ Wide r ->
    (strict = true \/ ~ Emoji r) -> WidthEastAsian strict r 1.
