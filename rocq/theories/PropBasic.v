(** * PropBasic: reading what FormatItemBasic returns (C84). *)
From Coq Require Import Strings.String.
From Verif Require Import GoBase Table TableContract TableExamples BasicSpec BasicProofs BasicCases.
Local Open Scope Z_scope.

Theorem C84_split : forall (Item Val E : Type) (t : Table Item Val E) item sep out vs,
  sep <> [] -> Columns (tSpec t) <> [] ->
  AllOk (basic_cell item) (Columns (tSpec t)) vs -> FormatItemBasic t item sep = Ok out ->
  (Splits sep out vs <-> Apart sep vs).
Proof. exact @basic_split. Qed.
Print Assumptions C84_split.

(** There is exactly one way to cut a text. *)
Theorem C84_one_way : forall sep s, sep <> [] -> exists ps, Splits sep s ps /\ forall qs, Splits sep s qs -> ps = qs.
Proof. exact one_way. Qed.
Print Assumptions C84_one_way.

Theorem C84_same : forall (Item Val E : Type) (t u : Table Item Val E) i j sep out vs ws, sep <> [] ->
  AllOk (basic_cell i) (Columns (tSpec t)) vs -> AllOk (basic_cell j) (Columns (tSpec u)) ws ->
  FormatItemBasic t i sep = Ok out -> FormatItemBasic u j sep = Ok out ->
  Apart sep vs -> Apart sep ws -> vs = ws.
Proof. exact @basic_injective. Qed.
Print Assumptions C84_same.

Theorem C84_byte : forall x vs, vs <> [] -> (Apart [x] vs <-> Forall (fun v => ~ In x v) vs).
Proof. exact Apart_byte. Qed.
Print Assumptions C84_byte.

Theorem C84_fields : forall (Item Val E : Type) (t : Table Item Val E) item x out vs ps, Columns (tSpec t) <> [] ->
  AllOk (basic_cell item) (Columns (tSpec t)) vs -> FormatItemBasic t item [x] = Ok out -> Splits [x] out ps ->
  slen ps = slen (Columns (tSpec t)) + zsum (map (occurrences x) vs).
Proof. exact @basic_count. Qed.
Print Assumptions C84_fields.

Example C84_example : FormatItemBasic exTable exItem1 comma = Ok (lit "go.mod,12"%string)
  /\ AllOk (basic_cell exItem1) (Columns (tSpec exTable)) exItem1 /\ Apart comma exItem1
  /\ Splits comma (lit "go.mod,12"%string) exItem1.
Proof. exact basic_example. Qed.

Theorem C84_csv_refuted : exists out, FormatItemBasic exTable itemL comma = Ok out
  /\ FormatItemBasic exTable itemR comma = Ok out /\ itemL <> itemR.
Proof. exact comma_refuted. Qed.
Print Assumptions C84_csv_refuted.

Theorem C84_overlap_refuted : (forall v, In v itemD -> forall a, ~ Stands dashes v a)
  /\ exists out ps, FormatItemBasic exTable itemD dashes = Ok out /\ Splits dashes out ps /\ ps <> itemD /\ slen ps = 2.
Proof. exact overlap_refuted. Qed.
Print Assumptions C84_overlap_refuted.

Example C84_no_column : FormatItemBasic emptyTable [[]] comma = Ok [] /\ FormatItemBasic oneTable [[]] comma = Ok []
  /\ Columns (tSpec emptyTable) = [] /\ Splits comma [] [[]].
Proof. exact empty_refuted. Qed.
