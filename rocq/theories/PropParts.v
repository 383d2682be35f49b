(** * PropParts: the clusters of a text that arrives in parts (C107). *)
From Coq Require Import Strings.String.
From Verif Require Import GoBase Utf8 Uniseg GraphemeSpec SegmentSpec TextSpec Runewidth ConditionSpec StringWidthProofs TableExamples PartsSpec PartsProofs PartsCases.
Local Open Scope Z_scope.

(** C107: a client that holds back the last cluster, and bytes that may belong to
    a rune not yet complete, gives out the clusters of the whole text. *)
Theorem C107_parts : forall p parts out, Feeds p parts out -> Clusters (p ++ List.concat parts) out.
Proof. exact feeds_clusters. Qed.
Print Assumptions C107_parts.

Example C107_parts_example : Feeds [] parts1 out1.
Proof. exact feeds_example. Qed.
Example C107_parts_whole : List.concat parts1 = [x65; xcc; x81; x78] ++ flagD ++ flagE ++ flagE /\ List.concat out1 = List.concat parts1
  /\ map (StringWidth exC) out1 = [1; 1; 1; 1] /\ StringWidth exC (List.concat parts1) = 4.
Proof. exact feeds_whole. Qed.

(** The widths of what it gives out add up to the width of the text. *)
Theorem C107_width : forall c parts out, Feeds [] parts out -> StringWidth c (List.concat parts) = zsum (map (StringWidth c) out).
Proof. exact feeds_width. Qed.
Print Assumptions C107_width.

(** It never needs to hold back more than three bytes besides the cluster, and
    none where a part ends with a whole rune of valid text. *)
Theorem C107_bytes : forall s, exists w tail, s = w ++ tail /\ Stays w tail /\ (List.length tail <= 3)%nat.
Proof. exact held_back. Qed.
Print Assumptions C107_bytes.
Theorem C107_valid : forall s, ValidUTF8 s -> Stays s [].
Proof. exact valid_stays. Qed.
Print Assumptions C107_valid.

Example C107_bytes_example : Stays (lit "a"%string) [xe3; x81] /\ ~ Stays (lit "a"%string ++ [xe3; x81]) [] /\ Stays [xe3; x81] (lit "a"%string).
Proof. exact held_example. Qed.

(** The last cluster could be given out at once exactly if it ends with a line
    feed or another control character, carriage return excepted. *)
Theorem C107_last : forall w cl k, Stays w [] -> Clusters w (cl ++ [k]) ->
  ((forall b, exists cl', Clusters (w ++ b) (cl ++ k :: cl')) <-> EndsIn w (fun g => g = LF \/ g = Control)).
Proof. exact must_hold. Qed.
Print Assumptions C107_last.

Example C107_last_example : Stays (lit "ab"%string) [] /\ Clusters (lit "ab"%string) ([[x61]] ++ [[x62]]) /\ ~ EndsIn (lit "ab"%string) (fun g => g = LF \/ g = Control)
  /\ Stays (lit "a"%string ++ [x0d; x0a]) [] /\ Clusters (lit "a"%string ++ [x0d; x0a]) ([[x61]] ++ [[x0d; x0a]])
  /\ EndsIn (lit "a"%string ++ [x0d; x0a]) (fun g => g = LF \/ g = Control)
  /\ ~ EndsIn (lit "a"%string ++ [x0d]) (fun g => g = LF \/ g = Control).
Proof. exact must_example. Qed.

(** The cluster held may be as long as one likes. *)
Theorem C107_unbounded : forall n, exists s, ValidUTF8 s /\ (n < List.length s)%nat /\ Clusters s [s].
Proof. exact unbounded. Qed.
Print Assumptions C107_unbounded.

(** Not so for parts that end inside a rune whose bytes are not held back, nor
    for parts segmented one by one. *)
Theorem C107_inside_refuted : exists a b cl keep out, Clusters a (cl ++ [keep]) /\ Clusters (keep ++ b) out /\ ~ Clusters (a ++ b) (cl ++ out).
Proof. exact cut_inside_refuted. Qed.
Print Assumptions C107_inside_refuted.
Theorem C107_one_by_one_refuted : exists a b c1 c2, ValidUTF8 a /\ ValidUTF8 b /\ Clusters a c1 /\ Clusters b c2 /\ ~ Clusters (a ++ b) (c1 ++ c2).
Proof. exact one_by_one_refuted. Qed.
Print Assumptions C107_one_by_one_refuted.
