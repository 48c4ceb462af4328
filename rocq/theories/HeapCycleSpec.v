(** * What the properties of load and of documents that contain themselves are stated with (C75) *)
From Verif Require Export HeapTreeSpec HeapCycleModel.
Local Open Scope string_scope.

(** What a document directly consists of *)
Inductive element (H : heap) : obj -> obj -> Prop :=
| el_list a l y : nth_error H a = Some (NList l) -> In y l -> element H (ORef a) y
| el_coll a k l y : nth_error H a = Some (NColl k l) -> In y l -> element H (ORef a) y
| el_dict a k d key y : nth_error H a = Some (NDict k d) -> In (key, y) d -> element H (ORef a) y
| el_tuple l y : In y l -> element H (OTuple l) y.
(** There is no end to the elements of elements: the document contains itself, directly or not. *)
Definition endless_doc (H : heap) (x : obj) : Prop :=
  exists P : obj -> Prop, P x /\ forall y, P y -> exists z, element H y z /\ P z.
