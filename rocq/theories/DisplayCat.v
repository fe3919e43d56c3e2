(** * DisplayCat: the text output of category axes. *)
From Coq Require Import List NArith ZArith Bool String Ascii.
From stdpp Require Import base.
From Verif Require Import Base Num Axis Category Display.
Import ListNotations.
Open Scope list_scope.
Open Scope N_scope.

(** [[String]::join(", ")] (std). *)
Definition join_comma (l : list string) : string := String.concat ", "%string l.

Section CategoryText.
Context `{Build} {T : Type} `{EqDecision T} (fmt : formatter T).

(** axis/category.rs:105-115 [Display for Category]: [self.bins().take(10)], each
    [to_string()] (no formatter options), joined, in braces. *)
Definition category_display (c : Category T) : outcome string :=
  let! is := @indices _ category_axis c in
  let! bs := mapo (fun i => let! ob := category_bin c i in expect ob) (firstn 10 is) in
  Val ("{" ++ join_comma (map (fmt_single_value fmt None) bs) ++ "}")%string.

(** axis/categorynoflow.rs:74-78 [Display for CategoryNoFlow]: prints the inner
    category axis. *)
Definition categorynoflow_display (c : CategoryNoFlow T) : outcome string := category_display (cnf_axis c).
End CategoryText.
