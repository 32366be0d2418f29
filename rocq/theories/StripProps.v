(** C51: what parsing keeps of the texts it takes from the source. *)
From Coq Require Import String ZArith List Bool Lia ZifyBool ZifyNat.
From Verif Require Import Common Text StrOpsModel LexModel LexSpec StripModel StripSpec StripProofs3 StripProofs4.
Import ListNotations.
Close Scope string_scope.
Open Scope Z_scope.

(** C51: it ends, without reading outside of the text (if comments are closed), and the characters of the text other than white
    space and backslashes are kept in order; without backslashes, so are its words. *)
Theorem c51_words_kept : forall raw preserve_newlines fuel,
  Forall (fun c => 0 <= c < 256) raw -> closed raw -> (length raw < fuel)%nat ->
  exists o, strip_formatting raw preserve_newlines fuel = Done o /\ visible o = visible raw /\ (~ In 92 raw -> words o = words raw).
Proof. intros raw pn fuel B C F. apply strip_all; [lia|exact B|exact C|exact F]. Qed.
Print Assumptions c51_words_kept.

(** C51, partial (literals that end in an escaped backslash are missing): literals and comments are kept as they are,
    and the code between them keeps its words. *)
Theorem c51_literals_kept_partial : forall raw preserve_newlines fuel ps,
  raw = concat (map piece_text ps) -> Forall (fun c => 0 <= c < 256) raw -> Forall piece_ok ps -> separated ps -> (length raw < fuel)%nat ->
  exists outs, strip_formatting raw preserve_newlines fuel = Done (concat outs) /\ Forall2 becomes ps outs.
Proof. exact strip_pieces. Qed.
Print Assumptions c51_literals_kept_partial.

(** C51 refuted for the literals that are missing: the blanks in the second literal of "\\" "a  b" are lost. *)
Definition c51_escaped := Literal 34 [92; 92].
Theorem c51_literal_changed_refuted :
  let ps := [c51_escaped; Code (txt " "); Literal 34 (txt "a  b")] in
  literal_body 34 [92; 92] /\
  strip_formatting (concat (map piece_text ps)) false 100 = Done (piece_text c51_escaped ++ txt " " ++ piece_text (Literal 34 (txt "a b"))).
Proof. split; [apply body_escape; constructor|vm_compute; reflexivity]. Qed.
Print Assumptions c51_literal_changed_refuted.
(** C51 refuted for a comment that is not closed: it reads past the end of the text. *)
Theorem c51_open_comment_refuted : strip_formatting (txt "a /* b") false 100 = Undefined.
Proof. vm_compute. reflexivity. Qed.
Print Assumptions c51_open_comment_refuted.

Definition c51_pieces := [Code (txt "int   x" ++ [9] ++ txt "=  f("); Literal 39 (txt "\'"); Code (txt " ,"); Literal 34 (txt "a  b"); Code (txt ")  "); Block (txt "  so  "); Code (txt "+" ++ [10] ++ txt " 1 "); Line (txt "  end"); Code (txt " y")].
Example c51_hypotheses_met :
  let raw := concat (map piece_text c51_pieces) in
  Forall (fun c => 0 <= c < 256) raw /\ Forall piece_ok c51_pieces /\ separated c51_pieces /\
  strip_formatting raw false 100 = Done (txt "int x = f('\'' ," ++ [34] ++ txt "a  b" ++ [34] ++ txt ") /*  so  */+  1 //  end" ++ [10] ++ txt " y").
Proof.
  cbv zeta. split; [vm_compute; repeat constructor; discriminate|]. split; [|split; [|vm_compute; reflexivity]].
  - unfold c51_pieces. repeat (apply Forall_cons); try apply Forall_nil; cbn [piece_ok].
    + split; [discriminate|]. apply Forall_forall. intros c H. vm_compute in H. cbn [In]. intuition lia.
    + split; [right; reflexivity|]. split; [apply body_escape; constructor|discriminate].
    + split; [discriminate|]. apply Forall_forall. intros c H. vm_compute in H. cbn [In]. intuition lia.
    + split; [left; reflexivity|]. split; [repeat (apply body_char; [discriminate|discriminate|]); constructor|discriminate].
    + split; [discriminate|]. apply Forall_forall. intros c H. vm_compute in H. cbn [In]. intuition lia.
    + intros x y E. assert (In 47 ([42] ++ txt "  so  ")) as H by (rewrite E; apply in_or_app; right; right; left; reflexivity). vm_compute in H. intuition discriminate.
    + split; [discriminate|]. apply Forall_forall. intros c H. vm_compute in H. cbn [In]. intuition lia.
    + intros H. vm_compute in H. intuition discriminate.
    + split; [discriminate|]. apply Forall_forall. intros c H. vm_compute in H. cbn [In]. intuition lia.
  - intros a x y b E. unfold c51_pieces in E. repeat (destruct a as [|? a]; cbn [app] in E; [first [discriminate E | injection E as <- <- _; cbn [is_code]; tauto]|first [discriminate E | injection E as _ E]]).
Qed.
Definition c51_text := txt "int  x /* c  */ = 1".
Example c51_words_hypotheses_met : Forall (fun c => 0 <= c < 256) c51_text /\ closed c51_text /\ ~ In 92 c51_text /\ words c51_text = map txt ["int"; "x"; "/*"; "c"; "*/"; "="; "1"]%string.
Proof.
  split; [vm_compute; repeat constructor; discriminate|]. split; [|split; [vm_compute; intuition discriminate|vm_compute; reflexivity]].
  intros a b E. let l := eval vm_compute in c51_text in change c51_text with l in E. change (txt "/*") with [47; 42] in E. cbn [app] in E. 
  repeat (destruct a as [|? a]; cbn [app] in E; [first [discriminate E | injection E as <-; exists (txt " c  "), (txt " = 1"); reflexivity]|first [discriminate E | injection E as _ E]]).
Qed.
