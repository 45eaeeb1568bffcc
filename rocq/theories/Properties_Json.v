(** The data elements of the exported page (C102). *)
From Verif Require Import Base M_Json L_Json.
Local Open Scope Z_scope.

(** C102: whatever the texts of the ledger contain, the browser finds the end of the data element where coin2html put it (the text of the
    element contains no "<" at all), and JSON.parse of that text is the exported value *)
Theorem C102_data_survives_the_page : forall id v rest, exists text,
  script_element id v ++ rest = (B "<script type=""application/json"" id=""" ++ id ++ B """>") ++ text ++ B "</script>" ++ nline :: rest /\
  script_text (text ++ B "</script>" ++ nline :: rest) = text /\ ~ In "<"%char text /\ json_parse text = Some v.
Proof.
  intros id v rest. exists ([nline] ++ encode 0 v ++ [nline]).
  assert (F : lt_free ([nline] ++ encode 0 v ++ [nline])).
  { apply lt_app; [intros [H|[]]; discriminate|]. apply lt_app; [apply encode_lt|intros [H|[]]; discriminate]. }
  repeat split.
  - unfold script_element. rewrite <- !app_assoc. reflexivity.
  - change (B "</script>" ++ nline :: rest) with (B "</script" ++ ">"%char :: nline :: rest). apply script_text_free, F.
  - exact F.
  - apply json_round_trip; reflexivity.
Qed.
(** a description that is itself markup *)
Definition nasty : json := JObj [(B "description", JStr (B "a</script><script>""\ &amp;" ++ [chr 10; chr 0])); (B "n", JArr [JNum (- 12); JNull; JObj []])].
Example C102_case : encode 0 nasty = B "{" ++ [nline; tab] ++ B """description"": ""a\u003c/script\u003e\u003cscript\u003e\""\\ \u0026amp;\n\u0000""," ++
   [nline; tab] ++ B """n"": [" ++ [nline; tab; tab] ++ B "-12," ++ [nline; tab; tab] ++ B "null," ++ [nline; tab; tab] ++ B "{}" ++ [nline; tab] ++ B "]" ++ [nline] ++ B "}".
Proof. vm_compute. reflexivity. Qed.
Example C102_case_read : json_parse (encode 0 nasty) = Some nasty.
Proof. vm_compute. reflexivity. Qed.
Print Assumptions C102_data_survives_the_page.
