(** C76: the kernel source in the library is the kernel source. *)
From Coq Require Import ZArith List Bool Lia String.
From Verif Require Import SpecBits Cl2cModel SpecC Cl2cProofs.
Import ListNotations.
Open Scope Z_scope.

(** A compiler that reads the output of cl2c for a text finds a string literal that denotes this text, whatever characters
    are in it; with trigraphs on, if it has no two question marks in a row. *)
Theorem C76_literal_denotes_text : forall with_trigraphs text name, Forall name_char name -> (with_trigraphs = true -> no_qq text) ->
  read_declaration with_trigraphs (bytes_of "const char *" ++ name ++ bytes_of " =") (snd (cl2c (Some text) name)) = Some text.
Proof. exact cl2c_ok. Qed.
Print Assumptions C76_literal_denotes_text.

(** The C string that cl842decompress.cpp reads is the whole text if it has no zero bytes. *)
Theorem C76_c_string_is_text : forall text name, Forall name_char name -> ~ In 0 text ->
  option_map c_string (read_declaration false (bytes_of "const char *" ++ name ++ bytes_of " =") (snd (cl2c (Some text) name))) = Some text.
Proof. intros text name N H. fold (head_of name). rewrite cl2c_ok by (auto; discriminate). cbn [option_map]. now rewrite c_string_all. Qed.
Print Assumptions C76_c_string_is_text.

(** Compiled with trigraphs, "??/" becomes something else. *)
Theorem C76_trigraphs_refuted : exists text name, Forall name_char name /\
  read_declaration true (bytes_of "const char *" ++ name ++ bytes_of " =") (snd (cl2c (Some text) name)) <> Some text.
Proof.
  exists (bytes_of "a??(b"), (bytes_of "K"). split; [repeat constructor; unfold name_char; vm_compute; intuition discriminate|]. vm_compute. discriminate.
Qed.
Print Assumptions C76_trigraphs_refuted.

(** If the input file cannot be opened the tool succeeds, and writes an empty kernel. *)
Theorem C76_missing_input_refuted : forall name, Forall name_char name ->
  fst (cl2c None name) = 0 /\ read_declaration false (bytes_of "const char *" ++ name ++ bytes_of " =") (snd (cl2c None name)) = Some [].
Proof. intros name N. split; [reflexivity|]. exact (cl2c_ok false [] name N (fun H => False_ind _ (diff_false_true H))). Qed.
Print Assumptions C76_missing_input_refuted.

(** A case with the characters that are treated specially: a line continuation in a macro, a quoted string, an escaped one. *)
Definition case_text : list Z := bytes_of "#define M(x) \" ++ [10] ++ bytes_of "  f(x, " ++ [34; 92; 110; 92; 34; 34] ++ bytes_of ") // what?" ++ [13; 10; 200].
Example C76_case : read_declaration true (bytes_of "const char *K =") (snd (cl2c (Some case_text) (bytes_of "K"))) = Some case_text /\ no_qq case_text /\ ~ In 0 case_text /\
  snd (cl2c (Some [92; 10; 34]) [75]) = bytes_of "const char *K =" ++ [10] ++ [34; 92; 92; 92; 110; 34; 10; 34; 92; 34; 34; 10; 59; 10].
Proof. split; [vm_compute; reflexivity|]. split; [vm_compute; intuition discriminate|]. split; [vm_compute; intuition discriminate|reflexivity]. Qed.
