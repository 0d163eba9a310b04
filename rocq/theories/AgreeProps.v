(** Lemmas behind PropAgree.v. *)
From Coq Require Import ZArith List Bool Lia.
From Verif Require Import SpecBits SpecCrc Spec842 SpecCalls CBase BitsLemmas SerialDecompModel SerialProps OptDecompModel OptDecomp OptProps
  OclItems OclModel SpecOcl OclProofs OclProps CudaModel CudaProofs.
Import ListNotations.
Open Scope Z_scope.

Lemma stream_any sw out bits x rest : stream sw out bits x rest -> forall sw', (sw = true -> sw' = true) -> stream sw' out bits x rest.
Proof. induction 1; intros sw' E; [constructor|constructor; auto|constructor; auto|constructor; auto|econstructor; eauto]. Qed.

Lemma decompressors_agree : forall z x,
  is_bytes z -> lenZ z mod 8 = 0 -> valid_842 false z x -> lenZ x <= UINT_MAX ->
  forall e iaddr oaddr out olen, is_bytes out -> lenZ x <= olen <= lenZ out -> lenZ out < 2 ^ 63 ->
    iaddr mod 8 = 0 -> oaddr mod 8 = 0 ->
    observed (sw842_decompress e oaddr z out olen) = Done (0, lenZ x, x) /\
    observed (optsw842_decompress e iaddr oaddr z out olen) = Done (0, lenZ x, x) /\
    observed (decompress_core e z (lenZ z) out olen) = Done (0, lenZ x, x) /\
    cuda_chunk z out = Done (x ++ skipn (length x) out).
Proof.
  intros z x Bz H8 V U e iaddr oaddr out olen Bo Hl H63 HA HO. assert (LX : 0 <= lenZ x) by (unfold lenZ; lia).
  assert (E2 : observed (optsw842_decompress e iaddr oaddr z out olen) = Done (0, lenZ x, x)).
  { apply c20; auto; try lia. split; [|lia]. fold (whole z). rewrite whole_mod8; auto. }
  split. { apply c05; auto; try lia. split; [|lia]. destruct V as (rest & V). exists rest. eapply stream_any; [exact V|discriminate]. }
  split; [exact E2|]. split. { eapply c42_soft; [..|exact E2| | |]; auto; try lia. }
  destruct V as (rest & V). eapply cuda_chunk_ok; eauto. lia.
Qed.

(** A stream with all the operations a hardware stream can have. *)
Definition all_ops_z : list Z := [4; 21; 184; 119; 115; 248; 210; 129; 200; 111; 188; 31; 176; 141; 31; 192; 4; 221; 161; 30; 186; 12; 162; 72; 52; 126; 52; 4; 48; 0; 2; 53; 183; 42; 42; 129; 11; 64; 202; 34; 208; 186; 201; 136; 105; 128; 176; 189; 69; 64; 67; 195; 144; 133; 4; 128; 214; 160; 134; 120; 88; 76; 121; 52; 43; 195; 192; 245; 5; 142; 193; 133; 219; 231; 4; 172; 143; 90; 239; 0; 16; 113; 128; 75; 140; 128; 239; 189; 141; 22; 181; 128; 49; 29; 112; 53; 228; 184; 5; 227; 96; 173; 85; 215; 41; 112; 43; 35; 47; 159; 40; 137; 56; 176; 82; 100; 244; 143; 69; 1; 130; 166; 136; 102; 2; 160; 62; 194; 3; 167; 94; 160; 145; 193; 3; 251; 5; 70; 144; 144; 238; 40; 52; 13; 192; 40; 55; 144; 189; 133; 207; 8; 105; 152; 49; 0; 0; 0; 0; 0].
Definition all_ops_x : list Z := [130; 183; 14; 238; 127; 26; 80; 57; 190; 240; 126; 194; 52; 127; 130; 183; 110; 208; 143; 93; 52; 127; 81; 36; 71; 227; 64; 67; 130; 183; 130; 183; 107; 110; 84; 85; 110; 208; 143; 93; 160; 101; 84; 85; 104; 93; 100; 196; 152; 11; 81; 36; 212; 84; 190; 240; 135; 33; 52; 127; 143; 93; 1; 173; 33; 158; 104; 93; 143; 93; 143; 93; 161; 94; 143; 93; 143; 93; 1; 173; 81; 36; 29; 131; 11; 183; 206; 9; 143; 93; 214; 187; 192; 4; 135; 33; 127; 26; 92; 100; 130; 183; 125; 236; 104; 93; 181; 128; 92; 100; 52; 127; 52; 127; 188; 151; 127; 26; 80; 57; 190; 240; 126; 194; 106; 174; 185; 75; 206; 9; 143; 93; 47; 159; 81; 36; 1; 173; 104; 93; 52; 127; 76; 158; 126; 194; 160; 101; 52; 127; 52; 127; 1; 173; 125; 236; 190; 240; 126; 194; 143; 93; 1; 173; 176; 128; 233; 215; 110; 208; 143; 93; 28; 16; 185; 75; 11; 183; 206; 9; 212; 84; 66; 67; 143; 93; 1; 173; 104; 93; 64; 67; 160; 101; 84; 85; 92; 100; 52; 127; 143; 93; 214; 187; 192; 4; 135; 33; 143; 93; 214; 187; 192; 4; 135; 33; 143; 93; 214; 187; 192; 4; 135; 33; 143; 93; 214; 187; 192; 4; 135; 33; 0; 0; 0; 0; 0; 0; 0; 0].
