(** The literal test vectors of /repo/test/test_patterns.c (generated by
    tools/gen_patterns.py), used only to check that the model of the code is
    faithful on them. *)
From Coq Require Import ZArith List.
Import ListNotations.
Open Scope Z_scope.

Definition PATTERN_EMPTY_UNCOMPRESSED : list Z := [
 ].

Definition PATTERN_EMPTY_COMPRESSED : list Z := [
  240; 0; 0; 0; 0; 0; 0; 0 ].

Definition PATTERN_ZEROS_UNCOMPRESSED : list Z := [
  0; 0; 0; 0; 0; 0; 0; 0; 0; 0; 0; 0; 0; 0; 0; 0; 0; 0; 0; 0;
  0; 0; 0; 0; 0; 0; 0; 0; 0; 0; 0; 0 ].

Definition PATTERN_ZEROS_COMPRESSED : list Z := [
  230; 194; 240; 0; 0; 0; 0; 0 ].

Definition PATTERN_RANDOM_UNCOMPRESSED : list Z := [
  15; 7; 50; 180; 175; 107; 228; 12; 95; 139; 78; 76; 78; 63; 253; 68; 240; 95; 214; 96;
  34; 77; 197; 47; 55; 140; 187; 61; 210; 23; 155; 222 ].

Definition PATTERN_RANDOM_COMPRESSED : list Z := [
  0; 120; 57; 149; 165; 123; 95; 32; 96; 23; 226; 211; 147; 19; 143; 255; 81; 1; 224; 191;
  172; 192; 68; 155; 138; 94; 3; 120; 203; 179; 221; 33; 121; 189; 239; 71; 224; 230; 230; 0 ].

Definition PATTERN_LIMIT_UNCOMPRESSED : list Z := [
  17; 17; 17; 17; 17; 17; 17; 17; 18; 18; 18; 18; 19; 19; 20; 21; 23; 23; 23; 23;
  23; 23; 23; 23; 23; 23; 23; 23; 23; 23; 23; 23 ].

Definition PATTERN_LIMIT_COMPRESSED : list Z := [
  0; 136; 136; 136; 136; 136; 136; 136; 136; 4; 132; 132; 132; 132; 196; 197; 5; 64; 46; 46;
  46; 46; 46; 46; 46; 47; 176; 61; 106; 228; 226; 88 ].

Definition PATTERN_MIXED_UNCOMPRESSED : list Z := [
  17; 17; 17; 17; 17; 17; 17; 17; 17; 17; 17; 17; 17; 17; 17; 17; 17; 17; 17; 17;
  17; 17; 17; 17; 17; 17; 17; 17; 17; 17; 17; 17; 15; 7; 50; 180; 175; 107; 228; 12;
  95; 139; 78; 76; 78; 63; 253; 68; 240; 95; 214; 96; 34; 77; 197; 47; 55; 140; 187; 61;
  210; 23; 155; 222 ].

Definition PATTERN_MIXED_COMPRESSED : list Z := [
  0; 136; 136; 136; 136; 136; 136; 136; 142; 194; 0; 120; 57; 149; 165; 123; 95; 32; 96; 23;
  226; 211; 147; 19; 143; 255; 81; 1; 224; 191; 172; 192; 68; 155; 138; 94; 3; 120; 203; 179;
  221; 33; 121; 189; 239; 39; 171; 124; 9; 128; 0; 0; 0; 0; 0; 0 ].

Definition PATTERN_TEXT_UNCOMPRESSED : list Z := [
  87; 104; 101; 110; 32; 109; 121; 32; 102; 97; 116; 104; 101; 114; 32; 114; 101; 116; 117; 114;
  110; 101; 100; 32; 102; 114; 111; 109; 32; 77; 105; 108; 97; 110; 44; 32; 104; 101; 32; 102;
  111; 117; 110; 100; 32; 112; 108; 97; 121; 105; 110; 103; 32; 119; 105; 116; 104; 32; 109; 101;
  32; 105; 110; 32; 116; 104; 101; 32; 104; 97; 108; 108; 32; 111; 102; 32; 111; 117; 114; 32;
  118; 105; 108; 108; 97; 32; 97; 32; 99; 104; 105; 108; 100; 32; 102; 97; 105; 114; 101; 114;
  32; 116; 104; 97; 110; 32; 112; 105; 99; 116; 117; 114; 101; 100; 32; 99; 104; 101; 114; 117;
  98; 226; 128; 148; 97; 32; 99; 114; 101; 97; 116; 117; 114; 101; 32; 119; 104; 111; 32; 115;
  101; 101; 109; 101; 100; 32; 116; 111; 32; 115; 104; 101; 100; 32; 114; 97; 100; 105; 97; 110;
  99; 101; 32; 102; 114; 111; 109; 32; 104; 101; 114; 32; 108; 111; 111; 107; 115; 32; 97; 110;
  100; 32; 119; 104; 111; 115; 101; 32; 102; 111; 114; 109; 32; 97; 110; 100; 32; 109; 111; 116;
  105; 111; 110; 115; 32; 119; 101; 114; 101; 32; 108; 105; 103; 104; 116; 101; 114; 32; 116; 104;
  97; 110; 32; 116; 104; 101; 32; 99; 104; 97; 109; 111; 105; 115; 32; 111; 102; 32; 116; 104;
  101; 32; 104; 105; 108; 108; 115; 46; 32; 84; 104; 101; 32; 97; 112; 112; 97; 114; 105; 116;
  105; 111; 110; 32; 119; 97; 115; 32; 115; 111; 111; 110; 32; 101; 120; 112; 108; 97; 105; 110;
  101; 100; 46; 32; 87; 105; 116; 104; 32; 104; 105; 115; 32; 112; 101; 114; 109; 105; 115; 115;
  105; 111; 110; 32; 109; 121; 32; 109; 111; 116; 104; 101; 114; 32; 112; 114; 101; 118; 97; 105;
  108; 101; 100; 32; 111; 110; 32; 104; 101; 114; 32; 114; 117; 115; 116; 105; 99; 32; 103; 117;
  97; 114; 100; 105; 97; 110; 115; 32; 116; 111; 32; 121; 105; 101; 108; 100; 32; 116; 104; 101;
  105; 114; 32; 99; 104; 97; 114; 103; 101; 32; 116; 111; 32; 104; 101; 114; 46; 32; 84; 104;
  101; 121; 32; 119; 101; 114; 101; 32; 102; 111; 110; 100; 32; 111; 102; 32; 116; 104; 101; 32;
  115; 119; 101; 101; 116; 32; 111; 114; 112; 104; 97; 110; 46; 32; 72; 101; 114; 32; 112; 114;
  101; 115; 101; 110; 99; 101; 32; 104; 97; 100; 32; 115; 101; 101; 109; 101; 100; 32; 97; 32;
  98; 108; 101; 115; 115; 105; 110; 103; 32; 116; 111; 32; 116; 104; 101; 109; 44; 32; 98; 117;
  116; 32; 105; 116; 32; 119; 111; 117; 108; 100; 32; 98; 101; 32; 117; 110; 102; 97; 105; 114;
  32; 116; 111; 32; 104; 101; 114; 32; 116; 111; 32; 107; 101; 101; 112; 32; 104; 101; 114; 32;
  105; 110; 32; 112; 111; 118; 101; 114; 116; 121; 32; 97; 110; 100; 32; 119; 97; 110; 116; 32;
  119; 104; 101; 110; 32; 80; 114; 111; 118; 105; 100; 101; 110; 99; 101; 32; 97; 102; 102; 111;
  114; 100; 101; 100; 32; 104; 101; 114; 32; 115; 117; 99; 104; 32; 112; 111; 119; 101; 114; 102;
  117; 108; 32; 112; 114; 111; 116; 101; 99; 116; 105; 111; 110; 46; 32; 84; 104; 101; 121; 32;
  99; 111; 110; 115; 117; 108; 116; 101; 100; 32; 116; 104; 101; 105; 114; 32; 118; 105; 108; 108;
  97; 103; 101; 32; 112; 114; 105; 101; 115; 116; 44; 32; 97; 110; 100; 32; 116; 104; 101; 32;
  114; 101; 115; 117; 108; 116; 32; 119; 97; 115; 32; 116; 104; 97; 116; 32; 69; 108; 105; 122;
  97; 98; 101; 116; 104; 32; 76; 97; 118; 101; 110; 122; 97; 32; 98; 101; 99; 97; 109; 101;
  32; 116; 104; 101; 32; 105; 110; 109; 97; 116; 101; 32; 111; 102; 32; 109; 121; 32; 112; 97;
  114; 101; 110; 116; 115; 226; 128; 153; 32; 104; 111; 117; 115; 101; 226; 128; 148; 109; 121; 32;
  109; 111; 114; 101; 32; 116; 104; 97; 110; 32; 115; 105; 115; 116; 101; 114; 226; 128; 148; 116;
  104; 101; 32; 98; 101; 97; 117; 116; 105; 102; 117; 108; 32; 97; 110; 100; 32; 97; 100; 111;
  114; 101; 100; 32; 99; 111; 109; 112; 97; 110; 105; 111; 110; 32; 111; 102; 32; 97; 108; 108;
  32; 109; 121; 32; 111; 99; 99; 117; 112; 97; 116; 105; 111; 110; 115; 32; 97; 110; 100; 32;
  109; 121; 32; 112; 108; 101; 97; 115; 117; 114; 101; 115; 46; 32; 32; 32; 32; 32; 32; 0 ].

Definition PATTERN_TEXT_COMPRESSED : list Z := [
  2; 187; 67; 43; 113; 3; 107; 201; 0; 25; 152; 93; 26; 25; 92; 136; 28; 128; 202; 232;
  234; 228; 220; 202; 200; 64; 6; 103; 38; 246; 210; 4; 214; 150; 192; 48; 183; 22; 16; 52;
  50; 144; 51; 1; 189; 213; 185; 144; 129; 193; 177; 132; 15; 45; 45; 204; 228; 14; 237; 46;
  128; 104; 32; 109; 101; 32; 105; 110; 32; 80; 43; 41; 3; 67; 11; 99; 96; 136; 27; 217;
  136; 5; 28; 136; 10; 236; 210; 70; 194; 64; 194; 64; 134; 54; 128; 240; 176; 67; 52; 185;
  3; 16; 58; 17; 44; 125; 193; 165; 141; 208; 36; 76; 172; 132; 12; 98; 78; 78; 162; 98;
  226; 128; 148; 42; 99; 114; 11; 43; 11; 163; 171; 147; 40; 208; 90; 27; 200; 28; 217; 89;
  71; 90; 22; 232; 222; 138; 36; 176; 183; 38; 22; 70; 145; 2; 177; 178; 137; 185; 55; 182;
  144; 60; 72; 157; 177; 189; 189; 172; 238; 100; 2; 1; 110; 237; 5; 111; 115; 33; 102; 111;
  114; 109; 57; 3; 8; 168; 19; 123; 160; 218; 91; 219; 156; 198; 129; 148; 66; 216; 210; 206;
  208; 232; 203; 34; 112; 81; 3; 40; 137; 28; 145; 54; 183; 161; 165; 204; 144; 148; 21; 132;
  45; 13; 36; 110; 101; 199; 32; 84; 18; 96; 112; 112; 67; 11; 144; 219; 32; 249; 93; 216;
  86; 28; 219; 219; 219; 132; 64; 202; 240; 224; 46; 210; 220; 179; 130; 226; 5; 118; 144; 84;
  16; 52; 58; 11; 3; 17; 181; 165; 205; 204; 130; 134; 215; 144; 38; 49; 37; 19; 184; 57;
  50; 187; 48; 180; 161; 177; 148; 46; 30; 66; 128; 55; 87; 55; 70; 145; 177; 144; 51; 186;
  192; 39; 68; 65; 97; 36; 129; 228; 109; 44; 173; 140; 134; 66; 81; 48; 57; 34; 114; 103;
  145; 10; 76; 128; 50; 227; 85; 26; 25; 94; 70; 164; 12; 66; 188; 43; 128; 144; 64; 174;
  110; 232; 206; 132; 13; 238; 71; 112; 104; 16; 141; 72; 101; 169; 57; 149; 204; 6; 10; 18;
  12; 44; 136; 183; 17; 133; 149; 25; 137; 179; 73; 205; 164; 101; 134; 77; 228; 0; 172; 173;
  173; 17; 98; 117; 202; 27; 136; 208; 165; 137; 3; 19; 72; 93; 91; 129; 12; 48; 112; 21;
  49; 36; 129; 173; 25; 192; 130; 226; 168; 177; 99; 55; 187; 3; 58; 60; 176; 72; 84; 104;
  67; 42; 11; 122; 100; 10; 10; 75; 40; 100; 101; 110; 99; 33; 51; 11; 50; 243; 147; 33;
  197; 139; 168; 174; 172; 106; 28; 112; 111; 119; 101; 114; 102; 67; 171; 100; 146; 147; 92; 13;
  153; 27; 139; 159; 22; 116; 242; 64; 198; 222; 203; 33; 134; 178; 230; 212; 178; 180; 170; 133;
  16; 194; 206; 187; 59; 96; 135; 55; 78; 68; 244; 139; 4; 16; 156; 221; 76; 216; 232; 134;
  194; 230; 222; 247; 44; 164; 86; 198; 151; 161; 48; 177; 50; 186; 10; 38; 48; 137; 217; 149;
  185; 235; 109; 137; 149; 44; 108; 59; 37; 144; 144; 52; 183; 54; 176; 186; 46; 157; 189; 153;
  136; 133; 193; 133; 70; 205; 206; 142; 124; 80; 19; 47; 144; 233; 115; 101; 226; 128; 68; 163;
  105; 11; 153; 181; 195; 48; 123; 209; 48; 103; 91; 148; 116; 123; 135; 91; 43; 11; 171; 162;
  90; 89; 134; 6; 13; 126; 100; 111; 54; 161; 105; 19; 107; 133; 100; 20; 160; 212; 31; 158;
  168; 1; 111; 99; 99; 117; 146; 157; 60; 60; 45; 211; 51; 18; 80; 160; 58; 117; 114; 210;
  84; 105; 1; 1; 1; 1; 0; 7; 139; 48; 46; 26; 64; 0; 0; 0; 0; 0; 0; 0 ].
