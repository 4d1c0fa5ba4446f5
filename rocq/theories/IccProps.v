(* ICC profiles: what is promised *)
From Verif Require Import Base OMap IccModel IccSpec IccAux IccSafe IccTop.

(** * C28 *)
(* A profile with tags of every kind the transform knows *)
Definition sample_profile : list Z := [0; 0; 0; 0; 0; 0; 0; 0; 0; 0; 0; 0; 0; 0; 0; 0; 0; 0; 0; 0; 0; 0; 0; 0; 0; 0; 0; 0; 0; 0; 0; 0; 0; 0; 0; 0; 97; 99; 115; 112; 65; 80; 80; 76; 0; 0; 0; 0; 0; 0; 0; 0; 0; 0; 0; 0; 0; 0; 0; 0; 0; 0; 0; 0; 0; 0; 0; 0; 0; 0; 0; 0; 0; 0; 0; 0; 0; 0; 0; 0; 0; 0; 0; 0; 0; 0; 0; 0; 0; 0; 0; 0; 0; 0; 0; 0; 0; 0; 0; 0; 0; 0; 0; 0; 0; 0; 0; 0; 0; 0; 0; 0; 0; 0; 0; 0; 0; 0; 0; 0; 0; 0; 0; 0; 0; 0; 0; 0; 0; 0; 0; 9; 100; 101; 115; 99; 0; 0; 0; 240; 0; 0; 0; 30; 114; 88; 89; 90; 0; 0; 1; 14; 0; 0; 0; 20; 103; 88; 89; 90; 0; 0; 1; 34; 0; 0; 0; 20; 98; 88; 89; 90; 0; 0; 1; 54; 0; 0; 0; 20; 114; 84; 82; 67; 0; 0; 1; 74; 0; 0; 0; 40; 103; 84; 82; 67; 0; 0; 1; 74; 0; 0; 0; 40; 98; 84; 82; 67; 0; 0; 1; 74; 0; 0; 0; 40; 65; 50; 66; 48; 0; 0; 1; 114; 0; 0; 0; 128; 103; 97; 109; 116; 0; 0; 1; 242; 0; 0; 0; 20; 109; 108; 117; 99; 0; 0; 0; 0; 0; 1; 2; 3; 4; 5; 6; 7; 8; 9; 10; 11; 12; 13; 14; 15; 16; 17; 18; 19; 20; 21; 88; 89; 90; 32; 0; 0; 0; 0; 0; 2; 3; 4; 5; 6; 7; 8; 9; 10; 11; 12; 88; 89; 90; 32; 0; 0; 0; 0; 1; 2; 3; 4; 5; 6; 7; 8; 9; 10; 11; 12; 88; 89; 90; 32; 0; 0; 0; 0; 2; 2; 3; 4; 5; 6; 7; 8; 9; 10; 11; 12; 99; 117; 114; 118; 0; 0; 0; 0; 0; 16; 0; 7; 14; 21; 28; 35; 42; 49; 56; 63; 70; 77; 84; 91; 98; 105; 112; 119; 126; 133; 140; 147; 154; 161; 168; 175; 182; 189; 196; 203; 109; 65; 66; 32; 0; 0; 0; 0; 3; 2; 0; 0; 0; 0; 0; 0; 0; 0; 0; 0; 0; 0; 0; 0; 0; 0; 0; 28; 4; 3; 3; 0; 0; 0; 0; 0; 0; 0; 0; 0; 0; 0; 0; 0; 1; 0; 0; 0; 0; 1; 4; 9; 16; 25; 36; 49; 64; 81; 100; 121; 144; 169; 196; 225; 5; 38; 73; 110; 149; 190; 233; 27; 74; 123; 174; 227; 31; 88; 147; 208; 20; 85; 152; 221; 41; 114; 189; 15; 94; 175; 7; 92; 179; 17; 108; 201; 45; 142; 241; 91; 194; 48; 155; 13; 124; 237; 101; 218; 86; 207; 79; 204; 80; 209; 89; 222; 106; 243; 131; 21; 164; 58; 205; 103; 3; 156; 60; 217; 103; 98; 100; 32; 0; 0; 0; 0; 0; 1; 2; 3; 4; 5; 6; 7; 8; 9; 10; 11].
(* A profile of which the start of rXYZ is 16 below 2^32, so that the starts of gXYZ and bXYZ wrap *)
Definition wrapping_profile : list Z := [0; 0; 0; 0; 0; 0; 0; 0; 0; 0; 0; 0; 0; 0; 0; 0; 0; 0; 0; 0; 0; 0; 0; 0; 0; 0; 0; 0; 0; 0; 0; 0; 0; 0; 0; 0; 97; 99; 115; 112; 65; 80; 80; 76; 0; 0; 0; 0; 0; 0; 0; 0; 0; 0; 0; 0; 0; 0; 0; 0; 0; 0; 0; 0; 0; 0; 0; 0; 0; 0; 0; 0; 0; 0; 0; 0; 0; 0; 0; 0; 0; 0; 0; 0; 0; 0; 0; 0; 0; 0; 0; 0; 0; 0; 0; 0; 0; 0; 0; 0; 0; 0; 0; 0; 0; 0; 0; 0; 0; 0; 0; 0; 0; 0; 0; 0; 0; 0; 0; 0; 0; 0; 0; 0; 0; 0; 0; 0; 0; 0; 0; 3; 114; 88; 89; 90; 255; 255; 255; 240; 0; 0; 0; 20; 103; 88; 89; 90; 0; 0; 0; 4; 0; 0; 0; 20; 98; 88; 89; 90; 0; 0; 0; 24; 0; 0; 0; 20; 0].
(* A profile with 120 unknown tags *)
Definition tag_profile : list Z := [0; 0; 0; 0; 0; 0; 0; 0; 0; 0; 0; 0; 0; 0; 0; 0; 0; 0; 0; 0; 0; 0; 0; 0; 0; 0; 0; 0; 0; 0; 0; 0; 0; 0; 0; 0; 97; 99; 115; 112; 65; 80; 80; 76; 0; 0; 0; 0; 0; 0; 0; 0; 0; 0; 0; 0; 0; 0; 0; 0; 0; 0; 0; 0; 0; 0; 0; 0; 0; 0; 0; 0; 0; 0; 0; 0; 0; 0; 0; 0; 0; 0; 0; 0; 0; 0; 0; 0; 0; 0; 0; 0; 0; 0; 0; 0; 0; 0; 0; 0; 0; 0; 0; 0; 0; 0; 0; 0; 0; 0; 0; 0; 0; 0; 0; 0; 0; 0; 0; 0; 0; 0; 0; 0; 0; 0; 0; 0; 0; 0; 0; 120; 97; 98; 48; 48; 0; 4; 147; 224; 1; 49; 45; 0; 97; 98; 48; 49; 0; 19; 214; 32; 1; 50; 62; 112; 97; 98; 48; 50; 0; 35; 24; 96; 1; 51; 79; 224; 97; 98; 48; 51; 0; 50; 90; 160; 1; 52; 97; 80; 97; 98; 48; 52; 0; 65; 156; 224; 1; 53; 114; 192; 97; 98; 48; 53; 0; 80; 223; 32; 1; 54; 132; 48; 97; 98; 48; 54; 0; 96; 33; 96; 1; 55; 149; 160; 97; 98; 48; 55; 0; 111; 99; 160; 1; 56; 167; 16; 97; 98; 48; 56; 0; 126; 165; 224; 1; 57; 184; 128; 97; 98; 48; 57; 0; 141; 232; 32; 1; 58; 201; 240; 97; 98; 49; 48; 0; 157; 42; 96; 1; 59; 219; 96; 97; 98; 49; 49; 0; 172; 108; 160; 1; 60; 236; 208; 97; 98; 49; 50; 0; 187; 174; 224; 1; 61; 254; 64; 97; 98; 49; 51; 0; 202; 241; 32; 1; 63; 15; 176; 97; 98; 49; 52; 0; 218; 51; 96; 1; 64; 33; 32; 97; 98; 49; 53; 0; 233; 117; 160; 1; 65; 50; 144; 97; 98; 49; 54; 0; 248; 183; 224; 1; 66; 68; 0; 97; 98; 49; 55; 1; 7; 250; 32; 1; 67; 85; 112; 97; 98; 49; 56; 1; 23; 60; 96; 1; 68; 102; 224; 97; 98; 49; 57; 1; 38; 126; 160; 1; 69; 120; 80; 97; 98; 50; 48; 1; 53; 192; 224; 1; 70; 137; 192; 97; 98; 50; 49; 1; 69; 3; 32; 1; 71; 155; 48; 97; 98; 50; 50; 1; 84; 69; 96; 1; 72; 172; 160; 97; 98; 50; 51; 1; 99; 135; 160; 1; 73; 190; 16; 97; 98; 50; 52; 1; 114; 201; 224; 1; 74; 207; 128; 97; 98; 50; 53; 1; 130; 12; 32; 1; 75; 224; 240; 97; 98; 50; 54; 1; 145; 78; 96; 1; 76; 242; 96; 97; 98; 50; 55; 1; 160; 144; 160; 1; 78; 3; 208; 97; 98; 50; 56; 1; 175; 210; 224; 1; 79; 21; 64; 97; 98; 50; 57; 1; 191; 21; 32; 1; 80; 38; 176; 97; 98; 51; 48; 1; 206; 87; 96; 1; 81; 56; 32; 97; 98; 51; 49; 1; 221; 153; 160; 1; 82; 73; 144; 97; 98; 51; 50; 1; 236; 219; 224; 1; 83; 91; 0; 97; 98; 51; 51; 1; 252; 30; 32; 1; 84; 108; 112; 97; 98; 51; 52; 2; 11; 96; 96; 1; 85; 125; 224; 97; 98; 51; 53; 2; 26; 162; 160; 1; 86; 143; 80; 97; 98; 51; 54; 2; 41; 228; 224; 1; 87; 160; 192; 97; 98; 51; 55; 2; 57; 39; 32; 1; 88; 178; 48; 97; 98; 51; 56; 2; 72; 105; 96; 1; 89; 195; 160; 97; 98; 51; 57; 2; 87; 171; 160; 1; 90; 213; 16; 97; 98; 52; 48; 2; 102; 237; 224; 1; 91; 230; 128; 97; 98; 52; 49; 2; 118; 48; 32; 1; 92; 247; 240; 97; 98; 52; 50; 2; 133; 114; 96; 1; 94; 9; 96; 97; 98; 52; 51; 2; 148; 180; 160; 1; 95; 26; 208; 97; 98; 52; 52; 2; 163; 246; 224; 1; 96; 44; 64; 97; 98; 52; 53; 2; 179; 57; 32; 1; 97; 61; 176; 97; 98; 52; 54; 2; 194; 123; 96; 1; 98; 79; 32; 97; 98; 52; 55; 2; 209; 189; 160; 1; 99; 96; 144; 97; 98; 52; 56; 2; 224; 255; 224; 1; 100; 114; 0; 97; 98; 52; 57; 2; 240; 66; 32; 1; 101; 131; 112; 97; 98; 53; 48; 2; 255; 132; 96; 1; 102; 148; 224; 97; 98; 53; 49; 3; 14; 198; 160; 1; 103; 166; 80; 97; 98; 53; 50; 3; 30; 8; 224; 1; 104; 183; 192; 97; 98; 53; 51; 3; 45; 75; 32; 1; 105; 201; 48; 97; 98; 53; 52; 3; 60; 141; 96; 1; 106; 218; 160; 97; 98; 53; 53; 3; 75; 207; 160; 1; 107; 236; 16; 97; 98; 53; 54; 3; 91; 17; 224; 1; 108; 253; 128; 97; 98; 53; 55; 3; 106; 84; 32; 1; 110; 14; 240; 97; 98; 53; 56; 3; 121; 150; 96; 1; 111; 32; 96; 97; 98; 53; 57; 3; 136; 216; 160; 1; 112; 49; 208; 97; 98; 54; 48; 3; 152; 26; 224; 1; 113; 67; 64; 97; 98; 54; 49; 3; 167; 93; 32; 1; 114; 84; 176; 97; 98; 54; 50; 3; 182; 159; 96; 1; 115; 102; 32; 97; 98; 54; 51; 3; 197; 225; 160; 1; 116; 119; 144; 97; 98; 54; 52; 3; 213; 35; 224; 1; 117; 137; 0; 97; 98; 54; 53; 3; 228; 102; 32; 1; 118; 154; 112; 97; 98; 54; 54; 3; 243; 168; 96; 1; 119; 171; 224; 97; 98; 54; 55; 4; 2; 234; 160; 1; 120; 189; 80; 97; 98; 54; 56; 4; 18; 44; 224; 1; 121; 206; 192; 97; 98; 54; 57; 4; 33; 111; 32; 1; 122; 224; 48; 97; 98; 55; 48; 4; 48; 177; 96; 1; 123; 241; 160; 97; 98; 55; 49; 4; 63; 243; 160; 1; 125; 3; 16; 97; 98; 55; 50; 4; 79; 53; 224; 1; 126; 20; 128; 97; 98; 55; 51; 4; 94; 120; 32; 1; 127; 37; 240; 97; 98; 55; 52; 4; 109; 186; 96; 1; 128; 55; 96; 97; 98; 55; 53; 4; 124; 252; 160; 1; 129; 72; 208; 97; 98; 55; 54; 4; 140; 62; 224; 1; 130; 90; 64; 97; 98; 55; 55; 4; 155; 129; 32; 1; 131; 107; 176; 97; 98; 55; 56; 4; 170; 195; 96; 1; 132; 125; 32; 97; 98; 55; 57; 4; 186; 5; 160; 1; 133; 142; 144; 97; 98; 56; 48; 4; 201; 71; 224; 1; 134; 160; 0; 97; 98; 56; 49; 4; 216; 138; 32; 1; 135; 177; 112; 97; 98; 56; 50; 4; 231; 204; 96; 1; 136; 194; 224; 97; 98; 56; 51; 4; 247; 14; 160; 1; 137; 212; 80; 97; 98; 56; 52; 5; 6; 80; 224; 1; 138; 229; 192; 97; 98; 56; 53; 5; 21; 147; 32; 1; 139; 247; 48; 97; 98; 56; 54; 5; 36; 213; 96; 1; 141; 8; 160; 97; 98; 56; 55; 5; 52; 23; 160; 1; 142; 26; 16; 97; 98; 56; 56; 5; 67; 89; 224; 1; 143; 43; 128; 97; 98; 56; 57; 5; 82; 156; 32; 1; 144; 60; 240; 97; 98; 57; 48; 5; 97; 222; 96; 1; 145; 78; 96; 97; 98; 57; 49; 5; 113; 32; 160; 1; 146; 95; 208; 97; 98; 57; 50; 5; 128; 98; 224; 1; 147; 113; 64; 97; 98; 57; 51; 5; 143; 165; 32; 1; 148; 130; 176; 97; 98; 57; 52; 5; 158; 231; 96; 1; 149; 148; 32; 97; 98; 57; 53; 5; 174; 41; 160; 1; 150; 165; 144; 97; 98; 57; 54; 5; 189; 107; 224; 1; 151; 183; 0; 97; 98; 57; 55; 5; 204; 174; 32; 1; 152; 200; 112; 97; 98; 57; 56; 5; 219; 240; 96; 1; 153; 217; 224; 97; 98; 57; 57; 5; 235; 50; 160; 1; 154; 235; 80; 97; 98; 49; 48; 48; 5; 250; 116; 224; 1; 155; 252; 192; 97; 98; 49; 48; 49; 6; 9; 183; 32; 1; 157; 14; 48; 97; 98; 49; 48; 50; 6; 24; 249; 96; 1; 158; 31; 160; 97; 98; 49; 48; 51; 6; 40; 59; 160; 1; 159; 49; 16; 97; 98; 49; 48; 52; 6; 55; 125; 224; 1; 160; 66; 128; 97; 98; 49; 48; 53; 6; 70; 192; 32; 1; 161; 83; 240; 97; 98; 49; 48; 54; 6; 86; 2; 96; 1; 162; 101; 96; 97; 98; 49; 48; 55; 6; 101; 68; 160; 1; 163; 118; 208; 97; 98; 49; 48; 56; 6; 116; 134; 224; 1; 164; 136; 64; 97; 98; 49; 48; 57; 6; 131; 201; 32; 1; 165; 153; 176; 97; 98; 49; 49; 48; 6; 147; 11; 96; 1; 166; 171; 32; 97; 98; 49; 49; 49; 6; 162; 77; 160; 1; 167; 188; 144; 97; 98; 49; 49; 50; 6; 177; 143; 224; 1; 168; 206; 0; 97; 98; 49; 49; 51; 6; 192; 210; 32; 1; 169; 223; 112; 97; 98; 49; 49; 52; 6; 208; 20; 96; 1; 170; 240; 224; 97; 98; 49; 49; 53; 6; 223; 86; 160; 1; 172; 2; 80; 97; 98; 49; 49; 54; 6; 238; 152; 224; 1; 173; 19; 192; 97; 98; 49; 49; 55; 6; 253; 219; 32; 1; 174; 37; 48; 97; 98; 49; 49; 56; 7; 13; 29; 96; 1; 175; 54; 160; 97; 98; 49; 49; 57; 7; 28; 95; 160; 1; 176; 72; 16].

(* Every byte string up to the limit is accepted, and the decoder's transform gives it back byte for byte, whatever the
   uninitialized tag the encoder begins with holds. The only exception are byte strings with "rXYZ" followed by a number
   above 2^32 - 41: see C28_wrap_refuted. *)
Theorem C28_profile_back : forall tag0 icc, bytes_ok icc -> zlen icc <= (2 ^ 32 - 1) / 4 -> (forall p v, rXYZ_at icc p v -> v + 40 < 2 ^ 32) ->
  exists enc, predict tag0 icc = Ok enc /\ unpredict enc = Ok icc.
Proof. exact profile_back. Qed.
Print Assumptions C28_profile_back.
Example C28_sample : bytes_ok sample_profile /\ zlen sample_profile <= (2 ^ 32 - 1) / 4 /\ (forall p v, rXYZ_at sample_profile p v -> v + 40 < 2 ^ 32) /\ exists p v, rXYZ_at sample_profile p v.
Proof.
  split; [apply bytes_okb_spec; vm_compute; reflexivity|]. split; [vm_compute; discriminate|]. split; [apply no_wrapb_spec; vm_compute; reflexivity|].
  exists 144. eexists. exists (firstn 144 sample_profile). do 5 eexists. split; [|split; reflexivity]. vm_compute. reflexivity.
Qed.
(* the transform changes it *)
Example C28_sample_encoded : exists enc, predict [] sample_profile = Ok enc /\ zlen enc < zlen sample_profile /\ init_reader enc = Ok tt.
Proof. destruct (predict [] sample_profile) as [enc| | |] eqn:E; [|vm_compute in E; discriminate E..]. exists enc. split; [reflexivity|]. vm_compute in E. injection E as <-. split; vm_compute; reflexivity. Qed.

(* and what the encoder produces from it determines the profile *)
Theorem C28_profiles_differ : forall tag0 tag1 icc1 icc2 enc, bytes_ok icc1 -> bytes_ok icc2 -> (forall p v, rXYZ_at icc1 p v -> v + 40 < 2 ^ 32) -> (forall p v, rXYZ_at icc2 p v -> v + 40 < 2 ^ 32) ->
  predict tag0 icc1 = Ok enc -> predict tag1 icc2 = Ok enc -> icc1 = icc2.
Proof. exact profiles_differ. Qed.
Print Assumptions C28_profiles_differ.

(* What the decoder checks before it reads the profile lets all short profiles pass *)
Theorem C28_short_profiles_read : forall tag0 icc enc, bytes_ok icc -> zlen icc <= 464 -> (forall p v, rXYZ_at icc p v -> v + 40 < 2 ^ 32) -> predict tag0 icc = Ok enc -> init_reader enc = Ok tt.
Proof. exact short_profiles. Qed.
Print Assumptions C28_short_profiles_read.

(* The encoder accepts a profile that its own decoder refuses *)
Theorem C28_wrap_refuted : exists tag0 icc enc, bytes_ok icc /\ predict tag0 icc = Ok enc /\ unpredict enc = Fail.
Proof.
  exists [], wrapping_profile. destruct (predict [] wrapping_profile) as [enc| | |] eqn:E; [exists enc; split; [apply bytes_okb_spec; vm_compute; reflexivity|]; split; [reflexivity|]|vm_compute in E; discriminate E..].
  vm_compute in E. injection E as <-. vm_compute. reflexivity.
Qed.
Print Assumptions C28_wrap_refuted.

(* The decoder refuses the beginning of an encoded profile that UnpredictICC would decode *)
Theorem C28_long_commands_refuted : exists tag0 icc enc, bytes_ok icc /\ predict tag0 icc = Ok enc /\ unpredict enc = Ok icc /\ init_reader enc = Fail.
Proof.
  exists [], tag_profile. destruct (predict [] tag_profile) as [enc| | |] eqn:E; [exists enc; split; [apply bytes_okb_spec; vm_compute; reflexivity|]; split; [reflexivity|]|vm_compute in E; discriminate E..].
  vm_compute in E. injection E as <-. split; vm_compute; reflexivity.
Qed.
Print Assumptions C28_long_commands_refuted.

(** * C29 *)
(* No input makes the decoder read outside its data or run forever *)
Theorem C29_total : forall enc, bytes_ok enc -> zlen enc < 2 ^ 63 -> (exists icc, unpredict enc = Ok icc) \/ unpredict enc = Fail.
Proof. exact unpredict_total. Qed.
Print Assumptions C29_total.

(* The input begins with the number of bytes of the profile *)
Theorem C29_announced_size : forall enc icc, bytes_ok enc -> zlen enc < 2 ^ 63 -> unpredict enc = Ok icc -> exists size rest, enc = size ++ rest /\ varint size (zlen icc).
Proof. exact unpredict_size. Qed.
Print Assumptions C29_announced_size.
(* a profile of three bytes; the same data cut off *)
Example C29_cases : unpredict [3; 0; 1; 2; 7] = Ok [1; 2; 7] /\ unpredict [3; 0; 1; 2] = Fail.
Proof. vm_compute. split; reflexivity. Qed.

(* and the profile consists of bytes *)
Theorem C29_bytes : forall enc icc, bytes_ok enc -> zlen enc < 2 ^ 63 -> unpredict enc = Ok icc -> bytes_ok icc.
Proof. exact unpredict_bytes. Qed.
Print Assumptions C29_bytes.
