(** The two files with which the terminal's RAM is initialised by default, byte by byte. *)
From Coq Require Import ZArith List.
Import ListNotations.
Open Scope Z_scope.

(** /repo/litevideo/terminal/screen-init.bin, 4800 bytes (named in /repo/litevideo/terminal/core.py:59). *)
Definition screen_init_bin : list Z :=
  [201; 15; 205; 15; 205; 15; 205; 15; 205; 15; 205; 15; 205; 15; 205; 15; 205; 15; 205; 15; 205; 15; 205; 15; 205; 15; 205; 15; 205; 15; 205; 15;
   205; 15; 205; 15; 205; 15; 205; 15; 205; 15; 205; 15; 205; 15; 205; 15; 205; 15; 205; 15; 205; 15; 205; 15; 205; 15; 205; 15; 205; 15; 205; 15;
   205; 15; 205; 15; 205; 15; 205; 15; 205; 15; 205; 15; 205; 15; 205; 15; 205; 15; 205; 15; 205; 15; 205; 15; 205; 15; 205; 15; 205; 15; 205; 15;
   205; 15; 205; 15; 205; 15; 205; 15; 205; 15; 205; 15; 205; 15; 205; 15; 205; 15; 205; 15; 205; 15; 205; 15; 205; 15; 205; 15; 205; 15; 205; 15;
   205; 15; 205; 15; 205; 15; 205; 15; 205; 15; 205; 15; 205; 15; 205; 15; 205; 15; 205; 15; 205; 15; 205; 15; 205; 15; 205; 15; 205; 15; 187; 15;
   186; 15; 32; 0; 32; 0; 32; 0; 32; 0; 32; 0; 32; 0; 32; 0; 32; 0; 32; 0; 32; 0; 32; 0; 32; 0; 32; 0; 32; 0; 32; 0;
   32; 0; 32; 0; 32; 0; 32; 0; 32; 0; 32; 0; 32; 0; 32; 0; 32; 0; 32; 0; 32; 0; 32; 0; 32; 0; 32; 0; 32; 0; 32; 0;
   32; 0; 32; 0; 32; 0; 32; 0; 32; 0; 32; 0; 32; 0; 32; 0; 32; 0; 32; 0; 32; 0; 32; 0; 32; 0; 32; 0; 32; 0; 32; 0;
   32; 0; 32; 0; 32; 0; 32; 0; 32; 0; 32; 0; 32; 0; 32; 0; 32; 0; 32; 0; 32; 0; 32; 0; 32; 0; 32; 0; 32; 0; 32; 0;
   32; 0; 32; 0; 32; 0; 32; 0; 32; 0; 32; 0; 32; 0; 32; 0; 32; 0; 32; 0; 32; 0; 32; 0; 32; 0; 32; 0; 32; 0; 186; 15;
   186; 15; 32; 0; 32; 0; 32; 0; 32; 0; 32; 0; 32; 0; 32; 0; 32; 0; 32; 0; 32; 0; 32; 0; 32; 0; 32; 0; 32; 0; 32; 0;
   32; 0; 32; 0; 32; 0; 32; 0; 32; 0; 32; 0; 32; 0; 32; 0; 32; 0; 32; 0; 32; 0; 32; 0; 32; 0; 32; 0; 32; 0; 32; 0;
   32; 0; 32; 0; 32; 0; 32; 0; 32; 0; 32; 0; 32; 0; 32; 0; 32; 0; 32; 0; 32; 0; 32; 0; 32; 0; 32; 0; 32; 0; 32; 0;
   32; 0; 32; 0; 32; 0; 32; 0; 32; 0; 32; 0; 32; 0; 32; 0; 32; 0; 32; 0; 32; 0; 32; 0; 32; 0; 32; 0; 32; 0; 32; 0;
   32; 0; 32; 0; 32; 0; 32; 0; 32; 0; 32; 0; 32; 0; 32; 0; 32; 0; 32; 0; 32; 0; 32; 0; 32; 0; 32; 0; 32; 0; 186; 15;
   186; 15; 32; 0; 32; 0; 32; 0; 32; 0; 32; 0; 32; 0; 32; 0; 32; 0; 32; 0; 32; 0; 32; 0; 32; 0; 32; 0; 32; 0; 32; 0;
   32; 0; 32; 0; 32; 0; 32; 0; 32; 0; 32; 0; 32; 0; 32; 0; 32; 0; 32; 0; 32; 0; 32; 0; 32; 0; 32; 0; 32; 0; 32; 0;
   32; 0; 32; 0; 32; 0; 32; 0; 32; 0; 32; 0; 32; 0; 0; 2; 0; 2; 1; 2; 2; 2; 3; 2; 4; 2; 5; 2; 6; 2; 7; 2;
   8; 2; 9; 2; 10; 2; 11; 2; 12; 2; 13; 2; 14; 2; 15; 2; 16; 2; 17; 2; 18; 2; 19; 2; 20; 2; 21; 2; 22; 2; 23; 2;
   24; 2; 25; 2; 26; 2; 27; 2; 28; 2; 29; 2; 30; 2; 31; 2; 32; 2; 32; 0; 32; 0; 32; 0; 32; 0; 32; 0; 32; 0; 186; 15;
   186; 15; 32; 0; 32; 0; 32; 0; 32; 64; 32; 32; 32; 96; 32; 16; 32; 80; 32; 48; 32; 112; 32; 128; 32; 192; 32; 160; 32; 224; 32; 144;
   32; 208; 32; 176; 32; 240; 32; 0; 32; 0; 32; 0; 32; 0; 32; 0; 32; 0; 32; 0; 32; 0; 32; 0; 32; 0; 32; 0; 32; 0; 32; 0;
   32; 0; 32; 0; 32; 0; 32; 0; 32; 0; 32; 0; 32; 0; 32; 0; 33; 2; 34; 2; 35; 2; 36; 2; 37; 2; 38; 2; 39; 2; 40; 2;
   41; 2; 42; 2; 43; 2; 44; 2; 45; 2; 46; 2; 47; 2; 48; 2; 49; 2; 50; 2; 51; 2; 52; 2; 53; 2; 54; 2; 55; 2; 56; 2;
   57; 2; 58; 2; 59; 2; 60; 2; 61; 2; 62; 2; 63; 2; 64; 2; 65; 2; 32; 0; 32; 0; 32; 0; 32; 0; 32; 0; 32; 0; 186; 15;
   186; 15; 32; 0; 32; 0; 32; 0; 32; 64; 32; 32; 32; 96; 32; 16; 32; 80; 32; 48; 32; 112; 32; 128; 32; 192; 32; 160; 32; 224; 32; 144;
   32; 208; 32; 176; 32; 240; 32; 0; 32; 0; 32; 0; 32; 0; 32; 0; 32; 0; 32; 0; 32; 0; 32; 0; 32; 0; 32; 0; 32; 0; 32; 0;
   32; 0; 32; 0; 32; 0; 32; 0; 32; 0; 32; 0; 32; 0; 32; 0; 66; 2; 67; 2; 68; 2; 69; 2; 70; 2; 71; 2; 72; 2; 73; 2;
   74; 2; 75; 2; 76; 2; 77; 2; 78; 2; 79; 2; 80; 2; 81; 2; 82; 2; 83; 2; 84; 2; 85; 2; 86; 2; 87; 2; 88; 2; 89; 2;
   90; 2; 91; 2; 92; 2; 93; 2; 94; 2; 95; 2; 96; 2; 97; 2; 98; 2; 32; 0; 32; 0; 32; 0; 32; 0; 32; 0; 32; 0; 186; 15;
   186; 15; 32; 0; 32; 0; 32; 0; 32; 64; 32; 32; 32; 96; 32; 16; 32; 80; 32; 48; 32; 112; 32; 128; 32; 192; 32; 160; 32; 224; 32; 144;
   32; 208; 32; 176; 32; 240; 32; 0; 32; 0; 32; 0; 32; 0; 32; 0; 32; 0; 32; 0; 32; 0; 32; 0; 32; 0; 32; 0; 32; 0; 32; 0;
   32; 0; 32; 0; 32; 0; 32; 0; 32; 0; 32; 0; 32; 0; 32; 0; 99; 2; 100; 2; 101; 2; 102; 2; 103; 2; 104; 2; 105; 2; 106; 2;
   107; 2; 108; 2; 109; 2; 110; 2; 111; 2; 112; 2; 113; 2; 114; 2; 115; 2; 116; 2; 117; 2; 118; 2; 119; 2; 120; 2; 121; 2; 122; 2;
   123; 2; 124; 2; 125; 2; 126; 2; 127; 2; 128; 2; 129; 2; 130; 2; 131; 2; 32; 0; 32; 0; 32; 0; 32; 0; 32; 0; 32; 0; 186; 15;
   186; 15; 32; 0; 32; 0; 32; 0; 32; 64; 32; 32; 32; 96; 32; 16; 32; 80; 32; 48; 32; 112; 32; 128; 32; 192; 32; 160; 32; 224; 32; 144;
   32; 208; 32; 176; 32; 240; 32; 0; 32; 0; 32; 0; 32; 0; 32; 0; 32; 0; 32; 0; 32; 0; 32; 0; 32; 0; 32; 0; 32; 0; 32; 0;
   32; 0; 32; 0; 32; 0; 32; 0; 32; 0; 32; 0; 32; 0; 32; 0; 132; 2; 133; 2; 134; 2; 135; 2; 136; 2; 137; 2; 138; 2; 139; 2;
   140; 2; 141; 2; 142; 2; 143; 2; 144; 2; 145; 2; 146; 2; 147; 2; 148; 2; 149; 2; 150; 2; 151; 2; 152; 2; 153; 2; 154; 2; 155; 2;
   156; 2; 157; 2; 158; 2; 159; 2; 160; 2; 161; 2; 162; 2; 163; 2; 164; 2; 32; 0; 32; 0; 32; 0; 32; 0; 32; 0; 32; 0; 186; 15;
   186; 15; 32; 0; 32; 0; 32; 0; 32; 64; 32; 32; 32; 96; 32; 16; 32; 80; 32; 48; 32; 112; 32; 128; 32; 192; 32; 160; 32; 224; 32; 144;
   32; 208; 32; 176; 32; 240; 32; 0; 32; 0; 32; 0; 32; 0; 32; 0; 32; 0; 32; 0; 32; 0; 32; 0; 32; 0; 32; 0; 32; 0; 32; 0;
   32; 0; 32; 0; 32; 0; 32; 0; 32; 0; 32; 0; 32; 0; 32; 0; 165; 2; 166; 2; 167; 2; 168; 2; 169; 2; 170; 2; 171; 2; 172; 2;
   173; 2; 174; 2; 175; 2; 176; 2; 177; 2; 178; 2; 179; 2; 180; 2; 181; 2; 182; 2; 183; 2; 184; 2; 185; 2; 186; 2; 187; 2; 188; 2;
   189; 2; 190; 2; 191; 2; 192; 2; 193; 2; 194; 2; 195; 2; 196; 2; 197; 2; 32; 0; 32; 0; 32; 0; 32; 0; 32; 0; 32; 0; 186; 15;
   186; 15; 32; 0; 32; 0; 32; 0; 32; 64; 32; 32; 32; 96; 32; 16; 32; 80; 32; 48; 32; 112; 32; 128; 32; 192; 0; 160; 0; 224; 0; 144;
   0; 208; 0; 176; 0; 240; 0; 0; 0; 0; 32; 0; 32; 0; 32; 0; 32; 0; 32; 0; 32; 0; 32; 0; 32; 0; 32; 0; 32; 0; 32; 0;
   32; 0; 32; 0; 32; 0; 32; 0; 32; 0; 32; 0; 32; 0; 32; 0; 198; 2; 199; 2; 200; 2; 201; 2; 202; 2; 203; 2; 204; 2; 205; 2;
   206; 2; 207; 2; 208; 2; 209; 2; 210; 2; 211; 2; 212; 2; 213; 2; 214; 2; 215; 2; 216; 2; 217; 2; 218; 2; 219; 2; 220; 2; 221; 2;
   222; 2; 223; 2; 224; 2; 225; 2; 226; 2; 227; 2; 228; 2; 229; 2; 230; 2; 32; 0; 32; 0; 32; 0; 32; 0; 32; 0; 32; 0; 186; 15;
   186; 15; 32; 0; 32; 0; 32; 0; 32; 64; 32; 32; 32; 96; 32; 16; 32; 80; 32; 48; 32; 112; 32; 128; 32; 192; 0; 160; 0; 224; 0; 144;
   0; 208; 0; 176; 0; 240; 0; 0; 0; 0; 32; 0; 32; 0; 32; 0; 32; 0; 32; 0; 32; 0; 32; 0; 32; 0; 32; 0; 32; 0; 32; 0;
   32; 0; 32; 0; 32; 0; 32; 0; 32; 0; 32; 0; 32; 0; 32; 0; 231; 2; 232; 2; 233; 2; 234; 2; 235; 2; 236; 2; 237; 2; 238; 2;
   239; 2; 240; 2; 241; 2; 242; 2; 243; 2; 244; 2; 245; 2; 246; 2; 247; 2; 248; 2; 249; 2; 250; 2; 251; 2; 252; 2; 253; 2; 254; 2;
   255; 2; 32; 0; 32; 0; 32; 0; 32; 0; 32; 0; 32; 0; 32; 0; 32; 0; 32; 0; 32; 0; 32; 0; 32; 0; 32; 0; 32; 0; 186; 15;
   186; 15; 32; 0; 32; 0; 32; 0; 32; 64; 32; 32; 32; 96; 32; 16; 32; 80; 32; 48; 32; 112; 32; 128; 32; 192; 32; 160; 32; 224; 32; 144;
   32; 208; 32; 176; 32; 240; 32; 0; 32; 0; 32; 0; 32; 0; 32; 0; 32; 0; 32; 0; 32; 0; 32; 0; 32; 0; 32; 0; 32; 0; 32; 0;
   32; 0; 32; 0; 32; 0; 32; 0; 32; 0; 32; 0; 32; 0; 32; 0; 32; 0; 32; 0; 32; 0; 32; 0; 32; 0; 32; 0; 32; 0; 32; 0;
   32; 0; 32; 0; 32; 0; 32; 0; 32; 0; 32; 0; 32; 0; 32; 0; 32; 0; 32; 0; 32; 0; 32; 0; 32; 0; 32; 0; 32; 0; 32; 0;
   32; 0; 32; 0; 32; 0; 32; 0; 32; 0; 32; 0; 32; 0; 32; 0; 32; 0; 32; 0; 32; 0; 32; 0; 32; 0; 32; 0; 32; 0; 186; 15;
   186; 15; 32; 0; 32; 0; 32; 0; 32; 0; 32; 0; 32; 0; 32; 0; 32; 0; 32; 0; 32; 0; 32; 0; 32; 0; 32; 0; 32; 0; 32; 0;
   32; 0; 32; 0; 32; 0; 32; 0; 32; 0; 32; 0; 32; 0; 32; 0; 32; 0; 32; 0; 32; 0; 32; 0; 32; 0; 32; 0; 32; 0; 32; 0;
   32; 0; 32; 0; 32; 0; 32; 0; 32; 0; 32; 0; 32; 0; 32; 0; 32; 0; 32; 0; 32; 0; 32; 0; 32; 0; 32; 0; 32; 0; 32; 0;
   32; 0; 32; 0; 32; 0; 32; 0; 32; 0; 32; 0; 32; 0; 32; 0; 32; 0; 32; 0; 32; 0; 32; 0; 32; 0; 32; 0; 32; 0; 32; 0;
   32; 0; 32; 0; 32; 0; 32; 0; 32; 0; 32; 0; 32; 0; 32; 0; 32; 0; 32; 0; 32; 0; 32; 0; 32; 0; 32; 0; 32; 0; 186; 15;
   186; 15; 32; 0; 32; 0; 32; 0; 32; 0; 32; 0; 32; 0; 32; 0; 32; 0; 32; 0; 65; 14; 65; 78; 65; 46; 65; 110; 65; 30; 65; 94;
   65; 62; 65; 126; 32; 0; 32; 0; 32; 0; 32; 0; 32; 0; 32; 0; 32; 0; 32; 0; 32; 0; 32; 0; 32; 0; 32; 0; 32; 0; 32; 0;
   32; 0; 32; 0; 32; 0; 32; 0; 32; 0; 32; 0; 32; 0; 32; 0; 32; 0; 32; 0; 32; 0; 32; 0; 32; 0; 32; 0; 32; 0; 32; 0;
   32; 0; 32; 0; 32; 0; 32; 0; 32; 0; 32; 0; 32; 0; 32; 0; 32; 0; 32; 0; 32; 0; 32; 0; 32; 0; 32; 0; 32; 0; 32; 0;
   32; 0; 32; 0; 32; 0; 32; 0; 32; 0; 32; 0; 32; 0; 32; 0; 32; 0; 32; 0; 32; 0; 32; 0; 32; 0; 32; 0; 32; 0; 186; 15;
   186; 15; 32; 0; 32; 0; 32; 0; 32; 0; 32; 0; 32; 0; 32; 0; 32; 0; 32; 0; 65; 142; 65; 206; 65; 174; 65; 238; 65; 158; 65; 222;
   65; 190; 65; 254; 32; 0; 32; 0; 32; 0; 32; 0; 32; 0; 32; 0; 32; 0; 32; 0; 32; 0; 32; 0; 32; 0; 32; 0; 32; 0; 32; 0;
   32; 0; 32; 0; 32; 0; 32; 0; 32; 0; 32; 0; 32; 0; 32; 0; 32; 0; 32; 0; 32; 0; 32; 0; 32; 0; 32; 0; 32; 0; 32; 0;
   32; 0; 32; 0; 32; 0; 32; 0; 32; 0; 32; 0; 32; 0; 32; 0; 32; 0; 32; 0; 32; 0; 32; 0; 32; 0; 32; 0; 32; 0; 32; 0;
   32; 0; 32; 0; 32; 0; 32; 0; 32; 0; 32; 0; 32; 0; 32; 0; 32; 0; 32; 0; 32; 0; 32; 0; 32; 0; 32; 0; 32; 0; 186; 15;
   186; 15; 32; 0; 32; 0; 32; 0; 32; 0; 32; 0; 32; 0; 32; 0; 32; 0; 32; 0; 32; 0; 32; 0; 32; 0; 32; 0; 32; 0; 32; 0;
   32; 0; 32; 0; 32; 0; 32; 0; 32; 0; 32; 0; 32; 0; 32; 0; 32; 0; 32; 0; 32; 0; 32; 0; 32; 0; 32; 0; 32; 0; 32; 0;
   32; 0; 32; 0; 32; 0; 32; 0; 32; 0; 32; 0; 32; 0; 32; 0; 32; 0; 32; 0; 32; 0; 32; 0; 32; 0; 32; 0; 32; 0; 32; 0;
   32; 0; 32; 0; 32; 0; 32; 0; 32; 0; 32; 0; 32; 0; 32; 0; 32; 0; 32; 0; 32; 0; 32; 0; 32; 0; 32; 0; 32; 0; 32; 0;
   32; 0; 32; 0; 32; 0; 32; 0; 32; 0; 32; 0; 32; 0; 32; 0; 32; 0; 32; 0; 32; 0; 32; 0; 32; 0; 32; 0; 32; 0; 186; 15;
   186; 15; 32; 0; 32; 0; 32; 0; 32; 0; 32; 0; 32; 0; 32; 0; 32; 0; 32; 0; 32; 0; 32; 0; 32; 0; 32; 0; 32; 0; 32; 0;
   32; 0; 32; 0; 32; 0; 32; 0; 32; 0; 32; 0; 32; 0; 32; 0; 32; 0; 32; 0; 32; 0; 32; 0; 32; 0; 32; 0; 32; 0; 32; 0;
   32; 0; 32; 0; 32; 0; 32; 0; 32; 0; 32; 0; 32; 0; 32; 0; 32; 0; 32; 0; 32; 0; 32; 0; 32; 0; 32; 0; 32; 0; 32; 0;
   32; 0; 32; 0; 32; 0; 32; 0; 32; 0; 32; 0; 32; 0; 32; 0; 32; 0; 32; 0; 32; 0; 32; 0; 32; 0; 32; 0; 32; 0; 32; 0;
   32; 0; 32; 0; 32; 0; 32; 0; 32; 0; 32; 0; 32; 0; 32; 0; 32; 0; 32; 0; 32; 0; 32; 0; 32; 0; 32; 0; 32; 0; 186; 15;
   186; 15; 32; 0; 32; 0; 32; 0; 32; 0; 32; 0; 32; 0; 32; 0; 32; 0; 32; 0; 65; 0; 65; 4; 65; 2; 65; 6; 65; 1; 65; 5;
   65; 3; 65; 7; 32; 0; 32; 0; 32; 0; 32; 0; 32; 0; 32; 0; 32; 0; 32; 0; 32; 0; 32; 0; 32; 0; 32; 0; 32; 0; 32; 0;
   32; 0; 32; 0; 32; 0; 32; 0; 32; 0; 32; 0; 32; 0; 32; 0; 32; 0; 32; 0; 32; 0; 32; 0; 32; 0; 32; 0; 32; 0; 32; 0;
   32; 0; 32; 0; 32; 0; 32; 0; 32; 0; 32; 0; 32; 0; 32; 0; 32; 0; 32; 0; 32; 0; 32; 0; 32; 0; 32; 0; 32; 0; 32; 0;
   32; 0; 32; 0; 32; 0; 32; 0; 32; 0; 32; 0; 32; 0; 32; 0; 32; 0; 32; 0; 32; 0; 32; 0; 32; 0; 32; 0; 32; 0; 186; 15;
   186; 15; 32; 0; 32; 0; 32; 0; 32; 0; 32; 0; 32; 0; 32; 0; 32; 0; 32; 0; 65; 8; 65; 12; 65; 10; 65; 14; 65; 9; 65; 13;
   65; 11; 65; 15; 32; 0; 32; 0; 32; 0; 32; 0; 32; 0; 32; 0; 32; 0; 32; 0; 32; 0; 32; 0; 32; 0; 32; 0; 32; 0; 32; 0;
   32; 0; 32; 0; 32; 0; 32; 0; 32; 0; 32; 0; 32; 0; 32; 0; 32; 0; 32; 0; 32; 0; 32; 0; 32; 0; 32; 0; 32; 0; 32; 0;
   32; 0; 32; 0; 32; 0; 32; 0; 32; 0; 32; 0; 32; 0; 32; 0; 32; 0; 32; 0; 32; 0; 32; 0; 32; 0; 32; 0; 32; 0; 32; 0;
   32; 0; 32; 0; 32; 0; 32; 0; 32; 0; 32; 0; 32; 0; 32; 0; 32; 0; 32; 0; 32; 0; 32; 0; 32; 0; 32; 0; 32; 0; 186; 15;
   186; 15; 32; 0; 32; 0; 32; 0; 32; 0; 32; 0; 32; 0; 32; 0; 32; 0; 32; 0; 32; 0; 32; 0; 32; 0; 32; 0; 32; 0; 32; 0;
   32; 0; 32; 0; 32; 0; 32; 0; 32; 0; 32; 0; 32; 0; 32; 0; 32; 0; 32; 0; 32; 0; 32; 0; 32; 0; 32; 0; 32; 0; 32; 0;
   32; 0; 32; 0; 32; 0; 32; 0; 32; 0; 32; 0; 32; 0; 32; 0; 32; 0; 32; 0; 32; 0; 32; 0; 32; 0; 32; 0; 32; 0; 32; 0;
   32; 0; 32; 0; 32; 0; 32; 0; 32; 0; 32; 0; 32; 0; 32; 0; 32; 0; 32; 0; 32; 0; 32; 0; 32; 0; 32; 0; 32; 0; 32; 0;
   32; 0; 32; 0; 32; 0; 32; 0; 32; 0; 32; 0; 32; 0; 32; 0; 32; 0; 32; 0; 32; 0; 32; 0; 32; 0; 32; 0; 32; 0; 186; 15;
   186; 15; 32; 0; 32; 0; 32; 0; 32; 0; 32; 0; 32; 0; 32; 0; 32; 0; 32; 0; 32; 0; 32; 0; 32; 0; 32; 0; 32; 0; 32; 0;
   32; 0; 32; 0; 32; 0; 32; 0; 32; 0; 32; 0; 32; 0; 32; 0; 32; 0; 32; 0; 32; 0; 32; 0; 32; 0; 32; 0; 32; 0; 32; 0;
   32; 0; 32; 0; 32; 0; 32; 0; 32; 0; 32; 0; 32; 0; 32; 0; 32; 0; 32; 0; 32; 0; 32; 0; 32; 0; 32; 0; 32; 0; 32; 0;
   32; 0; 32; 0; 32; 0; 32; 0; 32; 0; 32; 0; 32; 0; 32; 0; 32; 0; 32; 0; 32; 0; 32; 0; 32; 0; 32; 0; 32; 0; 32; 0;
   32; 0; 32; 0; 32; 0; 32; 0; 32; 0; 32; 0; 32; 0; 32; 0; 32; 0; 32; 0; 32; 0; 32; 0; 32; 0; 32; 0; 32; 0; 186; 15;
   186; 15; 32; 0; 32; 0; 32; 0; 32; 0; 32; 0; 32; 0; 32; 0; 32; 0; 32; 0; 32; 0; 32; 0; 32; 0; 32; 0; 32; 0; 32; 0;
   32; 0; 32; 0; 32; 0; 32; 0; 32; 0; 32; 0; 32; 0; 32; 0; 32; 0; 32; 0; 0; 2; 0; 2; 0; 2; 0; 2; 32; 0; 32; 0;
   32; 0; 32; 0; 32; 0; 32; 0; 32; 0; 32; 0; 32; 0; 32; 0; 32; 0; 32; 0; 32; 0; 32; 0; 32; 0; 32; 0; 32; 0; 32; 0;
   32; 0; 32; 0; 32; 0; 32; 0; 32; 0; 32; 0; 32; 0; 32; 0; 32; 0; 32; 0; 32; 0; 32; 0; 32; 0; 32; 0; 32; 0; 32; 0;
   32; 0; 32; 0; 32; 0; 32; 0; 32; 0; 32; 0; 32; 0; 32; 0; 32; 0; 32; 0; 32; 0; 32; 0; 32; 0; 32; 0; 32; 0; 186; 15;
   186; 15; 32; 0; 32; 0; 32; 0; 32; 0; 32; 0; 32; 0; 32; 0; 32; 0; 32; 0; 32; 0; 32; 0; 32; 0; 32; 0; 32; 0; 32; 0;
   32; 0; 32; 0; 32; 0; 32; 0; 32; 0; 32; 0; 32; 0; 32; 0; 32; 0; 32; 0; 32; 0; 32; 0; 32; 0; 32; 0; 32; 0; 32; 0;
   32; 0; 32; 0; 32; 0; 32; 0; 32; 0; 32; 0; 32; 0; 32; 0; 32; 0; 32; 0; 32; 0; 32; 0; 32; 0; 32; 0; 32; 0; 32; 0;
   32; 0; 32; 0; 32; 0; 32; 0; 32; 0; 32; 0; 32; 0; 32; 0; 32; 0; 32; 0; 32; 0; 32; 0; 32; 0; 32; 0; 32; 0; 32; 0;
   32; 0; 32; 0; 32; 0; 32; 0; 32; 0; 32; 0; 32; 0; 32; 0; 32; 0; 32; 0; 32; 0; 32; 0; 32; 0; 32; 0; 32; 0; 186; 15;
   186; 15; 32; 0; 32; 0; 32; 0; 32; 0; 32; 0; 32; 0; 32; 0; 32; 0; 32; 0; 32; 0; 32; 0; 32; 0; 32; 0; 32; 0; 32; 0;
   32; 0; 32; 0; 32; 0; 32; 0; 84; 2; 101; 2; 114; 2; 109; 2; 105; 2; 110; 2; 97; 2; 108; 2; 32; 0; 69; 2; 109; 2; 117; 2;
   108; 2; 97; 2; 116; 2; 105; 2; 111; 2; 110; 2; 32; 0; 32; 0; 32; 0; 32; 0; 32; 0; 32; 0; 32; 0; 32; 0; 32; 0; 32; 0;
   32; 0; 32; 0; 32; 0; 32; 0; 32; 0; 32; 0; 32; 0; 32; 0; 32; 0; 32; 0; 32; 0; 32; 0; 32; 0; 32; 0; 32; 0; 32; 0;
   32; 0; 32; 0; 32; 0; 32; 0; 32; 0; 32; 0; 32; 0; 32; 0; 32; 0; 32; 0; 32; 0; 32; 0; 32; 0; 32; 0; 32; 0; 186; 15;
   186; 15; 32; 0; 32; 0; 32; 0; 32; 0; 32; 0; 32; 0; 32; 0; 32; 0; 32; 0; 32; 0; 32; 0; 32; 0; 32; 0; 32; 0; 32; 0;
   32; 0; 32; 0; 32; 0; 32; 0; 32; 0; 32; 0; 0; 2; 32; 0; 32; 0; 32; 0; 32; 0; 32; 0; 32; 0; 32; 0; 32; 0; 32; 0;
   32; 0; 32; 0; 32; 0; 32; 0; 32; 0; 32; 0; 32; 0; 32; 0; 32; 0; 32; 0; 32; 0; 32; 0; 32; 0; 32; 0; 32; 0; 32; 0;
   32; 0; 32; 0; 32; 0; 32; 0; 32; 0; 32; 0; 32; 0; 32; 0; 32; 0; 32; 0; 32; 0; 32; 0; 32; 0; 32; 0; 32; 0; 32; 0;
   32; 0; 32; 0; 32; 0; 32; 0; 32; 0; 32; 0; 32; 0; 32; 0; 32; 0; 32; 0; 32; 0; 32; 0; 32; 0; 32; 0; 32; 0; 186; 15;
   186; 15; 32; 0; 32; 0; 32; 0; 32; 0; 32; 0; 32; 0; 32; 0; 32; 0; 32; 0; 32; 0; 32; 0; 32; 0; 32; 0; 32; 0; 32; 0;
   32; 0; 32; 0; 32; 0; 32; 0; 67; 2; 111; 2; 112; 2; 121; 2; 114; 2; 105; 2; 103; 2; 104; 2; 116; 2; 32; 2; 40; 2; 67; 2;
   41; 2; 32; 2; 50; 2; 48; 2; 49; 2; 57; 2; 32; 2; 98; 2; 121; 2; 32; 2; 70; 2; 114; 2; 97; 2; 110; 2; 107; 2; 32; 2;
   66; 2; 117; 2; 115; 2; 115; 2; 32; 0; 32; 0; 32; 0; 32; 0; 32; 0; 32; 0; 32; 0; 32; 0; 32; 0; 32; 0; 32; 0; 32; 0;
   32; 0; 32; 0; 32; 0; 32; 0; 32; 0; 32; 0; 32; 0; 32; 0; 32; 0; 32; 0; 32; 0; 32; 0; 32; 0; 32; 0; 32; 0; 186; 15;
   186; 15; 32; 0; 32; 0; 32; 0; 32; 0; 32; 0; 32; 0; 32; 0; 32; 0; 32; 0; 32; 0; 32; 0; 32; 0; 32; 0; 32; 0; 32; 0;
   32; 0; 32; 0; 32; 0; 32; 0; 32; 0; 32; 0; 32; 0; 32; 0; 32; 0; 32; 0; 32; 0; 32; 0; 32; 0; 32; 0; 32; 0; 32; 0;
   32; 0; 32; 0; 32; 0; 32; 0; 32; 0; 32; 0; 32; 0; 32; 0; 32; 0; 32; 0; 32; 0; 32; 0; 32; 0; 32; 0; 32; 0; 32; 0;
   32; 0; 32; 0; 32; 0; 32; 0; 32; 0; 32; 0; 32; 0; 32; 0; 32; 0; 32; 0; 32; 0; 32; 0; 32; 0; 32; 0; 32; 0; 32; 0;
   32; 0; 32; 0; 32; 0; 32; 0; 32; 0; 32; 0; 32; 0; 32; 0; 32; 0; 32; 0; 32; 0; 32; 0; 32; 0; 32; 0; 32; 0; 186; 15;
   186; 15; 32; 0; 32; 0; 32; 0; 32; 0; 32; 0; 32; 0; 32; 0; 32; 0; 32; 0; 32; 0; 32; 0; 32; 0; 32; 0; 32; 0; 32; 0;
   32; 0; 32; 0; 32; 0; 32; 0; 32; 0; 32; 0; 32; 0; 32; 0; 32; 0; 32; 0; 32; 0; 32; 0; 32; 0; 32; 0; 32; 0; 32; 0;
   32; 0; 32; 0; 32; 0; 32; 0; 32; 0; 32; 0; 32; 0; 32; 0; 32; 0; 32; 0; 32; 0; 32; 0; 32; 0; 32; 0; 32; 0; 32; 0;
   32; 0; 32; 0; 32; 0; 32; 0; 32; 0; 32; 0; 32; 0; 32; 0; 32; 0; 32; 0; 32; 0; 32; 0; 32; 0; 32; 0; 32; 0; 32; 0;
   32; 0; 32; 0; 32; 0; 32; 0; 32; 0; 32; 0; 32; 0; 32; 0; 32; 0; 32; 0; 32; 0; 32; 0; 32; 0; 32; 0; 32; 0; 186; 15;
   186; 15; 32; 0; 32; 0; 32; 0; 32; 0; 32; 0; 32; 0; 32; 0; 32; 0; 32; 0; 32; 0; 32; 0; 32; 0; 32; 0; 32; 0; 32; 0;
   32; 0; 32; 0; 32; 0; 32; 0; 32; 0; 32; 0; 32; 0; 32; 0; 32; 0; 32; 0; 32; 0; 32; 0; 32; 0; 32; 0; 32; 0; 32; 0;
   32; 0; 32; 0; 32; 0; 32; 0; 32; 0; 32; 0; 32; 0; 32; 0; 32; 0; 32; 0; 32; 0; 32; 0; 32; 0; 32; 0; 32; 0; 32; 0;
   32; 0; 32; 0; 32; 0; 32; 0; 32; 0; 32; 0; 32; 0; 32; 0; 32; 0; 32; 0; 32; 0; 32; 0; 32; 0; 32; 0; 32; 0; 32; 0;
   32; 0; 32; 0; 32; 0; 32; 0; 32; 0; 32; 0; 32; 0; 32; 0; 32; 0; 32; 0; 32; 0; 32; 0; 32; 0; 32; 0; 32; 0; 186; 15;
   200; 15; 205; 15; 205; 15; 205; 15; 205; 15; 205; 15; 205; 15; 205; 15; 205; 15; 205; 15; 205; 15; 205; 15; 205; 15; 205; 15; 205; 15; 205; 15;
   205; 15; 205; 15; 205; 15; 205; 15; 205; 15; 205; 15; 205; 15; 205; 15; 205; 15; 205; 15; 205; 15; 205; 15; 205; 15; 205; 15; 205; 15; 205; 15;
   205; 15; 205; 15; 205; 15; 205; 15; 205; 15; 205; 15; 205; 15; 205; 15; 205; 15; 205; 15; 205; 15; 205; 15; 205; 15; 205; 15; 205; 15; 205; 15;
   205; 15; 205; 15; 205; 15; 205; 15; 205; 15; 205; 15; 205; 15; 205; 15; 205; 15; 205; 15; 205; 15; 205; 15; 205; 15; 205; 15; 205; 15; 205; 15;
   205; 15; 205; 15; 205; 15; 205; 15; 205; 15; 205; 15; 205; 15; 205; 15; 205; 15; 205; 15; 205; 15; 205; 15; 205; 15; 205; 15; 205; 15; 188; 15].

(** /repo/litevideo/terminal/cp437.bin, 4096 bytes (named in /repo/litevideo/terminal/core.py:59). *)
Definition cp437_bin : list Z :=
  [0; 0; 0; 0; 0; 0; 0; 0; 0; 0; 0; 0; 0; 0; 0; 0; 0; 0; 126; 129; 165; 129; 129; 189; 153; 129; 129; 126; 0; 0; 0; 0;
   0; 0; 126; 255; 219; 255; 255; 195; 231; 255; 255; 126; 0; 0; 0; 0; 0; 0; 0; 0; 108; 254; 254; 254; 254; 124; 56; 16; 0; 0; 0; 0;
   0; 0; 0; 0; 16; 56; 124; 254; 124; 56; 16; 0; 0; 0; 0; 0; 0; 0; 0; 24; 60; 60; 231; 231; 231; 24; 24; 60; 0; 0; 0; 0;
   0; 0; 0; 24; 60; 126; 255; 255; 126; 24; 24; 60; 0; 0; 0; 0; 0; 0; 0; 0; 0; 0; 24; 60; 60; 24; 0; 0; 0; 0; 0; 0;
   255; 255; 255; 255; 255; 255; 231; 195; 195; 231; 255; 255; 255; 255; 255; 255; 0; 0; 0; 0; 0; 60; 102; 66; 66; 102; 60; 0; 0; 0; 0; 0;
   255; 255; 255; 255; 255; 195; 153; 189; 189; 153; 195; 255; 255; 255; 255; 255; 0; 0; 30; 14; 26; 50; 120; 204; 204; 204; 204; 120; 0; 0; 0; 0;
   0; 0; 60; 102; 102; 102; 102; 60; 24; 126; 24; 24; 0; 0; 0; 0; 0; 0; 63; 51; 63; 48; 48; 48; 48; 112; 240; 224; 0; 0; 0; 0;
   0; 0; 127; 99; 127; 99; 99; 99; 99; 103; 231; 230; 192; 0; 0; 0; 0; 0; 0; 24; 24; 219; 60; 231; 60; 219; 24; 24; 0; 0; 0; 0;
   0; 128; 192; 224; 240; 248; 254; 248; 240; 224; 192; 128; 0; 0; 0; 0; 0; 2; 6; 14; 30; 62; 254; 62; 30; 14; 6; 2; 0; 0; 0; 0;
   0; 0; 24; 60; 126; 24; 24; 24; 126; 60; 24; 0; 0; 0; 0; 0; 0; 0; 102; 102; 102; 102; 102; 102; 102; 0; 102; 102; 0; 0; 0; 0;
   0; 0; 127; 219; 219; 219; 123; 27; 27; 27; 27; 27; 0; 0; 0; 0; 0; 124; 198; 96; 56; 108; 198; 198; 108; 56; 12; 198; 124; 0; 0; 0;
   0; 0; 0; 0; 0; 0; 0; 0; 254; 254; 254; 254; 0; 0; 0; 0; 0; 0; 24; 60; 126; 24; 24; 24; 126; 60; 24; 126; 0; 0; 0; 0;
   0; 0; 24; 60; 126; 24; 24; 24; 24; 24; 24; 24; 0; 0; 0; 0; 0; 0; 24; 24; 24; 24; 24; 24; 24; 126; 60; 24; 0; 0; 0; 0;
   0; 0; 0; 0; 0; 24; 12; 254; 12; 24; 0; 0; 0; 0; 0; 0; 0; 0; 0; 0; 0; 48; 96; 254; 96; 48; 0; 0; 0; 0; 0; 0;
   0; 0; 0; 0; 0; 0; 192; 192; 192; 254; 0; 0; 0; 0; 0; 0; 0; 0; 0; 0; 0; 40; 108; 254; 108; 40; 0; 0; 0; 0; 0; 0;
   0; 0; 0; 0; 16; 56; 56; 124; 124; 254; 254; 0; 0; 0; 0; 0; 0; 0; 0; 0; 254; 254; 124; 124; 56; 56; 16; 0; 0; 0; 0; 0;
   0; 0; 0; 0; 0; 0; 0; 0; 0; 0; 0; 0; 0; 0; 0; 0; 0; 0; 24; 60; 60; 60; 24; 24; 24; 0; 24; 24; 0; 0; 0; 0;
   0; 102; 102; 102; 36; 0; 0; 0; 0; 0; 0; 0; 0; 0; 0; 0; 0; 0; 0; 108; 108; 254; 108; 108; 108; 254; 108; 108; 0; 0; 0; 0;
   24; 24; 124; 198; 194; 192; 124; 6; 6; 134; 198; 124; 24; 24; 0; 0; 0; 0; 0; 0; 194; 198; 12; 24; 48; 96; 198; 134; 0; 0; 0; 0;
   0; 0; 56; 108; 108; 56; 118; 220; 204; 204; 204; 118; 0; 0; 0; 0; 0; 48; 48; 48; 96; 0; 0; 0; 0; 0; 0; 0; 0; 0; 0; 0;
   0; 0; 12; 24; 48; 48; 48; 48; 48; 48; 24; 12; 0; 0; 0; 0; 0; 0; 48; 24; 12; 12; 12; 12; 12; 12; 24; 48; 0; 0; 0; 0;
   0; 0; 0; 0; 0; 102; 60; 255; 60; 102; 0; 0; 0; 0; 0; 0; 0; 0; 0; 0; 0; 24; 24; 126; 24; 24; 0; 0; 0; 0; 0; 0;
   0; 0; 0; 0; 0; 0; 0; 0; 0; 24; 24; 24; 48; 0; 0; 0; 0; 0; 0; 0; 0; 0; 0; 254; 0; 0; 0; 0; 0; 0; 0; 0;
   0; 0; 0; 0; 0; 0; 0; 0; 0; 0; 24; 24; 0; 0; 0; 0; 0; 0; 0; 0; 2; 6; 12; 24; 48; 96; 192; 128; 0; 0; 0; 0;
   0; 0; 56; 108; 198; 198; 214; 214; 198; 198; 108; 56; 0; 0; 0; 0; 0; 0; 24; 56; 120; 24; 24; 24; 24; 24; 24; 126; 0; 0; 0; 0;
   0; 0; 124; 198; 6; 12; 24; 48; 96; 192; 198; 254; 0; 0; 0; 0; 0; 0; 124; 198; 6; 6; 60; 6; 6; 6; 198; 124; 0; 0; 0; 0;
   0; 0; 12; 28; 60; 108; 204; 254; 12; 12; 12; 30; 0; 0; 0; 0; 0; 0; 254; 192; 192; 192; 252; 6; 6; 6; 198; 124; 0; 0; 0; 0;
   0; 0; 56; 96; 192; 192; 252; 198; 198; 198; 198; 124; 0; 0; 0; 0; 0; 0; 254; 198; 6; 6; 12; 24; 48; 48; 48; 48; 0; 0; 0; 0;
   0; 0; 124; 198; 198; 198; 124; 198; 198; 198; 198; 124; 0; 0; 0; 0; 0; 0; 124; 198; 198; 198; 126; 6; 6; 6; 12; 120; 0; 0; 0; 0;
   0; 0; 0; 0; 24; 24; 0; 0; 0; 24; 24; 0; 0; 0; 0; 0; 0; 0; 0; 0; 24; 24; 0; 0; 0; 24; 24; 48; 0; 0; 0; 0;
   0; 0; 0; 6; 12; 24; 48; 96; 48; 24; 12; 6; 0; 0; 0; 0; 0; 0; 0; 0; 0; 126; 0; 0; 126; 0; 0; 0; 0; 0; 0; 0;
   0; 0; 0; 96; 48; 24; 12; 6; 12; 24; 48; 96; 0; 0; 0; 0; 0; 0; 124; 198; 198; 12; 24; 24; 24; 0; 24; 24; 0; 0; 0; 0;
   0; 0; 0; 124; 198; 198; 222; 222; 222; 220; 192; 124; 0; 0; 0; 0; 0; 0; 16; 56; 108; 198; 198; 254; 198; 198; 198; 198; 0; 0; 0; 0;
   0; 0; 252; 102; 102; 102; 124; 102; 102; 102; 102; 252; 0; 0; 0; 0; 0; 0; 60; 102; 194; 192; 192; 192; 192; 194; 102; 60; 0; 0; 0; 0;
   0; 0; 248; 108; 102; 102; 102; 102; 102; 102; 108; 248; 0; 0; 0; 0; 0; 0; 254; 102; 98; 104; 120; 104; 96; 98; 102; 254; 0; 0; 0; 0;
   0; 0; 254; 102; 98; 104; 120; 104; 96; 96; 96; 240; 0; 0; 0; 0; 0; 0; 60; 102; 194; 192; 192; 222; 198; 198; 102; 58; 0; 0; 0; 0;
   0; 0; 198; 198; 198; 198; 254; 198; 198; 198; 198; 198; 0; 0; 0; 0; 0; 0; 60; 24; 24; 24; 24; 24; 24; 24; 24; 60; 0; 0; 0; 0;
   0; 0; 30; 12; 12; 12; 12; 12; 204; 204; 204; 120; 0; 0; 0; 0; 0; 0; 230; 102; 102; 108; 120; 120; 108; 102; 102; 230; 0; 0; 0; 0;
   0; 0; 240; 96; 96; 96; 96; 96; 96; 98; 102; 254; 0; 0; 0; 0; 0; 0; 198; 238; 254; 254; 214; 198; 198; 198; 198; 198; 0; 0; 0; 0;
   0; 0; 198; 230; 246; 254; 222; 206; 198; 198; 198; 198; 0; 0; 0; 0; 0; 0; 124; 198; 198; 198; 198; 198; 198; 198; 198; 124; 0; 0; 0; 0;
   0; 0; 252; 102; 102; 102; 124; 96; 96; 96; 96; 240; 0; 0; 0; 0; 0; 0; 124; 198; 198; 198; 198; 198; 198; 214; 222; 124; 12; 14; 0; 0;
   0; 0; 252; 102; 102; 102; 124; 108; 102; 102; 102; 230; 0; 0; 0; 0; 0; 0; 124; 198; 198; 96; 56; 12; 6; 198; 198; 124; 0; 0; 0; 0;
   0; 0; 126; 126; 90; 24; 24; 24; 24; 24; 24; 60; 0; 0; 0; 0; 0; 0; 198; 198; 198; 198; 198; 198; 198; 198; 198; 124; 0; 0; 0; 0;
   0; 0; 198; 198; 198; 198; 198; 198; 198; 108; 56; 16; 0; 0; 0; 0; 0; 0; 198; 198; 198; 198; 214; 214; 214; 254; 238; 108; 0; 0; 0; 0;
   0; 0; 198; 198; 108; 124; 56; 56; 124; 108; 198; 198; 0; 0; 0; 0; 0; 0; 102; 102; 102; 102; 60; 24; 24; 24; 24; 60; 0; 0; 0; 0;
   0; 0; 254; 198; 134; 12; 24; 48; 96; 194; 198; 254; 0; 0; 0; 0; 0; 0; 60; 48; 48; 48; 48; 48; 48; 48; 48; 60; 0; 0; 0; 0;
   0; 0; 0; 128; 192; 224; 112; 56; 28; 14; 6; 2; 0; 0; 0; 0; 0; 0; 60; 12; 12; 12; 12; 12; 12; 12; 12; 60; 0; 0; 0; 0;
   16; 56; 108; 198; 0; 0; 0; 0; 0; 0; 0; 0; 0; 0; 0; 0; 0; 0; 0; 0; 0; 0; 0; 0; 0; 0; 0; 0; 0; 255; 0; 0;
   0; 48; 24; 12; 0; 0; 0; 0; 0; 0; 0; 0; 0; 0; 0; 0; 0; 0; 0; 0; 0; 120; 12; 124; 204; 204; 204; 118; 0; 0; 0; 0;
   0; 0; 224; 96; 96; 120; 108; 102; 102; 102; 102; 124; 0; 0; 0; 0; 0; 0; 0; 0; 0; 124; 198; 192; 192; 192; 198; 124; 0; 0; 0; 0;
   0; 0; 28; 12; 12; 60; 108; 204; 204; 204; 204; 118; 0; 0; 0; 0; 0; 0; 0; 0; 0; 124; 198; 254; 192; 192; 198; 124; 0; 0; 0; 0;
   0; 0; 28; 54; 50; 48; 120; 48; 48; 48; 48; 120; 0; 0; 0; 0; 0; 0; 0; 0; 0; 118; 204; 204; 204; 204; 204; 124; 12; 204; 120; 0;
   0; 0; 224; 96; 96; 108; 118; 102; 102; 102; 102; 230; 0; 0; 0; 0; 0; 0; 24; 24; 0; 56; 24; 24; 24; 24; 24; 60; 0; 0; 0; 0;
   0; 0; 6; 6; 0; 14; 6; 6; 6; 6; 6; 6; 102; 102; 60; 0; 0; 0; 224; 96; 96; 102; 108; 120; 120; 108; 102; 230; 0; 0; 0; 0;
   0; 0; 56; 24; 24; 24; 24; 24; 24; 24; 24; 60; 0; 0; 0; 0; 0; 0; 0; 0; 0; 236; 254; 214; 214; 214; 214; 198; 0; 0; 0; 0;
   0; 0; 0; 0; 0; 220; 102; 102; 102; 102; 102; 102; 0; 0; 0; 0; 0; 0; 0; 0; 0; 124; 198; 198; 198; 198; 198; 124; 0; 0; 0; 0;
   0; 0; 0; 0; 0; 220; 102; 102; 102; 102; 102; 124; 96; 96; 240; 0; 0; 0; 0; 0; 0; 118; 204; 204; 204; 204; 204; 124; 12; 12; 30; 0;
   0; 0; 0; 0; 0; 220; 118; 102; 96; 96; 96; 240; 0; 0; 0; 0; 0; 0; 0; 0; 0; 124; 198; 96; 56; 12; 198; 124; 0; 0; 0; 0;
   0; 0; 16; 48; 48; 252; 48; 48; 48; 48; 54; 28; 0; 0; 0; 0; 0; 0; 0; 0; 0; 204; 204; 204; 204; 204; 204; 118; 0; 0; 0; 0;
   0; 0; 0; 0; 0; 198; 198; 198; 198; 198; 108; 56; 0; 0; 0; 0; 0; 0; 0; 0; 0; 198; 198; 214; 214; 214; 254; 108; 0; 0; 0; 0;
   0; 0; 0; 0; 0; 198; 108; 56; 56; 56; 108; 198; 0; 0; 0; 0; 0; 0; 0; 0; 0; 198; 198; 198; 198; 198; 198; 126; 6; 12; 248; 0;
   0; 0; 0; 0; 0; 254; 204; 24; 48; 96; 198; 254; 0; 0; 0; 0; 0; 0; 14; 24; 24; 24; 112; 24; 24; 24; 24; 14; 0; 0; 0; 0;
   0; 0; 24; 24; 24; 24; 24; 24; 24; 24; 24; 24; 0; 0; 0; 0; 0; 0; 112; 24; 24; 24; 14; 24; 24; 24; 24; 112; 0; 0; 0; 0;
   0; 118; 220; 0; 0; 0; 0; 0; 0; 0; 0; 0; 0; 0; 0; 0; 0; 0; 0; 0; 16; 56; 108; 198; 198; 198; 254; 0; 0; 0; 0; 0;
   0; 0; 60; 102; 194; 192; 192; 192; 192; 194; 102; 60; 24; 112; 0; 0; 0; 0; 204; 0; 0; 204; 204; 204; 204; 204; 204; 118; 0; 0; 0; 0;
   0; 12; 24; 48; 0; 124; 198; 254; 192; 192; 198; 124; 0; 0; 0; 0; 0; 16; 56; 108; 0; 120; 12; 124; 204; 204; 204; 118; 0; 0; 0; 0;
   0; 0; 204; 0; 0; 120; 12; 124; 204; 204; 204; 118; 0; 0; 0; 0; 0; 96; 48; 24; 0; 120; 12; 124; 204; 204; 204; 118; 0; 0; 0; 0;
   0; 56; 108; 56; 0; 120; 12; 124; 204; 204; 204; 118; 0; 0; 0; 0; 0; 0; 0; 0; 0; 124; 198; 192; 192; 192; 198; 124; 24; 112; 0; 0;
   0; 16; 56; 108; 0; 124; 198; 254; 192; 192; 198; 124; 0; 0; 0; 0; 0; 0; 198; 0; 0; 124; 198; 254; 192; 192; 198; 124; 0; 0; 0; 0;
   0; 96; 48; 24; 0; 124; 198; 254; 192; 192; 198; 124; 0; 0; 0; 0; 0; 0; 102; 0; 0; 56; 24; 24; 24; 24; 24; 60; 0; 0; 0; 0;
   0; 24; 60; 102; 0; 56; 24; 24; 24; 24; 24; 60; 0; 0; 0; 0; 0; 96; 48; 24; 0; 56; 24; 24; 24; 24; 24; 60; 0; 0; 0; 0;
   0; 198; 0; 16; 56; 108; 198; 198; 254; 198; 198; 198; 0; 0; 0; 0; 56; 108; 56; 16; 56; 108; 198; 254; 198; 198; 198; 198; 0; 0; 0; 0;
   12; 24; 0; 254; 102; 98; 104; 120; 104; 98; 102; 254; 0; 0; 0; 0; 0; 0; 0; 0; 0; 236; 54; 54; 126; 216; 216; 110; 0; 0; 0; 0;
   0; 0; 62; 108; 204; 204; 254; 204; 204; 204; 204; 206; 0; 0; 0; 0; 0; 16; 56; 108; 0; 124; 198; 198; 198; 198; 198; 124; 0; 0; 0; 0;
   0; 0; 198; 0; 0; 124; 198; 198; 198; 198; 198; 124; 0; 0; 0; 0; 0; 96; 48; 24; 0; 124; 198; 198; 198; 198; 198; 124; 0; 0; 0; 0;
   0; 48; 120; 204; 0; 204; 204; 204; 204; 204; 204; 118; 0; 0; 0; 0; 0; 96; 48; 24; 0; 204; 204; 204; 204; 204; 204; 118; 0; 0; 0; 0;
   0; 0; 198; 0; 0; 198; 198; 198; 198; 198; 198; 126; 6; 12; 120; 0; 0; 198; 0; 124; 198; 198; 198; 198; 198; 198; 198; 124; 0; 0; 0; 0;
   0; 198; 0; 198; 198; 198; 198; 198; 198; 198; 198; 124; 0; 0; 0; 0; 0; 24; 24; 124; 198; 192; 192; 192; 198; 124; 24; 24; 0; 0; 0; 0;
   0; 56; 108; 100; 96; 240; 96; 96; 96; 96; 230; 252; 0; 0; 0; 0; 0; 0; 102; 102; 60; 24; 126; 24; 126; 24; 24; 24; 0; 0; 0; 0;
   0; 248; 204; 204; 248; 196; 204; 222; 204; 204; 204; 198; 0; 0; 0; 0; 0; 14; 27; 24; 24; 24; 126; 24; 24; 24; 216; 112; 0; 0; 0; 0;
   0; 24; 48; 96; 0; 120; 12; 124; 204; 204; 204; 118; 0; 0; 0; 0; 0; 12; 24; 48; 0; 56; 24; 24; 24; 24; 24; 60; 0; 0; 0; 0;
   0; 24; 48; 96; 0; 124; 198; 198; 198; 198; 198; 124; 0; 0; 0; 0; 0; 24; 48; 96; 0; 204; 204; 204; 204; 204; 204; 118; 0; 0; 0; 0;
   0; 0; 118; 220; 0; 220; 102; 102; 102; 102; 102; 102; 0; 0; 0; 0; 118; 220; 0; 198; 230; 246; 254; 222; 206; 198; 198; 198; 0; 0; 0; 0;
   0; 0; 60; 108; 108; 62; 0; 126; 0; 0; 0; 0; 0; 0; 0; 0; 0; 0; 56; 108; 108; 56; 0; 124; 0; 0; 0; 0; 0; 0; 0; 0;
   0; 0; 48; 48; 0; 48; 48; 96; 192; 198; 198; 124; 0; 0; 0; 0; 0; 0; 0; 0; 0; 0; 254; 192; 192; 192; 192; 0; 0; 0; 0; 0;
   0; 0; 0; 0; 0; 0; 254; 6; 6; 6; 6; 0; 0; 0; 0; 0; 0; 96; 224; 98; 102; 108; 24; 48; 96; 220; 134; 12; 24; 62; 0; 0;
   0; 96; 224; 98; 102; 108; 24; 48; 102; 206; 154; 63; 6; 6; 0; 0; 0; 0; 24; 24; 0; 24; 24; 24; 60; 60; 60; 24; 0; 0; 0; 0;
   0; 0; 0; 0; 0; 54; 108; 216; 108; 54; 0; 0; 0; 0; 0; 0; 0; 0; 0; 0; 0; 216; 108; 54; 108; 216; 0; 0; 0; 0; 0; 0;
   17; 68; 17; 68; 17; 68; 17; 68; 17; 68; 17; 68; 17; 68; 17; 68; 85; 170; 85; 170; 85; 170; 85; 170; 85; 170; 85; 170; 85; 170; 85; 170;
   221; 119; 221; 119; 221; 119; 221; 119; 221; 119; 221; 119; 221; 119; 221; 119; 24; 24; 24; 24; 24; 24; 24; 24; 24; 24; 24; 24; 24; 24; 24; 24;
   24; 24; 24; 24; 24; 24; 24; 248; 24; 24; 24; 24; 24; 24; 24; 24; 24; 24; 24; 24; 24; 248; 24; 248; 24; 24; 24; 24; 24; 24; 24; 24;
   54; 54; 54; 54; 54; 54; 54; 246; 54; 54; 54; 54; 54; 54; 54; 54; 0; 0; 0; 0; 0; 0; 0; 254; 54; 54; 54; 54; 54; 54; 54; 54;
   0; 0; 0; 0; 0; 248; 24; 248; 24; 24; 24; 24; 24; 24; 24; 24; 54; 54; 54; 54; 54; 246; 6; 246; 54; 54; 54; 54; 54; 54; 54; 54;
   54; 54; 54; 54; 54; 54; 54; 54; 54; 54; 54; 54; 54; 54; 54; 54; 0; 0; 0; 0; 0; 254; 6; 246; 54; 54; 54; 54; 54; 54; 54; 54;
   54; 54; 54; 54; 54; 246; 6; 254; 0; 0; 0; 0; 0; 0; 0; 0; 54; 54; 54; 54; 54; 54; 54; 254; 0; 0; 0; 0; 0; 0; 0; 0;
   24; 24; 24; 24; 24; 248; 24; 248; 0; 0; 0; 0; 0; 0; 0; 0; 0; 0; 0; 0; 0; 0; 0; 248; 24; 24; 24; 24; 24; 24; 24; 24;
   24; 24; 24; 24; 24; 24; 24; 31; 0; 0; 0; 0; 0; 0; 0; 0; 24; 24; 24; 24; 24; 24; 24; 255; 0; 0; 0; 0; 0; 0; 0; 0;
   0; 0; 0; 0; 0; 0; 0; 255; 24; 24; 24; 24; 24; 24; 24; 24; 24; 24; 24; 24; 24; 24; 24; 31; 24; 24; 24; 24; 24; 24; 24; 24;
   0; 0; 0; 0; 0; 0; 0; 255; 0; 0; 0; 0; 0; 0; 0; 0; 24; 24; 24; 24; 24; 24; 24; 255; 24; 24; 24; 24; 24; 24; 24; 24;
   24; 24; 24; 24; 24; 31; 24; 31; 24; 24; 24; 24; 24; 24; 24; 24; 54; 54; 54; 54; 54; 54; 54; 55; 54; 54; 54; 54; 54; 54; 54; 54;
   54; 54; 54; 54; 54; 55; 48; 63; 0; 0; 0; 0; 0; 0; 0; 0; 0; 0; 0; 0; 0; 63; 48; 55; 54; 54; 54; 54; 54; 54; 54; 54;
   54; 54; 54; 54; 54; 247; 0; 255; 0; 0; 0; 0; 0; 0; 0; 0; 0; 0; 0; 0; 0; 255; 0; 247; 54; 54; 54; 54; 54; 54; 54; 54;
   54; 54; 54; 54; 54; 55; 48; 55; 54; 54; 54; 54; 54; 54; 54; 54; 0; 0; 0; 0; 0; 255; 0; 255; 0; 0; 0; 0; 0; 0; 0; 0;
   54; 54; 54; 54; 54; 247; 0; 247; 54; 54; 54; 54; 54; 54; 54; 54; 24; 24; 24; 24; 24; 255; 0; 255; 0; 0; 0; 0; 0; 0; 0; 0;
   54; 54; 54; 54; 54; 54; 54; 255; 0; 0; 0; 0; 0; 0; 0; 0; 0; 0; 0; 0; 0; 255; 0; 255; 24; 24; 24; 24; 24; 24; 24; 24;
   0; 0; 0; 0; 0; 0; 0; 255; 54; 54; 54; 54; 54; 54; 54; 54; 54; 54; 54; 54; 54; 54; 54; 63; 0; 0; 0; 0; 0; 0; 0; 0;
   24; 24; 24; 24; 24; 31; 24; 31; 0; 0; 0; 0; 0; 0; 0; 0; 0; 0; 0; 0; 0; 31; 24; 31; 24; 24; 24; 24; 24; 24; 24; 24;
   0; 0; 0; 0; 0; 0; 0; 63; 54; 54; 54; 54; 54; 54; 54; 54; 54; 54; 54; 54; 54; 54; 54; 255; 54; 54; 54; 54; 54; 54; 54; 54;
   24; 24; 24; 24; 24; 255; 24; 255; 24; 24; 24; 24; 24; 24; 24; 24; 24; 24; 24; 24; 24; 24; 24; 248; 0; 0; 0; 0; 0; 0; 0; 0;
   0; 0; 0; 0; 0; 0; 0; 31; 24; 24; 24; 24; 24; 24; 24; 24; 255; 255; 255; 255; 255; 255; 255; 255; 255; 255; 255; 255; 255; 255; 255; 255;
   0; 0; 0; 0; 0; 0; 0; 255; 255; 255; 255; 255; 255; 255; 255; 255; 240; 240; 240; 240; 240; 240; 240; 240; 240; 240; 240; 240; 240; 240; 240; 240;
   15; 15; 15; 15; 15; 15; 15; 15; 15; 15; 15; 15; 15; 15; 15; 15; 255; 255; 255; 255; 255; 255; 255; 0; 0; 0; 0; 0; 0; 0; 0; 0;
   0; 0; 0; 0; 0; 118; 220; 216; 216; 216; 220; 118; 0; 0; 0; 0; 0; 0; 120; 204; 204; 204; 216; 204; 198; 198; 198; 204; 0; 0; 0; 0;
   0; 0; 254; 198; 198; 192; 192; 192; 192; 192; 192; 192; 0; 0; 0; 0; 0; 0; 0; 0; 0; 254; 108; 108; 108; 108; 108; 108; 0; 0; 0; 0;
   0; 0; 254; 198; 96; 48; 24; 24; 48; 96; 198; 254; 0; 0; 0; 0; 0; 0; 0; 0; 0; 126; 216; 216; 216; 216; 216; 112; 0; 0; 0; 0;
   0; 0; 0; 0; 0; 102; 102; 102; 102; 102; 102; 124; 96; 96; 192; 0; 0; 0; 0; 0; 118; 220; 24; 24; 24; 24; 24; 24; 0; 0; 0; 0;
   0; 0; 126; 24; 60; 102; 102; 102; 102; 60; 24; 126; 0; 0; 0; 0; 0; 0; 56; 108; 198; 198; 254; 198; 198; 198; 108; 56; 0; 0; 0; 0;
   0; 0; 56; 108; 198; 198; 198; 108; 108; 108; 108; 238; 0; 0; 0; 0; 0; 0; 30; 48; 24; 12; 62; 102; 102; 102; 102; 60; 0; 0; 0; 0;
   0; 0; 0; 0; 0; 126; 219; 219; 219; 126; 0; 0; 0; 0; 0; 0; 0; 0; 0; 3; 6; 126; 219; 219; 243; 126; 96; 192; 0; 0; 0; 0;
   0; 0; 28; 48; 96; 96; 124; 96; 96; 96; 48; 28; 0; 0; 0; 0; 0; 0; 0; 124; 198; 198; 198; 198; 198; 198; 198; 198; 0; 0; 0; 0;
   0; 0; 0; 0; 254; 0; 0; 254; 0; 0; 254; 0; 0; 0; 0; 0; 0; 0; 0; 0; 24; 24; 126; 24; 24; 0; 0; 126; 0; 0; 0; 0;
   0; 0; 0; 48; 24; 12; 6; 12; 24; 48; 0; 126; 0; 0; 0; 0; 0; 0; 0; 12; 24; 48; 96; 48; 24; 12; 0; 126; 0; 0; 0; 0;
   0; 0; 14; 27; 27; 24; 24; 24; 24; 24; 24; 24; 24; 24; 24; 24; 24; 24; 24; 24; 24; 24; 24; 24; 24; 216; 216; 216; 112; 0; 0; 0;
   0; 0; 0; 0; 0; 24; 0; 126; 0; 24; 0; 0; 0; 0; 0; 0; 0; 0; 0; 0; 0; 118; 220; 0; 118; 220; 0; 0; 0; 0; 0; 0;
   0; 56; 108; 108; 56; 0; 0; 0; 0; 0; 0; 0; 0; 0; 0; 0; 0; 0; 0; 0; 0; 0; 0; 24; 24; 0; 0; 0; 0; 0; 0; 0;
   0; 0; 0; 0; 0; 0; 0; 24; 0; 0; 0; 0; 0; 0; 0; 0; 0; 15; 12; 12; 12; 12; 12; 236; 108; 108; 60; 28; 0; 0; 0; 0;
   0; 108; 54; 54; 54; 54; 54; 0; 0; 0; 0; 0; 0; 0; 0; 0; 0; 60; 102; 12; 24; 50; 126; 0; 0; 0; 0; 0; 0; 0; 0; 0;
   0; 0; 0; 0; 126; 126; 126; 126; 126; 126; 126; 0; 0; 0; 0; 0; 0; 0; 0; 0; 0; 0; 0; 0; 0; 0; 0; 0; 0; 0; 0; 0].
