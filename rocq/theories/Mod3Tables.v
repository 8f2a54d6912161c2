(* The lookup tables of secure-join/Prf/mod3.cpp, copied from the source text. *)
From Verif Require Import Base.

(* mod3Table, mod3.cpp:17-51 (copied verbatim, numbers in decimal) *)
Definition mod3Table : list N :=
 [65536; 65537; 65792; 65538; 65539; 65794; 66048; 66049; 66304; 65540; 65541; 65796; 65542; 65543; 65798; 66052;
  66053; 66308; 66560; 66561; 66816; 66562; 66563; 66818; 67072; 67073; 67328; 65544; 65545; 65800; 65546; 65547;
  65802; 66056; 66057; 66312; 65548; 65549; 65804; 65550; 65551; 65806; 66060; 66061; 66316; 66568; 66569; 66824;
  66570; 66571; 66826; 67080; 67081; 67336; 67584; 67585; 67840; 67586; 67587; 67842; 68096; 68097; 68352; 67588;
  67589; 67844; 67590; 67591; 67846; 68100; 68101; 68356; 68608; 68609; 68864; 68610; 68611; 68866; 69120; 69121;
  69376; 65552; 65553; 65808; 65554; 65555; 65810; 66064; 66065; 66320; 65556; 65557; 65812; 65558; 65559; 65814;
  66068; 66069; 66324; 66576; 66577; 66832; 66578; 66579; 66834; 67088; 67089; 67344; 65560; 65561; 65816; 65562;
  65563; 65818; 66072; 66073; 66328; 65564; 65565; 65820; 65566; 65567; 65822; 66076; 66077; 66332; 66584; 66585;
  66840; 66586; 66587; 66842; 67096; 67097; 67352; 67600; 67601; 67856; 67602; 67603; 67858; 68112; 68113; 68368;
  67604; 67605; 67860; 67606; 67607; 67862; 68116; 68117; 68372; 68624; 68625; 68880; 68626; 68627; 68882; 69136;
  69137; 69392; 69632; 69633; 69888; 69634; 69635; 69890; 70144; 70145; 70400; 69636; 69637; 69892; 69638; 69639;
  69894; 70148; 70149; 70404; 70656; 70657; 70912; 70658; 70659; 70914; 71168; 71169; 71424; 69640; 69641; 69896;
  69642; 69643; 69898; 70152; 70153; 70408; 69644; 69645; 69900; 69646; 69647; 69902; 70156; 70157; 70412; 70664;
  70665; 70920; 70666; 70667; 70922; 71176; 71177; 71432; 71680; 71681; 71936; 71682; 71683; 71938; 72192; 72193;
  72448; 71684; 71685; 71940; 71686; 71687; 71942; 72196; 72197; 72452; 72704; 72705; 72960; 72706; 72707; 72962;
  73216; 73217; 73472; 0; 0; 0; 0; 0; 0; 0; 0; 0; 0; 0; 0; 0]%N.

(* mod3TableV, mod3.cpp:53-86 (copied verbatim, numbers in decimal) *)
Definition mod3TableV : list N :=
 [5; 5; 5; 5; 5; 5; 5; 5; 5; 5; 5; 5; 5; 5; 5; 5;
  5; 5; 5; 5; 5; 5; 5; 5; 5; 5; 5; 5; 5; 5; 5; 5;
  5; 5; 5; 5; 5; 5; 5; 5; 5; 5; 5; 5; 5; 5; 5; 5;
  5; 5; 5; 5; 5; 5; 5; 5; 5; 5; 5; 5; 5; 5; 5; 5;
  5; 5; 5; 5; 5; 5; 5; 5; 5; 5; 5; 5; 5; 5; 5; 5;
  5; 5; 5; 5; 5; 5; 5; 5; 5; 5; 5; 5; 5; 5; 5; 5;
  5; 5; 5; 5; 5; 5; 5; 5; 5; 5; 5; 5; 5; 5; 5; 5;
  5; 5; 5; 5; 5; 5; 5; 5; 5; 5; 5; 5; 5; 5; 5; 5;
  5; 5; 5; 5; 5; 5; 5; 5; 5; 5; 5; 5; 5; 5; 5; 5;
  5; 5; 5; 5; 5; 5; 5; 5; 5; 5; 5; 5; 5; 5; 5; 5;
  5; 5; 5; 5; 5; 5; 5; 5; 5; 5; 5; 5; 5; 5; 5; 5;
  5; 5; 5; 5; 5; 5; 5; 5; 5; 5; 5; 5; 5; 5; 5; 5;
  5; 5; 5; 5; 5; 5; 5; 5; 5; 5; 5; 5; 5; 5; 5; 5;
  5; 5; 5; 5; 5; 5; 5; 5; 5; 5; 5; 5; 5; 5; 5; 5;
  5; 5; 5; 5; 5; 5; 5; 5; 5; 5; 5; 5; 5; 5; 5; 5;
  5; 5; 5; 0; 0; 0; 0; 0; 0; 0; 0; 0; 0; 0; 0; 0]%N.

(* mod3TableLsb, mod3.cpp:88-121 (copied verbatim, numbers in decimal) *)
Definition mod3TableLsb : list N :=
 [0; 1; 0; 2; 3; 2; 0; 1; 0; 4; 5; 4; 6; 7; 6; 4;
  5; 4; 0; 1; 0; 2; 3; 2; 0; 1; 0; 8; 9; 8; 10; 11;
  10; 8; 9; 8; 12; 13; 12; 14; 15; 14; 12; 13; 12; 8; 9; 8;
  10; 11; 10; 8; 9; 8; 0; 1; 0; 2; 3; 2; 0; 1; 0; 4;
  5; 4; 6; 7; 6; 4; 5; 4; 0; 1; 0; 2; 3; 2; 0; 1;
  0; 16; 17; 16; 18; 19; 18; 16; 17; 16; 20; 21; 20; 22; 23; 22;
  20; 21; 20; 16; 17; 16; 18; 19; 18; 16; 17; 16; 24; 25; 24; 26;
  27; 26; 24; 25; 24; 28; 29; 28; 30; 31; 30; 28; 29; 28; 24; 25;
  24; 26; 27; 26; 24; 25; 24; 16; 17; 16; 18; 19; 18; 16; 17; 16;
  20; 21; 20; 22; 23; 22; 20; 21; 20; 16; 17; 16; 18; 19; 18; 16;
  17; 16; 0; 1; 0; 2; 3; 2; 0; 1; 0; 4; 5; 4; 6; 7;
  6; 4; 5; 4; 0; 1; 0; 2; 3; 2; 0; 1; 0; 8; 9; 8;
  10; 11; 10; 8; 9; 8; 12; 13; 12; 14; 15; 14; 12; 13; 12; 8;
  9; 8; 10; 11; 10; 8; 9; 8; 0; 1; 0; 2; 3; 2; 0; 1;
  0; 4; 5; 4; 6; 7; 6; 4; 5; 4; 0; 1; 0; 2; 3; 2;
  0; 1; 0; 0; 0; 0; 0; 0; 0; 0; 0; 0; 0; 0; 0; 0]%N.

(* mod3TableMsb, mod3.cpp:123-156 (copied verbatim, numbers in decimal) *)
Definition mod3TableMsb : list N :=
 [0; 0; 1; 0; 0; 1; 2; 2; 3; 0; 0; 1; 0; 0; 1; 2;
  2; 3; 4; 4; 5; 4; 4; 5; 6; 6; 7; 0; 0; 1; 0; 0;
  1; 2; 2; 3; 0; 0; 1; 0; 0; 1; 2; 2; 3; 4; 4; 5;
  4; 4; 5; 6; 6; 7; 8; 8; 9; 8; 8; 9; 10; 10; 11; 8;
  8; 9; 8; 8; 9; 10; 10; 11; 12; 12; 13; 12; 12; 13; 14; 14;
  15; 0; 0; 1; 0; 0; 1; 2; 2; 3; 0; 0; 1; 0; 0; 1;
  2; 2; 3; 4; 4; 5; 4; 4; 5; 6; 6; 7; 0; 0; 1; 0;
  0; 1; 2; 2; 3; 0; 0; 1; 0; 0; 1; 2; 2; 3; 4; 4;
  5; 4; 4; 5; 6; 6; 7; 8; 8; 9; 8; 8; 9; 10; 10; 11;
  8; 8; 9; 8; 8; 9; 10; 10; 11; 12; 12; 13; 12; 12; 13; 14;
  14; 15; 16; 16; 17; 16; 16; 17; 18; 18; 19; 16; 16; 17; 16; 16;
  17; 18; 18; 19; 20; 20; 21; 20; 20; 21; 22; 22; 23; 16; 16; 17;
  16; 16; 17; 18; 18; 19; 16; 16; 17; 16; 16; 17; 18; 18; 19; 20;
  20; 21; 20; 20; 21; 22; 22; 23; 24; 24; 25; 24; 24; 25; 26; 26;
  27; 24; 24; 25; 24; 24; 25; 26; 26; 27; 28; 28; 29; 28; 28; 29;
  30; 30; 31; 0; 0; 0; 0; 0; 0; 0; 0; 0; 0; 0; 0; 0]%N.

