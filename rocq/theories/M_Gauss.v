(* The tables of the rule of Gauss and Legendre. Over the reals: the decimals of the source as they are written, not their
   binary64 roundings; each number is given by its first 40 decimal places. *)
From Coq Require Import ZArith List Reals Floats.
Import ListNotations.

Definition places40 (k : Z) : R := (IZR k / IZR (10 ^ 40))%R.

(* Integrator.cpp:65-91 *)
Definition GaussLegendreAbscissae : list R := map places40 [
  (-640568928626056260850430826247450385909);
  640568928626056260850430826247450385909;
  (-1911188674736163091586398207570696318404);
  1911188674736163091586398207570696318404;
  (-3150426796961633743867932913198102407864);
  3150426796961633743867932913198102407864;
  (-4337935076260451384870842319133497124524);
  4337935076260451384870842319133497124524;
  (-5454214713888395356583756172183723700107);
  5454214713888395356583756172183723700107;
  (-6480936519369755692524957869107476266696);
  6480936519369755692524957869107476266696;
  (-7401241915785543642438281030999784255232);
  7401241915785543642438281030999784255232;
  (-8200019859739029219539498726697452080761);
  8200019859739029219539498726697452080761;
  (-8864155270044010342131543419821967550873);
  8864155270044010342131543419821967550873;
  (-9382745520027327585236490017087214496548);
  9382745520027327585236490017087214496548;
  (-9747285559713094981983919930081690617411);
  9747285559713094981983919930081690617411;
  (-9951872199970213601799974097007368118745);
  9951872199970213601799974097007368118745]%Z.

(* Integrator.cpp:93-119 *)
Definition GaussLegendreWeights : list R := map places40 [
  1279381953467521569740561652246953718517;
  1279381953467521569740561652246953718517;
  1258374563468282961213753825111836887264;
  1258374563468282961213753825111836887264;
  1216704729278033912044631534762624256070;
  1216704729278033912044631534762624256070;
  1155056680537256013533444839067835598622;
  1155056680537256013533444839067835598622;
  1074442701159656347825773424466062227946;
  1074442701159656347825773424466062227946;
  976186521041138882698806644642471544279;
  976186521041138882698806644642471544279;
  861901615319532759171852029837426671850;
  861901615319532759171852029837426671850;
  733464814110803057340336152531165181193;
  733464814110803057340336152531165181193;
  592985849154367807463677585001085845412;
  592985849154367807463677585001085845412;
  442774388174198061686027482113382288593;
  442774388174198061686027482113382288593;
  285313886289336631813078159518782864491;
  285313886289336631813078159518782864491;
  123412297999871995468056670700372915759;
  123412297999871995468056670700372915759]%Z.

(* The same tables in binary64, written exactly (the doubles nearest to the decimals of the source). *)
(* Integrator.cpp:65-91 *)
Definition GaussLegendreAbscissae_f : list float := [
  -0x1.0660853eda2e8p-4;
  0x1.0660853eda2e8p-4;
  -0x1.8769542b94f8dp-3;
  0x1.8769542b94f8dp-3;
  -0x1.429a8c588e910p-2;
  0x1.429a8c588e910p-2;
  -0x1.bc345d81e24b5p-2;
  0x1.bc345d81e24b5p-2;
  -0x1.17417bac4d72bp-1;
  0x1.17417bac4d72bp-1;
  -0x1.4bd2ee5fa1086p-1;
  0x1.4bd2ee5fa1086p-1;
  -0x1.7af18edb9ddd6p-1;
  0x1.7af18edb9ddd6p-1;
  -0x1.a3d74ce0d3700p-1;
  0x1.a3d74ce0d3700p-1;
  -0x1.c5d841864d0f5p-1;
  0x1.c5d841864d0f5p-1;
  -0x1.e06585a70aa4dp-1;
  0x1.e06585a70aa4dp-1;
  -0x1.f30f9f0cbf876p-1;
  0x1.f30f9f0cbf876p-1;
  -0x1.fd892de691982p-1;
  0x1.fd892de691982p-1]%float.

(* Integrator.cpp:93-119 *)
Definition GaussLegendreWeights_f : list float := [
  0x1.060475e763736p-3;
  0x1.060475e763736p-3;
  0x1.01b7117cf8bd8p-3;
  0x1.01b7117cf8bd8p-3;
  0x1.f25cbce1d1ff6p-4;
  0x1.f25cbce1d1ff6p-4;
  0x1.d91c78acb1b2dp-4;
  0x1.d91c78acb1b2dp-4;
  0x1.b8177ba4a68dcp-4;
  0x1.b8177ba4a68dcp-4;
  0x1.8fd8936444b16p-4;
  0x1.8fd8936444b16p-4;
  0x1.6108ef504463ap-4;
  0x1.6108ef504463ap-4;
  0x1.2c6d5c2eff064p-4;
  0x1.2c6d5c2eff064p-4;
  0x1.e5c6255d25edap-5;
  0x1.e5c6255d25edap-5;
  0x1.6ab884f57c979p-5;
  0x1.6ab884f57c979p-5;
  0x1.d375514486f1dp-6;
  0x1.d375514486f1dp-6;
  0x1.9465bd3112202p-7;
  0x1.9465bd3112202p-7]%float.
