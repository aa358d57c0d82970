(** GENERATED by tools/gen_witness.py, do not edit.  Proof data: coefficients (scaled by DW) of the series of the
    exact propagator in the eta functions up to total order 19; its properties are checked in P_Accuracy3. *)
From Coq Require Import ZArith List.
From Verif Require Import P_Terms.
Import ListNotations.
Definition DW : Z := 2075673600.
Definition wit0_0 : list term := [Te 2075673600 0 0 []].
Definition wit0_1 : list term := [Te (-1037836800) 2 1 [1];
 Te 1037836800 2 2 [2];
 Te (-1037836800) 2 3 [3];
 Te 1037836800 2 4 [4];
 Te (-1037836800) 2 5 [5];
 Te 1037836800 2 6 [6];
 Te (-1037836800) 2 7 [7];
 Te 1037836800 2 8 [8];
 Te (-1037836800) 2 9 [9];
 Te 1037836800 2 10 [10];
 Te (-1037836800) 2 11 [11];
 Te 1037836800 2 12 [12];
 Te (-1037836800) 2 13 [13];
 Te 1037836800 2 14 [14];
 Te (-1037836800) 2 15 [15];
 Te 1037836800 3 0 [1];
 Te (-3113510400) 3 1 [2];
 Te 6227020800 3 2 [3];
 Te (-10378368000) 3 3 [4];
 Te 15567552000 3 4 [5];
 Te (-21794572800) 3 5 [6];
 Te 29059430400 3 6 [7];
 Te (-37362124800) 3 7 [8];
 Te 46702656000 3 8 [9];
 Te (-57081024000) 3 9 [10];
 Te 68497228800 3 10 [11];
 Te (-80951270400) 3 11 [12];
 Te 94443148800 3 12 [13];
 Te (-108972864000) 3 13 [14];
 Te 124540416000 3 14 [15];
 Te 2075673600 4 0 [2];
 Te (-10378368000) 4 1 [3];
 Te 31135104000 4 2 [4];
 Te (-72648576000) 4 3 [5];
 Te 145297152000 4 4 [6];
 Te (-261534873600) 4 5 [7];
 Te 435891456000 4 6 [8];
 Te (-684972288000) 4 7 [9];
 Te 1027458432000 4 8 [10];
 Te (-1484106624000) 4 9 [11];
 Te 2077749273600 4 10 [12];
 Te (-2833294464000) 4 11 [13];
 Te 3777725952000 4 12 [14];
 Te (-4940103168000) 4 13 [15];
 Te 5189184000 5 0 [3];
 Te (-36324288000) 5 1 [4];
 Te 145297152000 5 2 [5];
 Te (-435891456000) 5 3 [6];
 Te 1089728640000 5 4 [7];
 Te (-2397403008000) 5 5 [8];
 Te 4794806016000 5 6 [9];
 Te (-8904639744000) 5 7 [10];
 Te 15583119552000 5 8 [11];
 Te (-25971865920000) 5 9 [12];
 Te 41554985472000 5 10 [13];
 Te (-64221341184000) 5 11 [14];
 Te 96332011776000 5 12 [15];
 Te 14529715200 6 0 [4];
 Te (-130767436800) 6 1 [5];
 Te 653837184000 6 2 [6];
 Te (-2397403008000) 6 3 [7];
 Te 7192209024000 6 4 [8];
 Te (-18699743462400) 6 5 [9];
 Te 43632734745600 6 6 [10];
 Te (-93498717312000) 6 7 [11];
 Te 186997434624000 6 8 [12];
 Te (-353217376512000) 6 9 [13];
 Te 635791277721600 6 10 [14];
 Te (-1098184934246400) 6 11 [15];
 Te 43589145600 7 0 [5];
 Te (-479480601600) 7 1 [6];
 Te 2876883609600 7 2 [7];
 Te (-12466495641600) 7 3 [8];
 Te 43632734745600 7 4 [9];
 Te (-130898204236800) 7 5 [10];
 Te 349061877964800 7 6 [11];
 Te (-847721703628800) 7 7 [12];
 Te 1907373833164800 7 8 [13];
 Te (-4026678092236800) 7 9 [14];
 Te 8053356184473600 7 10 [15];
 Te 136994457600 8 0 [6];
 Te (-1780927948800) 8 1 [7];
 Te 12466495641600 8 2 [8];
 Te (-62332478208000) 8 3 [9];
 Te 249329912832000 8 4 [10];
 Te (-847721703628800) 8 5 [11];
 Te 2543165110886400 8 6 [12];
 Te (-6902876729548800) 8 7 [13];
 Te 17257191823872000 8 8 [14];
 Te (-40266780922368000) 8 9 [15];
 Te 445231987200 9 0 [7];
 Te (-6678479808000) 9 1 [8];
 Te 53427838464000 9 2 [9];
 Te (-302757751296000) 9 3 [10];
 Te 1362409880832000 9 4 [11];
 Te (-5177157547161600) 9 5 [12];
 Te 17257191823872000 9 6 [13];
 Te (-51771575471616000) 9 7 [14];
 Te 142371832546944000 9 8 [15];
 Te 1484106624000 10 0 [8];
 Te (-25229812608000) 10 1 [9];
 Te 227068313472000 10 2 [10];
 Te (-1438099318656000) 10 3 [11];
 Te 7190496593280000 10 4 [12];
 Te (-30200085691776000) 10 5 [13];
 Te 110733647536512000 10 6 [14];
 Te (-363839127619968000) 10 7 [15];
 Te 5045962521600 11 0 [9];
 Te (-95873287910400) 11 1 [10];
 Te 958732879104000 11 2 [11];
 Te (-6711130153728000) 11 3 [12];
 Te 36911215845504000 11 4 [13];
 Te (-169791592889318400) 11 5 [14];
 Te 679166371557273600 11 6 [15];
 Te 17431506892800 12 0 [10];
 Te (-366061644748800) 12 1 [11];
 Te 4026678092236800 12 2 [12];
 Te (-30871198707148800) 12 3 [13];
 Te 185227192242892800 12 4 [14];
 Te (-926135961214464000) 12 5 [15];
 Te 61010274124800 13 0 [11];
 Te (-1403236304870400) 13 1 [12];
 Te 16838835658444800 13 2 [13];
 Te (-140323630487040000) 13 3 [14];
 Te 912103598165760000 13 4 [15];
 Te 215882508441600 14 0 [12];
 Te (-5397062711040000) 14 1 [13];
 Te 70161815243520000 14 2 [14];
 Te (-631456337191680000) 14 3 [15];
 Te 771008958720000 15 0 [13];
 Te (-20817241885440000) 15 1 [14];
 Te 291441386396160000 15 2 [15];
 Te 2775632251392000 16 0 [14];
 Te (-80493335290368000) 16 1 [15];
 Te 10061666911296000 17 0 [15]].
Definition wit0_2 : list term := [Te (-1037836800) 3 0 [1];
 Te 3113510400 3 1 [2];
 Te (-6227020800) 3 2 [3];
 Te 10378368000 3 3 [4];
 Te (-15567552000) 3 4 [5];
 Te 21794572800 3 5 [6];
 Te (-29059430400) 3 6 [7];
 Te 37362124800 3 7 [8];
 Te (-46702656000) 3 8 [9];
 Te 57081024000 3 9 [10];
 Te (-68497228800) 3 10 [11];
 Te 80951270400 3 11 [12];
 Te (-94443148800) 3 12 [13];
 Te 108972864000 3 13 [14];
 Te (-124540416000) 3 14 [15];
 Te (-3113510400) 4 0 [2];
 Te 15567552000 4 1 [3];
 Te 259459200 4 2 [1;1];
 Te (-46702656000) 4 2 [4];
 Te (-518918400) 4 3 [1;2];
 Te 108972864000 4 3 [5];
 Te 518918400 4 4 [1;3];
 Te 259459200 4 4 [2;2];
 Te (-217945728000) 4 4 [6];
 Te (-518918400) 4 5 [1;4];
 Te (-518918400) 4 5 [2;3];
 Te 392302310400 4 5 [7];
 Te 518918400 4 6 [1;5];
 Te 518918400 4 6 [2;4];
 Te 259459200 4 6 [3;3];
 Te (-653837184000) 4 6 [8];
 Te (-518918400) 4 7 [1;6];
 Te (-518918400) 4 7 [2;5];
 Te (-518918400) 4 7 [3;4];
 Te 1027458432000 4 7 [9];
 Te 518918400 4 8 [1;7];
 Te 518918400 4 8 [2;6];
 Te 518918400 4 8 [3;5];
 Te 259459200 4 8 [4;4];
 Te (-1541187648000) 4 8 [10];
 Te (-518918400) 4 9 [1;8];
 Te (-518918400) 4 9 [2;7];
 Te (-518918400) 4 9 [3;6];
 Te (-518918400) 4 9 [4;5];
 Te 2226159936000 4 9 [11];
 Te 518918400 4 10 [1;9];
 Te 518918400 4 10 [2;8];
 Te 518918400 4 10 [3;7];
 Te 518918400 4 10 [4;6];
 Te 259459200 4 10 [5;5];
 Te (-3116623910400) 4 10 [12];
 Te (-518918400) 4 11 [1;10];
 Te (-518918400) 4 11 [2;9];
 Te (-518918400) 4 11 [3;8];
 Te (-518918400) 4 11 [4;7];
 Te (-518918400) 4 11 [5;6];
 Te 4249941696000 4 11 [13];
 Te 518918400 4 12 [1;11];
 Te 518918400 4 12 [2;10];
 Te 518918400 4 12 [3;9];
 Te 518918400 4 12 [4;8];
 Te 518918400 4 12 [5;7];
 Te 259459200 4 12 [6;6];
 Te (-5666588928000) 4 12 [14];
 Te (-518918400) 4 13 [1;12];
 Te (-518918400) 4 13 [2;11];
 Te (-518918400) 4 13 [3;10];
 Te (-518918400) 4 13 [4;9];
 Te (-518918400) 4 13 [5;8];
 Te (-518918400) 4 13 [6;7];
 Te 7410154752000 4 13 [15];
 Te 518918400 4 14 [1;13];
 Te 518918400 4 14 [2;12];
 Te 518918400 4 14 [3;11];
 Te 518918400 4 14 [4;10];
 Te 518918400 4 14 [5;9];
 Te 518918400 4 14 [6;8];
 Te 259459200 4 14 [7;7];
 Te (-518918400) 4 15 [1;14];
 Te (-518918400) 4 15 [2;13];
 Te (-518918400) 4 15 [3;12];
 Te (-518918400) 4 15 [4;11];
 Te (-518918400) 4 15 [5;10];
 Te (-518918400) 4 15 [6;9];
 Te (-518918400) 4 15 [7;8];
 Te (-10378368000) 5 0 [3];
 Te (-518918400) 5 1 [1;1];
 Te 72648576000 5 1 [4];
 Te 2075673600 5 2 [1;2];
 Te (-290594304000) 5 2 [5];
 Te (-3632428800) 5 3 [1;3];
 Te (-1556755200) 5 3 [2;2];
 Te 871782912000 5 3 [6];
 Te 5708102400 5 4 [1;4];
 Te 4670265600 5 4 [2;3];
 Te (-2179457280000) 5 4 [7];
 Te (-8302694400) 5 5 [1;5];
 Te (-6745939200) 5 5 [2;4];
 Te (-3113510400) 5 5 [3;3];
 Te 4794806016000 5 5 [8];
 Te 11416204800 5 6 [1;6];
 Te 9340531200 5 6 [2;5];
 Te 8302694400 5 6 [3;4];
 Te (-9589612032000) 5 6 [9];
 Te (-15048633600) 5 7 [1;7];
 Te (-12454041600) 5 7 [2;6];
 Te (-10897286400) 5 7 [3;5];
 Te (-5189184000) 5 7 [4;4];
 Te 17809279488000 5 7 [10];
 Te 19199980800 5 8 [1;8];
 Te 16086470400 5 8 [2;7];
 Te 14010796800 5 8 [3;6];
 Te 12972960000 5 8 [4;5];
 Te (-31166239104000) 5 8 [11];
 Te (-23870246400) 5 9 [1;9];
 Te (-20237817600) 5 9 [2;8];
 Te (-17643225600) 5 9 [3;7];
 Te (-16086470400) 5 9 [4;6];
 Te (-7783776000) 5 9 [5;5];
 Te 51943731840000 5 9 [12];
 Te 29059430400 5 10 [1;10];
 Te 24908083200 5 10 [2;9];
 Te 21794572800 5 10 [3;8];
 Te 19718899200 5 10 [4;7];
 Te 18681062400 5 10 [5;6];
 Te (-83109970944000) 5 10 [13];
 Te (-34767532800) 5 11 [1;11];
 Te (-30097267200) 5 11 [2;10];
 Te (-26464838400) 5 11 [3;9];
 Te (-23870246400) 5 11 [4;8];
 Te (-22313491200) 5 11 [5;7];
 Te (-10897286400) 5 11 [6;6];
 Te 128442682368000 5 11 [14];
 Te 40994553600 5 12 [1;12];
 Te 35805369600 5 12 [2;11];
 Te 31654022400 5 12 [3;10];
 Te 28540512000 5 12 [4;9];
 Te 26464838400 5 12 [5;8];
 Te 25427001600 5 12 [6;7];
 Te (-192664023552000) 5 12 [15];
 Te (-47740492800) 5 13 [1;13];
 Te (-42032390400) 5 13 [2;12];
 Te (-37362124800) 5 13 [3;11];
 Te (-33729696000) 5 13 [4;10];
 Te (-31135104000) 5 13 [5;9];
 Te (-29578348800) 5 13 [6;8];
 Te (-14529715200) 5 13 [7;7];
 Te 55005350400 5 14 [1;14];
 Te 48778329600 5 14 [2;13];
 Te 43589145600 5 14 [3;12];
 Te 39437798400 5 14 [4;11];
 Te 36324288000 5 14 [5;10];
 Te 34248614400 5 14 [6;9];
 Te 33210777600 5 14 [7;8];
 Te 259459200 6 0 [1;1];
 Te (-36324288000) 6 0 [4];
 Te (-2594592000) 6 1 [1;2];
 Te 326918592000 6 1 [5];
 Te 8302694400 6 2 [1;3];
 Te 3372969600 6 2 [2;2];
 Te (-1634592960000) 6 2 [6];
 Te (-20756736000) 6 3 [1;4];
 Te (-15567552000) 6 3 [2;3];
 Te 5993507520000 6 3 [7];
 Te 44108064000 6 4 [1;5];
 Te 32172940800 6 4 [2;4];
 Te 14529715200 6 4 [3;3];
 Te (-17980522560000) 6 4 [8];
 Te (-83545862400) 6 5 [1;6];
 Te (-60713452800) 6 5 [2;5];
 Te (-51891840000) 6 5 [3;4];
 Te 46749358656000 6 5 [9];
 Te 145297152000 6 6 [1;7];
 Te 106378272000 6 6 [2;6];
 Te 88216128000 6 6 [3;5];
 Te 41513472000 6 6 [4;4];
 Te (-109081836864000) 6 6 [10];
 Te (-236626790400) 6 7 [1;8];
 Te (-175394419200) 6 7 [2;7];
 Te (-143221478400) 6 7 [3;6];
 Te (-129729600000) 6 7 [4;5];
 Te 233746793280000 6 7 [11];
 Te 365837472000 6 8 [1;9];
 Te 275026752000 6 8 [2;8];
 Te 223134912000 6 8 [3;7];
 Te 197188992000 6 8 [4;6];
 Te 94702608000 6 8 [5;5];
 Te (-467493586560000) 6 8 [12];
 Te (-542269728000) 6 9 [1;10];
 Te (-413577964800) 6 9 [2;9];
 Te (-335221286400) 6 9 [3;8];
 Te (-291632140800) 6 9 [4;7];
 Te (-272432160000) 6 9 [5;6];
 Te 883043441280000 6 9 [13];
 Te 776301926400 6 10 [1;11];
 Te 600388588800 6 10 [2;10];
 Te 487783296000 6 10 [3;9];
 Te 420323904000 6 10 [4;8];
 Te 385037452800 6 10 [5;7];
 Te 187070083200 6 10 [6;6];
 Te (-1589478194304000) 6 10 [14];
 Te (-1079350272000) 6 11 [1;12];
 Te (-845836992000) 6 11 [2;11];
 Te (-690161472000) 6 11 [3;10];
 Te (-591566976000) 6 11 [4;9];
 Te (-534485952000) 6 11 [5;8];
 Te (-508540032000) 6 11 [6;7];
 Te 2745462335616000 6 11 [15];
 Te 1463868806400 6 12 [1;13];
 Te 1161339379200 6 12 [2;12];
 Te 952734182400 6 12 [3;11];
 Te 814701888000 6 12 [4;10];
 Te 729080352000 6 12 [5;9];
 Te 682896614400 6 12 [6;8];
 Te 334183449600 6 12 [7;7];
 Te (-1943349408000) 6 13 [1;14];
 Te (-1559349792000) 6 13 [2;13];
 Te (-1286917632000) 6 13 [3;12];
 Te (-1100107008000) 6 13 [4;11];
 Te (-978161184000) 6 13 [5;10];
 Te (-905512608000) 6 13 [6;9];
 Te (-871782912000) 6 13 [7;8];
 Te 1037836800 7 0 [1;2];
 Te (-130767436800) 7 0 [5];
 Te (-7783776000) 7 1 [1;3];
 Te (-3113510400) 7 1 [2;2];
 Te 1438441804800 7 1 [6];
 Te 33729696000 7 2 [1;4];
 Te 24389164800 7 2 [2;3];
 Te (-8630650828800) 7 2 [7];
 Te (-108972864000) 7 3 [1;5];
 Te (-75243168000) 7 3 [2;4];
 Te (-33729696000) 7 3 [3;3];
 Te 37399486924800 7 3 [8];
 Te 290594304000 7 4 [1;6];
 Te 197188992000 7 4 [2;5];
 Te 166053888000 7 4 [3;4];
 Te (-130898204236800) 7 4 [9];
 Te (-675631756800) 7 5 [1;7];
 Te (-457686028800) 7 5 [2;6];
 Te (-371026656000) 7 5 [3;5];
 Te (-173837664000) 7 5 [4;4];
 Te 392694612710400 7 5 [10];
 Te 1416647232000 7 6 [1;8];
 Te 966226060800 7 6 [2;7];
 Te 765404640000 7 6 [3;6];
 Te 687566880000 7 6 [4;5];
 Te (-1047185633894400) 7 6 [11];
 Te (-2739889152000) 7 7 [1;9];
 Te (-1889900812800) 7 7 [2;8];
 Te (-1477360684800) 7 7 [3;7];
 Te (-1289512224000) 7 7 [4;6];
 Te (-617512896000) 7 7 [5;5];
 Te 2543165110886400 7 7 [12];
 Te 4966049088000 7 8 [1;10];
 Te 3471564096000 7 8 [2;9];
 Te 2695781088000 7 8 [3;8];
 Te 2306592288000 7 8 [4;7];
 Te 2143132992000 7 8 [5;6];
 Te (-5722121499494400) 7 8 [13];
 Te (-8533613088000) 7 9 [1;11];
 Te (-6050588544000) 7 9 [2;10];
 Te (-4688427744000) 7 9 [3;9];
 Te (-3956752800000) 7 9 [4;8];
 Te (-3596104512000) 7 9 [5;7];
 Te (-1743565824000) 7 9 [6;6];
 Te 12080034276710400 7 9 [14];
 Te 14024807596800 7 10 [1;12];
 Te 10086216940800 7 10 [2;11];
 Te 7822694880000 7 10 [3;10];
 Te 6540966432000 7 10 [4;9];
 Te 5848210368000 7 10 [5;8];
 Te 5543086348800 7 10 [6;7];
 Te (-24160068553420800) 7 10 [15];
 Te (-22194139968000) 7 11 [1;13];
 Te (-16183508140800) 7 11 [2;12];
 Te (-12588960384000) 7 11 [3;11];
 Te (-10463989536000) 7 11 [4;10];
 Te (-9241936704000) 7 11 [5;9];
 Te (-8608856256000) 7 11 [6;8];
 Te (-4206352550400) 7 11 [7;7];
 Te 33999533568000 7 12 [1;14];
 Te 25121877580800 7 12 [2;13];
 Te 19626531724800 7 12 [3;12];
 Te 16257713472000 7 12 [4;11];
 Te 14228742528000 7 12 [5;10];
 Te 13076743680000 7 12 [6;9];
 Te 12553673932800 7 12 [7;8];
 Te 2594592000 8 0 [1;3];
 Te 1037836800 8 0 [2;2];
 Te (-479480601600) 8 0 [6];
 Te (-25427001600) 8 1 [1;4];
 Te (-18162144000) 8 1 [2;3];
 Te 6233247820800 8 1 [7];
 Te 138032294400 8 2 [1;5];
 Te 92886393600 8 2 [2;4];
 Te 41513472000 8 2 [3;3];
 Te (-43632734745600) 8 2 [8];
 Te (-544864320000) 8 3 [1;6];
 Te (-355978022400) 8 3 [2;5];
 Te (-297859161600) 8 3 [3;4];
 Te 218163673728000 8 3 [9];
 Te 1743565824000 8 4 [1;7];
 Te 1126052928000 8 4 [2;6];
 Te 903436934400 8 4 [3;5];
 Te 422399577600 8 4 [4;4];
 Te (-872654694912000) 8 4 [10];
 Te (-4794806016000) 8 5 [1;8];
 Te (-3094829337600) 8 5 [2;7];
 Te (-2415565152000) 8 5 [3;6];
 Te (-2161295136000) 8 5 [4;5];
 Te 2967025962700800 8 5 [11];
 Te 11747274739200 8 6 [1;9];
 Te 7628100480000 8 6 [2;8];
 Te 5848210368000 8 6 [3;7];
 Te 5074503033600 8 6 [4;6];
 Te 2426462438400 8 6 [5;5];
 Te (-8901077888102400) 8 6 [12];
 Te (-26268687244800) 8 7 [1;10];
 Te (-17227053043200) 8 7 [2;9];
 Te (-13061176128000) 8 7 [3;8];
 Te (-11086172697600) 8 7 [4;7];
 Te (-10272508646400) 8 7 [5;6];
 Te 24160068553420800 8 7 [13];
 Te 54540918432000 8 8 [1;11];
 Te 36200785420800 8 8 [2;10];
 Te 27275907859200 8 8 [3;9];
 Te 22782593433600 8 8 [4;8];
 Te 20624930726400 8 8 [5;7];
 Te 9989179200000 8 8 [6;6];
 Te (-60400171383552000) 8 8 [14];
 Te (-106484650272000) 8 9 [1;12];
 Te (-71608144608000) 8 9 [2;11];
 Te (-53810281324800) 8 9 [3;10];
 Te (-44423047468800) 8 9 [4;9];
 Te (-39513560486400) 8 9 [5;8];
 Te (-37377692352000) 8 9 [6;7];
 Te 140933733228288000 8 9 [15];
 Te 197386180992000 8 10 [1;13];
 Te 134534265465600 8 10 [2;12];
 Te 101090493504000 8 10 [3;11];
 Te 82757625350400 8 10 [4;10];
 Te 72619516569600 8 10 [5;9];
 Te 67454202816000 8 10 [6;8];
 Te 32931599500800 8 10 [7;7];
 Te (-350006309452800) 8 11 [1;14];
 Te (-241774460928000) 8 11 [2;13];
 Te (-182005439616000) 8 11 [3;12];
 Te (-148132522137600) 8 11 [4;11];
 Te (-128623265971200) 8 11 [5;10];
 Te (-117777871411200) 8 11 [6;9];
 Te (-112895887104000) 8 11 [7;8];
 Te 7264857600 9 0 [1;4];
 Te 5189184000 9 0 [2;3];
 Te (-1780927948800) 9 0 [7];
 Te (-87178291200) 9 1 [1;5];
 Te (-58118860800) 9 1 [2;4];
 Te (-25945920000) 9 1 [3;3];
 Te 26713919232000 9 1 [8];
 Te 566658892800 9 2 [1;6];
 Te 363242880000 9 2 [2;5];
 Te 303048345600 9 2 [3;4];
 Te (-213711353856000) 9 2 [9];
 Te (-2637143308800) 9 3 [1;7];
 Te (-1656387532800) 9 3 [2;6];
 Te (-1322204083200) 9 3 [3;5];
 Te (-617512896000) 9 3 [4;4];
 Te 1211031005184000 9 3 [10];
 Te 9829352332800 9 4 [1;8];
 Te 6124274956800 9 4 [2;7];
 Te 4743952012800 9 4 [3;6];
 Te 4235411980800 9 4 [4;5];
 Te (-5449639523328000) 9 4 [11];
 Te (-31166239104000) 9 5 [1;9];
 Te (-19418964364800) 9 5 [2;8];
 Te (-14733131212800) 9 5 [3;7];
 Te (-12742560230400) 9 5 [4;6];
 Te (-6087950668800) 9 5 [5;5];
 Te 20708630188646400 9 5 [12];
 Te 87265469491200 9 6 [1;10];
 Te 54660788582400 9 6 [2;9];
 Te 40886618572800 9 6 [3;8];
 Te 34551662745600 9 6 [4;7];
 Te 31965373440000 9 6 [5;6];
 Te (-69028767295488000) 9 6 [13];
 Te (-221280297638400) 9 7 [1;11];
 Te (-139802843980800) 9 7 [2;10];
 Te (-103602058560000) 9 7 [3;9];
 Te (-86044973414400) 9 7 [4;8];
 Te (-77719446604800) 9 7 [5;7];
 Te (-37617432652800) 9 7 [6;6];
 Te 207086301886464000 9 7 [14];
 Te 517359569126400 9 8 [1;12];
 Te 330362134502400 9 8 [2;11];
 Te 243439151155200 9 8 [3;10];
 Te 199551108556800 9 8 [4;9];
 Te 176971931136000 9 8 [5;8];
 Te 167207962521600 9 8 [6;7];
 Te (-569487330187776000) 9 8 [15];
 Te (-1130295604838400) 9 9 [1;13];
 Te (-730328869670400) 9 9 [2;12];
 Te (-536652955238400) 9 9 [3;11];
 Te (-435562461734400) 9 9 [4;10];
 Te (-380794775961600) 9 9 [5;9];
 Te (-353115668505600) 9 9 [6;8];
 Te (-172307892556800) 9 9 [7;7];
 Te 2331234684979200 9 10 [1;14];
 Te 1525067966822400 9 10 [2;13];
 Te 1119906858470400 9 10 [3;12];
 Te 902222665344000 9 10 [4;11];
 Te 779896993075200 9 10 [5;10];
 Te 712595352268800 9 10 [6;9];
 Te 682431663513600 9 10 [7;8];
 Te 21794572800 10 0 [1;5];
 Te 14529715200 10 0 [2;4];
 Te 6486480000 10 0 [3;3];
 Te (-6678479808000) 10 0 [8];
 Te (-308237529600) 10 1 [1;6];
 Te (-196151155200) 10 1 [2;5];
 Te (-163459296000) 10 1 [3;4];
 Te 113534156736000 10 1 [9];
 Te 2328905779200 10 2 [1;7];
 Te 1441555315200 10 2 [2;6];
 Te 1147847500800 10 2 [3;5];
 Te 535783248000 10 2 [4;4];
 Te (-1021807410624000) 10 2 [10];
 Te (-12466495641600) 10 3 [1;8];
 Te (-7603192396800) 10 3 [2;7];
 Te (-5865853593600) 10 3 [3;6];
 Te (-5230697472000) 10 3 [4;5];
 Te 6471446933952000 10 3 [11];
 Te 52982606476800 10 4 [1;9];
 Te 32125200307200 10 4 [2;8];
 Te 24232451443200 10 4 [3;7];
 Te 20918638540800 10 4 [4;6];
 Te 9989179200000 10 4 [5;5];
 Te (-32357234669760000) 10 4 [12];
 Te (-190114058534400) 10 5 [1;10];
 Te (-115315084684800) 10 5 [2;9];
 Te (-85587287385600) 10 5 [3;8];
 Te (-72136922457600) 10 5 [4;7];
 Te (-66672711705600) 10 5 [5;6];
 Te 135900385612992000 10 5 [13];
 Te 598391790796800 10 6 [1;11];
 Te 364644997516800 10 6 [2;10];
 Te 267550175692800 10 6 [3;9];
 Te 221454654220800 10 6 [4;8];
 Te 199744146201600 10 6 [5;7];
 Te 96640249305600 10 6 [6;6];
 Te (-498301413914304000) 10 6 [14];
 Te (-1695443407257600) 10 7 [1;12];
 Te (-1040952386073600) 10 7 [2;11];
 Te (-757784842214400) 10 7 [3;10];
 Te (-618529976064000) 10 7 [4;9];
 Te (-547523257881600) 10 7 [5;8];
 Te (-516923677670400) 10 7 [6;7];
 Te 1637276074289856000 10 7 [15];
 Te 4405125281356800 10 8 [1;13];
 Te 2730162545510400 10 8 [2;12];
 Te 1977497871148800 10 8 [3;11];
 Te 1596670403328000 10 8 [4;10];
 Te 1392673201920000 10 8 [5;9];
 Te 1290045672115200 10 8 [6;8];
 Te 629293381516800 10 8 [7;7];
 Te (-10641934958054400) 10 9 [1;14];
 Te (-6665716491033600) 10 9 [2;13];
 Te (-4814664504249600) 10 9 [3;12];
 Te (-3854744339846400) 10 9 [4;11];
 Te (-3322800569088000) 10 9 [5;10];
 Te (-3031824341145600) 10 9 [6;9];
 Te (-2901748103654400) 10 9 [7;8];
 Te 68497228800 11 0 [1;6];
 Te 43589145600 11 0 [2;5];
 Te 36324288000 11 0 [3;4];
 Te (-25229812608000) 11 0 [9];
 Te (-1113079968000) 11 1 [1;7];
 Te (-684972288000) 11 1 [2;6];
 Te (-544864320000) 11 1 [3;5];
 Te (-254270016000) 11 1 [4;4];
 Te 479366439552000 11 1 [10];
 Te 9572487724800 11 2 [1;8];
 Te 5770891526400 11 2 [2;7];
 Te 4442979340800 11 2 [3;6];
 Te 3959347392000 11 2 [4;5];
 Te (-4793664395520000) 11 2 [11];
 Te (-57880158336000) 11 3 [1;9];
 Te (-34505479008000) 11 3 [2;8];
 Te (-25943325408000) 11 3 [3;7];
 Te (-22370572224000) 11 3 [4;6];
 Te (-10679340672000) 11 3 [5;5];
 Te 33555650768640000 11 3 [12];
 Te 276043832064000 11 4 [1;10];
 Te 163845371289600 11 4 [2;9];
 Te 121051727596800 11 4 [3;8];
 Te 101863163001600 11 4 [4;7];
 Te 94090284288000 11 4 [5;6];
 Te (-184556079227520000) 11 4 [13];
 Te (-1105065792230400) 11 5 [1;11];
 Te (-656271949132800) 11 5 [2;10];
 Te (-478624386240000) 11 5 [3;9];
 Te (-395314631712000) 11 5 [4;8];
 Te (-356233849171200) 11 5 [5;7];
 Te (-172307892556800) 11 5 [6;6];
 Te 848957964446592000 11 5 [14];
 Te 3860161329024000 11 6 [1;12];
 Te 2301849373824000 11 6 [2;11];
 Te 1662941472192000 11 6 [3;10];
 Te 1353676484160000 11 6 [4;9];
 Te 1196810046432000 11 6 [5;8];
 Te 1129355843616000 11 6 [6;7];
 Te (-3395831857786368000) 11 6 [15];
 Te (-12080034276710400) 11 7 [1;13];
 Te (-7251048143539200) 11 7 [2;12];
 Te (-5203426234406400) 11 7 [3;11];
 Te (-4187406839616000) 11 7 [4;10];
 Te (-3646792461312000) 11 7 [5;9];
 Te (-3375594808185600) 11 7 [6;8];
 Te (-1646279521286400) 11 7 [7;7];
 Te 34514383647744000 11 8 [1;14];
 Te 20890284839424000 11 8 [2;13];
 Te 14924176210944000 11 8 [3;12];
 Te 11901051017856000 11 8 [4;11];
 Te 10239650733312000 11 8 [5;10];
 Te 9334117368576000 11 8 [6;9];
 Te 8929983718656000 11 8 [7;8];
 Te 222615993600 12 0 [1;7];
 Te 136994457600 12 0 [2;6];
 Te 108972864000 12 0 [3;5];
 Te 50854003200 12 0 [4;4];
 Te (-95873287910400) 12 0 [10];
 Te (-4081293216000) 12 1 [1;8];
 Te (-2448775929600) 12 1 [2;7];
 Te (-1883673792000) 12 1 [3;6];
 Te (-1678182105600) 12 1 [4;5];
 Te 2013339046118400 12 1 [11];
 Te 39328825536000 12 2 [1;9];
 Te 23226268665600 12 2 [2;8];
 Te 17432544729600 12 2 [3;7];
 Te 15022687680000 12 2 [4;6];
 Te 7170414451200 12 2 [5;5];
 Te (-22146729507302400) 12 2 [12];
 Te (-264913032384000) 12 3 [1;10];
 Te (-155089142208000) 12 3 [2;9];
 Te (-114276210048000) 12 3 [3;8];
 Te (-96067363392000) 12 3 [4;7];
 Te (-88703911296000) 12 3 [5;6];
 Te 169791592889318400 12 3 [13];
 Te 1400254599744000 12 4 [1;11];
 Te 817000696512000 12 4 [2;10];
 Te 593642649600000 12 4 [3;9];
 Te 489641023872000 12 4 [4;8];
 Te 440974261728000 12 4 [5;7];
 Te 213259894848000 12 4 [6;6];
 Te (-1018749557335910400) 12 4 [14];
 Te (-6183827070220800) 12 5 [1;12];
 Te (-3610386184204800) 12 5 [2;11];
 Te (-2595702485376000) 12 5 [3;10];
 Te (-2109212334028800) 12 5 [4;9];
 Te (-1863267325920000) 12 5 [5;8];
 Te (-1757656015315200) 12 5 [6;7];
 Te 5093747786679552000 12 5 [15];
 Te 23728638757824000 12 6 [1;13];
 Te 13904149728268800 12 6 [2;12];
 Te 9917542514880000 12 6 [3;11];
 Te 7963419323059200 12 6 [4;10];
 Te 6928026628723200 12 6 [5;9];
 Te 6409599644448000 12 6 [6;8];
 Te 3125494301529600 12 6 [7;7];
 Te (-81252611504064000) 12 7 [1;14];
 Te (-47888707311244800) 12 7 [2;13];
 Te (-33961850751628800) 12 7 [3;12];
 Te (-27009998503488000) 12 7 [4;11];
 Te (-23209498260748800) 12 7 [5;10];
 Te (-21142982532672000) 12 7 [6;9];
 Te (-20221740470131200) 12 7 [7;8];
 Te 742053312000 13 0 [1;8];
 Te 445231987200 13 0 [2;7];
 Te 342486144000 13 0 [3;6];
 Te 305124019200 13 0 [4;5];
 Te (-366061644748800) 13 0 [11];
 Te (-15137887564800) 13 1 [1;9];
 Te (-8904639744000) 13 1 [2;8];
 Te (-6678479808000) 13 1 [3;7];
 Te (-5753767219200) 13 1 [4;6];
 Te (-2746116172800) 13 1 [5;5];
 Te 8419417829222400 13 1 [12];
 Te 161470800691200 13 2 [1;10];
 Te 93795538636800 13 2 [2;9];
 Te 69010958016000 13 2 [3;8];
 Te 57982904179200 13 2 [4;7];
 Te 53527470796800 13 2 [5;6];
 Te (-101033013950668800) 13 2 [13];
 Te (-1198416098880000) 13 3 [1;11];
 Te (-691296865459200) 13 3 [2;10];
 Te (-501182806924800) 13 3 [3;9];
 Te (-413026873459200) 13 3 [4;8];
 Te (-371837206540800) 13 3 [5;7];
 Te (-179805225600000) 13 3 [6;6];
 Te 841941782922240000 13 3 [14];
 Te 6950813373504000 13 4 [1;12];
 Te 3998925298368000 13 4 [2;11];
 Te 2866255122931200 13 4 [3;10];
 Te 2326337133120000 13 4 [4;9];
 Te 2053957902796800 13 4 [5;8];
 Te 1937101630464000 13 4 [6;7];
 Te (-5472621588994560000) 13 4 [15];
 Te (-33555650768640000) 13 5 [1;13];
 Te (-19318467513945600) 13 5 [2;12];
 Te (-13725018058752000) 13 5 [3;11];
 Te (-11004205384972800) 13 5 [4;10];
 Te (-9566551298304000) 13 5 [5;9];
 Te (-8847615801024000) 13 5 [6;8];
 Te (-4313886972595200) 13 5 [7;7];
 Te 140262620212915200 13 6 [1;14];
 Te 81012928284288000 13 6 [2;13];
 Te 57170755369728000 13 6 [3;12];
 Te 45384574204569600 13 6 [4;11];
 Te 38963438485171200 13 6 [5;10];
 Te 35477614511539200 13 6 [6;9];
 Te 33924850831872000 13 6 [7;8];
 Te 2522981260800 14 0 [1;9];
 Te 1484106624000 14 0 [2;8];
 Te 1113079968000 14 0 [3;7];
 Te 958961203200 14 0 [4;6];
 Te 457686028800 14 0 [5;5];
 Te (-1403236304870400) 14 0 [12];
 Te (-56652397401600) 14 1 [1;10];
 Te (-32798756390400) 14 1 [2;9];
 Te (-24116732640000) 14 1 [3;8];
 Te (-20258055417600) 14 1 [4;7];
 Te (-18699743462400) 14 1 [5;6];
 Te 35080907621760000 14 1 [13];
 Te 662397261926400 14 2 [1;11];
 Te 379593998784000 14 2 [2;10];
 Te 274856546764800 14 2 [3;9];
 Te 226400465491200 14 2 [4;8];
 Te 203779255680000 14 2 [5;7];
 Te 98533263628800 14 2 [6;6];
 Te (-456051799082880000) 14 2 [14];
 Te (-5368904122982400) 14 3 [1;12];
 Te (-3059229459686400) 14 3 [2;11];
 Te (-2188571562777600) 14 3 [3;10];
 Te (-1774991522304000) 14 3 [4;9];
 Te (-1566622952294400) 14 3 [5;8];
 Te (-1477279733529600) 14 3 [6;7];
 Te 4104466191745920000 14 3 [15];
 Te 33891207276326400 14 4 [1;13];
 Te 19270530869990400 14 4 [2;12];
 Te 13655750755046400 14 4 [3;11];
 Te 10937676932582400 14 4 [4;10];
 Te 9504070409433600 14 4 [5;9];
 Te 8787760639257600 14 4 [6;8];
 Te 4284398915596800 14 4 [7;7];
 Te (-177509392566105600) 14 5 [1;14];
 Te (-101002508813606400) 14 5 [2;13];
 Te (-71042106341606400) 14 5 [3;12];
 Te (-56324409837696000) 14 5 [4;11];
 Te (-48324845772403200) 14 5 [5;10];
 Te (-43986990996748800) 14 5 [6;9];
 Te (-42055723046937600) 14 5 [7;8];
 Te 8715753446400 15 0 [1;10];
 Te 5045962521600 15 0 [2;9];
 Te 3710266560000 15 0 [3;8];
 Te 3116623910400 15 0 [4;7];
 Te 2876883609600 15 0 [5;6];
 Te (-5397062711040000) 15 0 [13];
 Te (-213535959436800) 15 1 [1;11];
 Te (-122020548249600) 15 1 [2;10];
 Te (-88304344128000) 15 1 [3;9];
 Te (-72721224576000) 15 1 [4;8];
 Te (-65449102118400) 15 1 [5;7];
 Te (-31645719705600) 15 1 [6;6];
 Te 145720693198080000 15 1 [14];
 Te 2714957198553600 15 2 [1;12];
 Te 1538330483289600 15 2 [2;11];
 Te 1099331743910400 15 2 [3;10];
 Te 891206027712000 15 2 [4;9];
 Te 786428100057600 15 2 [5;8];
 Te 741516750374400 15 2 [6;7];
 Te (-2040089704773120000) 15 2 [15];
 Te (-23855017182796800) 15 3 [1;13];
 Te (-13452765444518400) 15 3 [2;12];
 Te (-9517602763468800) 15 3 [3;11];
 Te (-7618256597952000) 15 3 [4;10];
 Te (-6617631436416000) 15 3 [5;9];
 Te (-6117932736115200) 15 3 [6;8];
 Te (-2982609082252800) 15 3 [7;7];
 Te 162775411364966400 15 4 [1;14];
 Te 91637431735449600 15 4 [2;13];
 Te 64313544680985600 15 4 [3;12];
 Te 50945413789670400 15 4 [4;11];
 Te 43690749822720000 15 4 [5;10];
 Te 39759810099609600 15 4 [6;9];
 Te 38010345211238400 15 4 [7;8];
 Te 30505137062400 16 0 [1;11];
 Te 17431506892800 16 0 [2;10];
 Te 12614906304000 16 0 [3;9];
 Te 10388746368000 16 0 [4;8];
 Te 9349871731200 16 0 [5;7];
 Te 4520817100800 16 0 [6;6];
 Te (-20817241885440000) 16 0 [14];
 Te (-809559406656000) 16 1 [1;12];
 Te (-457577055936000) 16 1 [2;11];
 Te (-326840754240000) 16 1 [3;10];
 Te (-264913032384000) 16 1 [4;9];
 Te (-233746793280000) 16 1 [5;8];
 Te (-220389833664000) 16 1 [6;7];
 Te 603700014677760000 16 1 [15];
 Te 11117949184742400 16 2 [1;13];
 Te 6239473803763200 16 2 [2;12];
 Te 4410171243878400 16 2 [3;11];
 Te 3528733336128000 16 2 [4;10];
 Te 3064680178560000 16 2 [5;9];
 Te 2833011134553600 16 2 [6;8];
 Te 1381109624294400 16 2 [7;7];
 Te (-105242722865280000) 16 3 [1;14];
 Te (-58827983550336000) 16 3 [2;13];
 Te (-41228866014336000) 16 3 [3;12];
 Te (-32640496656768000) 16 3 [4;11];
 Te (-27984449420928000) 16 3 [5;10];
 Te (-25462817347968000) 16 3 [6;9];
 Te (-24340832740224000) 16 3 [7;8];
 Te 107941254220800 17 0 [1;12];
 Te 61010274124800 17 0 [2;11];
 Te 43578767232000 17 0 [3;10];
 Te 35321737651200 17 0 [4;9];
 Te 31166239104000 17 0 [5;8];
 Te 29385311155200 17 0 [6;7];
 Te (-80493335290368000) 17 0 [15];
 Te (-3084035834880000) 17 1 [1;13];
 Te (-1727060067532800) 17 1 [2;12];
 Te (-1220205482496000) 17 1 [3;11];
 Te (-976164385996800) 17 1 [4;10];
 Te (-847721703628800) 17 1 [5;9];
 Te (-783608297472000) 17 1 [6;8];
 Te (-382009045017600) 17 1 [7;7];
 Te 45489528564480000 17 2 [1;14];
 Te 25319934204364800 17 2 [2;13];
 Te 17730524280268800 17 2 [3;12];
 Te 14032363048704000 17 2 [4;11];
 Te 12028657203763200 17 2 [5;10];
 Te 10943802245376000 17 2 [6;9];
 Te 10461170771251200 17 2 [7;8];
 Te 385504479360000 18 0 [1;13];
 Te 215882508441600 18 0 [2;12];
 Te 152525685312000 18 0 [3;11];
 Te 122020548249600 18 0 [4;10];
 Te 105965212953600 18 0 [5;9];
 Te 97951037184000 18 0 [6;8];
 Te 47751130627200 18 0 [7;7];
 Te (-11796437068416000) 18 1 [1;14];
 Te (-6553576149120000) 18 1 [2;13];
 Te (-4587503304384000) 18 1 [3;12];
 Te (-3630111310425600) 18 1 [4;11];
 Te (-3111523980364800) 18 1 [5;10];
 Te (-2830784974617600) 18 1 [6;9];
 Te (-2705897402208000) 18 1 [7;8];
 Te 1387816125696000 19 0 [1;14];
 Te 771008958720000 19 0 [2;13];
 Te 539706271104000 19 0 [3;12];
 Te 427071918873600 19 0 [4;11];
 Te 366061644748800 19 0 [5;10];
 Te 333033526425600 19 0 [6;9];
 Te 318340870848000 19 0 [7;8]].
Definition wit0_3 : list term := [Te 5189184000 5 0 [3];
 Te 518918400 5 1 [1;1];
 Te (-36324288000) 5 1 [4];
 Te (-2075673600) 5 2 [1;2];
 Te 145297152000 5 2 [5];
 Te 3632428800 5 3 [1;3];
 Te 1556755200 5 3 [2;2];
 Te (-435891456000) 5 3 [6];
 Te (-5708102400) 5 4 [1;4];
 Te (-4670265600) 5 4 [2;3];
 Te 1089728640000 5 4 [7];
 Te 8302694400 5 5 [1;5];
 Te 6745939200 5 5 [2;4];
 Te 3113510400 5 5 [3;3];
 Te (-2397403008000) 5 5 [8];
 Te (-11416204800) 5 6 [1;6];
 Te (-9340531200) 5 6 [2;5];
 Te (-8302694400) 5 6 [3;4];
 Te 4794806016000 5 6 [9];
 Te 15048633600 5 7 [1;7];
 Te 12454041600 5 7 [2;6];
 Te 10897286400 5 7 [3;5];
 Te 5189184000 5 7 [4;4];
 Te (-8904639744000) 5 7 [10];
 Te (-19199980800) 5 8 [1;8];
 Te (-16086470400) 5 8 [2;7];
 Te (-14010796800) 5 8 [3;6];
 Te (-12972960000) 5 8 [4;5];
 Te 15583119552000 5 8 [11];
 Te 23870246400 5 9 [1;9];
 Te 20237817600 5 9 [2;8];
 Te 17643225600 5 9 [3;7];
 Te 16086470400 5 9 [4;6];
 Te 7783776000 5 9 [5;5];
 Te (-25971865920000) 5 9 [12];
 Te (-29059430400) 5 10 [1;10];
 Te (-24908083200) 5 10 [2;9];
 Te (-21794572800) 5 10 [3;8];
 Te (-19718899200) 5 10 [4;7];
 Te (-18681062400) 5 10 [5;6];
 Te 41554985472000 5 10 [13];
 Te 34767532800 5 11 [1;11];
 Te 30097267200 5 11 [2;10];
 Te 26464838400 5 11 [3;9];
 Te 23870246400 5 11 [4;8];
 Te 22313491200 5 11 [5;7];
 Te 10897286400 5 11 [6;6];
 Te (-64221341184000) 5 11 [14];
 Te (-40994553600) 5 12 [1;12];
 Te (-35805369600) 5 12 [2;11];
 Te (-31654022400) 5 12 [3;10];
 Te (-28540512000) 5 12 [4;9];
 Te (-26464838400) 5 12 [5;8];
 Te (-25427001600) 5 12 [6;7];
 Te 96332011776000 5 12 [15];
 Te 47740492800 5 13 [1;13];
 Te 42032390400 5 13 [2;12];
 Te 37362124800 5 13 [3;11];
 Te 33729696000 5 13 [4;10];
 Te 31135104000 5 13 [5;9];
 Te 29578348800 5 13 [6;8];
 Te 14529715200 5 13 [7;7];
 Te (-55005350400) 5 14 [1;14];
 Te (-48778329600) 5 14 [2;13];
 Te (-43589145600) 5 14 [3;12];
 Te (-39437798400) 5 14 [4;11];
 Te (-36324288000) 5 14 [5;10];
 Te (-34248614400) 5 14 [6;9];
 Te (-33210777600) 5 14 [7;8];
 Te (-605404800) 6 0 [1;1];
 Te 36324288000 6 0 [4];
 Te 5189184000 6 1 [1;2];
 Te (-326918592000) 6 1 [5];
 Te (-15048633600) 6 2 [1;3];
 Te (-7005398400) 6 2 [2;2];
 Te 1634592960000 6 2 [6];
 Te (-43243200) 6 3 [1;1;1];
 Te 35459424000 6 3 [1;4];
 Te 31135104000 6 3 [2;3];
 Te (-5993507520000) 6 3 [7];
 Te 129729600 6 4 [1;1;2];
 Te (-72648576000) 6 4 [1;5];
 Te (-61232371200) 6 4 [2;4];
 Te (-29578348800) 6 4 [3;3];
 Te 17980522560000 6 4 [8];
 Te (-129729600) 6 5 [1;1;3];
 Te (-129729600) 6 5 [1;2;2];
 Te 134399865600 6 5 [1;6];
 Te 110529619200 6 5 [2;5];
 Te 103783680000 6 5 [3;4];
 Te (-46749358656000) 6 5 [9];
 Te 129729600 6 6 [1;1;4];
 Te 259459200 6 6 [1;2;3];
 Te (-230053824000) 6 6 [1;7];
 Te 43243200 6 6 [2;2;2];
 Te (-186810624000) 6 6 [2;6];
 Te (-171243072000) 6 6 [3;5];
 Te (-83891808000) 6 6 [4;4];
 Te 109081836864000 6 6 [10];
 Te (-129729600) 6 7 [1;1;5];
 Te (-259459200) 6 7 [1;2;4];
 Te (-129729600) 6 7 [1;3;3];
 Te 370507737600 6 7 [1;8];
 Te (-129729600) 6 7 [2;2;3];
 Te 299415916800 6 7 [2;7];
 Te 269318649600 6 7 [3;6];
 Te 259459200000 6 7 [4;5];
 Te (-233746793280000) 6 7 [11];
 Te 129729600 6 8 [1;1;6];
 Te 259459200 6 8 [1;2;5];
 Te 259459200 6 8 [1;3;4];
 Te (-568215648000) 6 8 [1;9];
 Te 129729600 6 8 [2;2;4];
 Te 129729600 6 8 [2;3;3];
 Te (-459242784000) 6 8 [2;8];
 Te (-407350944000) 6 8 [3;7];
 Te (-386594208000) 6 8 [4;6];
 Te (-190702512000) 6 8 [5;5];
 Te 467493586560000 6 8 [12];
 Te (-129729600) 6 9 [1;1;7];
 Te (-259459200) 6 9 [1;2;6];
 Te (-259459200) 6 9 [1;3;5];
 Te (-129729600) 6 9 [1;4;4];
 Te 837188352000 6 9 [1;10];
 Te (-129729600) 6 9 [2;2;5];
 Te (-259459200) 6 9 [2;3;4];
 Te 678745267200 6 9 [2;9];
 Te (-43243200) 6 9 [3;3;3];
 Te 596237241600 6 9 [3;8];
 Te 558529171200 6 9 [4;7];
 Te 544864320000 6 9 [5;6];
 Te (-883043441280000) 6 9 [13];
 Te 129729600 6 10 [1;1;8];
 Te 259459200 6 10 [1;2;7];
 Te 259459200 6 10 [1;3;6];
 Te 259459200 6 10 [1;4;5];
 Te (-1192993401600) 6 10 [1;11];
 Te 129729600 6 10 [2;2;6];
 Te 259459200 6 10 [2;3;5];
 Te 129729600 6 10 [2;4;4];
 Te (-971934163200) 6 10 [2;10];
 Te 129729600 6 10 [3;3;4];
 Te (-848431584000) 6 10 [3;9];
 Te (-786161376000) 6 10 [4;8];
 Te (-759177619200) 6 10 [5;7];
 Te (-375956380800) 6 10 [6;6];
 Te 1589478194304000 6 10 [14];
 Te (-129729600) 6 11 [1;1;9];
 Te (-259459200) 6 11 [1;2;8];
 Te (-259459200) 6 11 [1;3;7];
 Te (-259459200) 6 11 [1;4;6];
 Te (-129729600) 6 11 [1;5;5];
 Te 1652755104000 6 11 [1;12];
 Te (-129729600) 6 11 [2;2;7];
 Te (-259459200) 6 11 [2;3;6];
 Te (-259459200) 6 11 [2;4;5];
 Te 1354377024000 6 11 [2;11];
 Te (-129729600) 6 11 [3;3;5];
 Te (-129729600) 6 11 [3;4;4];
 Te 1177944768000 6 11 [3;10];
 Te 1081944864000 6 11 [4;9];
 Te 1035242208000 6 11 [5;8];
 Te 1017080064000 6 11 [6;7];
 Te (-2745462335616000) 6 11 [15];
 Te 129729600 6 12 [1;1;10];
 Te 259459200 6 12 [1;2;9];
 Te 259459200 6 12 [1;3;8];
 Te 259459200 6 12 [1;4;7];
 Te 259459200 6 12 [1;5;6];
 Te (-2235154521600) 6 12 [1;13];
 Te 129729600 6 12 [2;2;8];
 Te 259459200 6 12 [2;3;7];
 Te 259459200 6 12 [2;4;6];
 Te 129729600 6 12 [2;5;5];
 Te (-1843198156800) 6 12 [2;12];
 Te 129729600 6 12 [3;3;6];
 Te 259459200 6 12 [3;4;5];
 Te (-1600344345600) 6 12 [3;11];
 Te 43243200 6 12 [4;4;4];
 Te (-1459890432000) 6 12 [4;10];
 Te (-1385512128000) 6 12 [5;9];
 Te (-1351263513600) 6 12 [6;8];
 Te (-670788518400) 6 12 [7;7];
 Te (-129729600) 6 13 [1;1;11];
 Te (-259459200) 6 13 [1;2;10];
 Te (-259459200) 6 13 [1;3;9];
 Te (-259459200) 6 13 [1;4;8];
 Te (-259459200) 6 13 [1;5;7];
 Te (-129729600) 6 13 [1;6;6];
 Te 2960429472000 6 13 [1;14];
 Te (-129729600) 6 13 [2;2;9];
 Te (-259459200) 6 13 [2;3;8];
 Te (-259459200) 6 13 [2;4;7];
 Te (-259459200) 6 13 [2;5;6];
 Te 2457078624000 6 13 [2;13];
 Te (-129729600) 6 13 [3;3;7];
 Te (-259459200) 6 13 [3;4;6];
 Te (-129729600) 6 13 [3;5;5];
 Te 2132754624000 6 13 [3;12];
 Te (-129729600) 6 13 [4;4;5];
 Te 1935565632000 6 13 [4;11];
 Te 1823998176000 6 13 [5;10];
 Te 1766917152000 6 13 [6;9];
 Te 1743565824000 6 13 [7;8];
 Te (-3113510400) 7 0 [1;2];
 Te 196151155200 7 0 [5];
 Te 20756736000 7 1 [1;3];
 Te 9340531200 7 1 [2;2];
 Te (-2157662707200) 7 1 [6];
 Te 129729600 7 2 [1;1;1];
 Te (-83026944000) 7 2 [1;4];
 Te (-70572902400) 7 2 [2;3];
 Te 12945976243200 7 2 [7];
 Te (-648648000) 7 3 [1;1;2];
 Te 254270016000 7 3 [1;5];
 Te 207567360000 7 3 [2;4];
 Te 98594496000 7 3 [3;3];
 Te (-56099230387200) 7 3 [8];
 Te 1037836800 7 4 [1;1;3];
 Te 908107200 7 4 [1;2;2];
 Te (-653837184000) 7 4 [1;6];
 Te (-518918400000) 7 4 [2;5];
 Te (-477404928000) 7 4 [3;4];
 Te 196347306355200 7 4 [9];
 Te (-1556755200) 7 5 [1;1;4];
 Te (-2594592000) 7 5 [1;2;3];
 Te 1482030950400 7 5 [1;7];
 Te (-389188800) 7 5 [2;2;2];
 Te 1155112358400 7 5 [2;6];
 Te 1037836800000 7 5 [3;5];
 Te 503350848000 7 5 [4;4];
 Te (-589041919065600) 7 5 [10];
 Te 2205403200 7 6 [1;1;5];
 Te 3632428800 7 6 [1;2;4];
 Te 1686484800 7 6 [1;3;3];
 Te (-3051240192000) 7 6 [1;8];
 Te 1556755200 7 6 [2;2;3];
 Te (-2353813862400) 7 6 [2;7];
 Te (-2075673600000) 7 6 [3;6];
 Te (-1971889920000) 7 6 [4;5];
 Te 1570778450841600 7 6 [11];
 Te (-2983780800) 7 7 [1;1;6];
 Te (-4929724800) 7 7 [1;2;5];
 Te (-4410806400) 7 7 [1;3;4];
 Te 5822264448000 7 7 [1;9];
 Te (-2075673600) 7 7 [2;2;4];
 Te (-1945944000) 7 7 [2;3;3];
 Te 4471000934400 7 7 [2;8];
 Te 3884623142400 7 7 [3;7];
 Te 3632428800000 7 7 [4;6];
 Te 1779890112000 7 7 [5;5];
 Te (-3814747666329600) 7 7 [12];
 Te 3891888000 7 8 [1;1;7];
 Te 6486480000 7 8 [1;2;6];
 Te 5708102400 7 8 [1;3;5];
 Te 2724321600 7 8 [1;4;4];
 Te (-10445827392000) 7 8 [1;10];
 Te 2724321600 7 8 [2;2;5];
 Te 4929724800 7 8 [2;3;4];
 Te (-8017289280000) 7 8 [2;9];
 Te 778377600 7 8 [3;3;3];
 Te (-6886047168000) 7 8 [3;8];
 Te (-6356750400000) 7 8 [4;7];
 Te (-6138804672000) 7 8 [5;6];
 Te 8583182249241600 7 8 [13];
 Te (-4929724800) 7 9 [1;1;8];
 Te (-8302694400) 7 9 [1;2;7];
 Te (-7264857600) 7 9 [1;3;6];
 Te (-6745939200) 7 9 [1;4;5];
 Te 17809279488000 7 9 [1;11];
 Te (-3502699200) 7 9 [2;2;6];
 Te (-6227020800) 7 9 [2;3;5];
 Te (-2983780800) 7 9 [2;4;4];
 Te 13699445760000 7 9 [2;10];
 Te (-2854051200) 7 9 [3;3;4];
 Te 11665285632000 7 9 [3;9];
 Te 10653394752000 7 9 [4;8];
 Te 10170800640000 7 9 [5;7];
 Te 5012751744000 7 9 [6;6];
 Te (-18120051415065600) 7 9 [14];
 Te 6097291200 7 10 [1;1;9];
 Te 10378368000 7 10 [1;2;8];
 Te 9081072000 7 10 [1;3;7];
 Te 8302694400 7 10 [1;4;6];
 Te 4021617600 7 10 [1;5;5];
 Te (-29088489830400) 7 10 [1;12];
 Te 4410806400 7 10 [2;2;7];
 Te 7783776000 7 10 [2;3;6];
 Te 7264857600 7 10 [2;4;5];
 Te (-22467091046400) 7 10 [2;11];
 Te 3502699200 7 10 [3;3;5];
 Te 3372969600 7 10 [3;4;4];
 Te (-19013170176000) 7 10 [3;10];
 Te (-17207334144000) 7 10 [4;9];
 Te (-16273281024000) 7 10 [5;8];
 Te (-15866448998400) 7 10 [6;7];
 Te 36240102830131200 7 10 [15];
 Te (-7394587200) 7 11 [1;1;10];
 Te (-12713500800) 7 11 [1;2;9];
 Te (-11156745600) 7 11 [1;3;8];
 Te (-10118908800) 7 11 [1;4;7];
 Te (-9599990400) 7 11 [1;5;6];
 Te 45804927168000 7 11 [1;13];
 Te (-5448643200) 7 11 [2;2;8];
 Te (-9599990400) 7 11 [2;3;7];
 Te (-8821612800) 7 11 [2;4;6];
 Te (-4281076800) 7 11 [2;5;5];
 Te 35564591462400 7 11 [2;12];
 Te (-4281076800) 7 11 [3;3;6];
 Te (-8043235200) 7 11 [3;4;5];
 Te 29972726784000 7 11 [3;11];
 Te (-1297296000) 7 11 [4;4;4];
 Te 26921486592000 7 11 [4;10];
 Te 25255758528000 7 11 [5;9];
 Te 24409921536000 7 11 [6;8];
 Te 12074193331200 7 11 [7;7];
 Te 8821612800 7 12 [1;1;11];
 Te 15308092800 7 12 [1;2;10];
 Te 13491878400 7 12 [1;3;9];
 Te 12194582400 7 12 [1;4;8];
 Te 11416204800 7 12 [1;5;7];
 Te 5578372800 7 12 [1;6;6];
 Te (-69887930112000) 7 12 [1;14];
 Te 6616209600 7 12 [2;2;9];
 Te 11675664000 7 12 [2;3;8];
 Te 10637827200 7 12 [2;4;7];
 Te 10118908800 7 12 [2;5;6];
 Te (-54588140006400) 7 12 [2;13];
 Te 5189184000 7 12 [3;3;7];
 Te 9599990400 7 12 [3;4;6];
 Te 4670265600 7 12 [3;5;5];
 Te (-45891067622400) 7 12 [3;12];
 Te 4540536000 7 12 [4;4;5];
 Te (-40963418496000) 7 12 [4;11];
 Te (-38161259136000) 7 12 [5;10];
 Te (-36614882304000) 7 12 [6;9];
 Te (-35917455974400) 7 12 [7;8];
 Te (-9340531200) 8 0 [1;3];
 Te (-3943779840) 8 0 [2;2];
 Te 958961203200 8 0 [6];
 Te (-129729600) 8 1 [1;1;1];
 Te 83545862400 8 1 [1;4];
 Te 67459392000 8 1 [2;3];
 Te (-12466495641600) 8 1 [7];
 Te 1167566400 8 2 [1;1;2];
 Te (-424994169600) 8 2 [1;5];
 Te (-332626694400) 8 2 [2;4];
 Te (-154637683200) 8 2 [3;3];
 Te 87265469491200 8 2 [8];
 Te (-2983780800) 8 3 [1;1;3];
 Te (-2464862400) 8 3 [1;2;2];
 Te 1601901100800 8 3 [1;6];
 Te 1224128505600 8 3 [2;5];
 Te 1095436742400 8 3 [3;4];
 Te (-436327347456000) 8 3 [9];
 Te 6616209600 8 4 [1;1;4];
 Te 10118908800 8 4 [1;2;3];
 Te (-4958265312000) 8 4 [1;7];
 Te 1427025600 8 4 [2;2;2];
 Te (-3723239520000) 8 4 [2;6];
 Te (-3253099449600) 8 4 [3;5];
 Te (-1559349792000) 8 4 [4;4];
 Te 1745309389824000 8 4 [10];
 Te (-13102689600) 8 5 [1;1;5];
 Te (-19459440000) 8 5 [1;2;4];
 Te (-8821612800) 8 5 [1;3;3];
 Te 13305586694400 8 5 [1;8];
 Te (-7654046400) 8 5 [2;2;3];
 Te 9875120935680 8 5 [2;7];
 Te 8481721248000 8 5 [3;6];
 Te 7918694784000 8 5 [4;5];
 Te (-5934051925401600) 8 5 [11];
 Te 23740516800 8 6 [1;1;6];
 Te 35026992000 8 6 [1;2;5];
 Te 30097267200 8 6 [1;3;4];
 Te (-32005330156800) 8 6 [1;9];
 Te 13362148800 8 6 [2;2;4];
 Te 12194582400 8 6 [2;3;3];
 Te (-23592625056000) 8 6 [2;8];
 Te (-19996520544000) 8 6 [3;7];
 Te (-18336500582400) 8 6 [4;6];
 Te (-8917612704000) 8 6 [5;5];
 Te 17802155776204800 8 6 [12];
 Te (-40086446400) 8 7 [1;1;7];
 Te (-59416156800) 8 7 [1;2;6];
 Te (-49556707200) 8 7 [1;3;5];
 Te (-23351328000) 8 7 [1;4;4];
 Te 70569269971200 8 7 [1;10];
 Te (-22443220800) 8 7 [2;2;5];
 Te (-38918880000) 8 7 [2;3;4];
 Te 51869526508800 8 7 [2;9];
 Te (-5967561600) 8 7 [3;3;3];
 Te 43500410553600 8 7 [3;8];
 Te 39368263334400 8 7 [4;7];
 Te 37566578649600 8 7 [5;6];
 Te (-48320137106841600) 8 7 [13];
 Te 63956692800 8 8 [1;1;8];
 Te 95740444800 8 8 [1;2;7];
 Te 78616137600 8 8 [1;3;6];
 Te 71351280000 8 8 [1;4;5];
 Te (-144923011833600) 8 8 [1;11];
 Te 36194558400 8 8 [2;2;6];
 Te 60972912000 8 8 [2;3;5];
 Te 28799971200 8 8 [2;4;4];
 Te (-106530315091200) 8 8 [2;10];
 Te 26724297600 8 8 [3;3;4];
 Te (-88593381676800) 8 8 [3;9];
 Te (-79361304422400) 8 8 [4;8];
 Te (-74690000985600) 8 8 [5;7];
 Te (-36618514732800) 8 8 [6;6];
 Te 120800342767104000 8 8 [14];
 Te (-97426929600) 8 9 [1;1;9];
 Te (-147632284800) 8 9 [1;2;8];
 Te (-120389068800) 8 9 [1;3;7];
 Te (-106637731200) 8 9 [1;4;6];
 Te (-51243192000) 8 9 [1;5;5];
 Te 280496151936000 8 9 [1;12];
 Te (-56172916800) 8 9 [2;2;7];
 Te (-93145852800) 8 9 [2;3;6];
 Te (-84843158400) 8 9 [2;4;5];
 Te 206661847392000 8 9 [2;11];
 Te (-39697257600) 8 9 [3;3;5];
 Te (-37621584000) 8 9 [3;4;4];
 Te 170746467091200 8 9 [3;10];
 Te 151685037504000 8 9 [4;9];
 Te 141272420889600 8 9 [5;8];
 Te 136542998592000 8 9 [6;7];
 Te (-281867466456576000) 8 9 [15];
 Te 142832289600 8 10 [1;1;10];
 Te 219243024000 8 10 [1;2;9];
 Te 178507929600 8 10 [1;3;8];
 Te 155675520000 8 10 [1;4;7];
 Te 145556611200 8 10 [1;5;6];
 Te (-516320694489600) 8 10 [1;13];
 Te 84194510400 8 10 [2;2;8];
 Te 138551212800 8 10 [2;3;7];
 Te 123243120000 8 10 [2;4;6];
 Te 59286427200 8 10 [2;5;5];
 Te (-381890316487680) 8 10 [2;12];
 Te 58118860800 8 10 [3;3;6];
 Te 106378272000 8 10 [3;4;5];
 Te (-313985588716800) 8 10 [3;11];
 Te 16864848000 8 10 [4;4;4];
 Te (-277003831104000) 8 10 [4;10];
 Te (-255868284672000) 8 10 [5;9];
 Te (-244622285107200) 8 10 [6;8];
 Te (-120530525955840) 8 10 [7;7];
 Te (-202767364800) 8 11 [1;1;11];
 Te (-315242928000) 8 11 [1;2;10];
 Te (-257124067200) 8 11 [1;3;9];
 Te (-222097075200) 8 11 [1;4;8];
 Te (-203675472000) 8 11 [1;5;7];
 Te (-98983684800) 8 11 [1;6;6];
 Te 910337511283200 8 11 [1;14];
 Te (-122335012800) 8 11 [2;2;9];
 Te (-200821420800) 8 11 [2;3;8];
 Te (-175913337600) 8 11 [2;4;7];
 Te (-164756592000) 8 11 [2;5;6];
 Te 676685161152000 8 11 [2;13];
 Te (-83545862400) 8 11 [3;3;7];
 Te (-149448499200) 8 11 [3;4;6];
 Te (-71999928000) 8 11 [3;5;5];
 Te 554448742848000 8 11 [3;12];
 Te (-68756688000) 8 11 [4;4;5];
 Te 486297113702400 8 11 [4;11];
 Te 446166040320000 8 11 [5;10];
 Te 422945479756800 8 11 [6;9];
 Te 412135371648000 8 11 [7;8];
 Te 43243200 9 0 [1;1;1];
 Te (-30270240000) 9 0 [1;4];
 Te (-23351328000) 9 0 [2;3];
 Te 4452319872000 9 0 [7];
 Te (-908107200) 9 1 [1;1;2];
 Te 337815878400 9 1 [1;5];
 Te 254270016000 9 1 [2;4];
 Te 116756640000 9 1 [3;3];
 Te (-66784798080000) 9 1 [8];
 Te 4021617600 9 2 [1;1;3];
 Te 3243240000 9 2 [1;2;2];
 Te (-2081381702400) 9 2 [1;6];
 Te (-1536517382400) 9 2 [2;5];
 Te (-1349187840000) 9 2 [3;4];
 Te 534278384640000 9 2 [9];
 Te (-13621608000) 9 3 [1;1;4];
 Te (-19978358400) 9 3 [1;2;3];
 Te 9309915014400 9 3 [1;7];
 Te (-2724321600) 9 3 [2;2;2];
 Te 6767214854400 9 3 [2;6];
 Te 5786459078400 9 3 [3;5];
 Te 2754591840000 9 3 [4;4];
 Te (-3027577512960000) 9 3 [10];
 Te 38270232000 9 4 [1;1;5];
 Te 53708054400 9 4 [1;2;4];
 Te 24129705600 9 4 [1;3;3];
 Te (-33683512262400) 9 4 [1;8];
 Te 20108088000 9 4 [2;2;3];
 Te (-24202873094400) 9 4 [2;7];
 Te (-20334336422400) 9 4 [3;6];
 Te (-18772392038400) 9 4 [4;5];
 Te 13624098808320000 9 4 [11];
 Te (-93535041600) 9 5 [1;1;6];
 Te (-128951222400) 9 5 [1;2;5];
 Te (-108972864000) 9 5 [1;3;4];
 Te 104406900998400 9 5 [1;9];
 Te (-46313467200) 9 5 [2;2;4];
 Te (-41772931200) 9 5 [2;3;3];
 Te 74439363398400 9 5 [2;8];
 Te 61744024742400 9 5 [3;7];
 Te 55841327942400 9 5 [4;6];
 Te 27036167558400 9 5 [5;5];
 Te (-51771575471616000) 9 5 [12];
 Te 205232227200 9 6 [1;1;7];
 Te 282032150400 9 6 [1;2;6];
 Te 229621392000 9 6 [1;3;5];
 Te 107675568000 9 6 [1;4;4];
 Te (-287248837075200) 9 6 [1;10];
 Te 99502603200 9 6 [2;2;5];
 Te 169167398400 9 6 [2;3;4];
 Te (-203899125830400) 9 6 [2;9];
 Te 25556731200 9 6 [3;3;3];
 Te (-167447702822400) 9 6 [3;8];
 Te (-149261342630400) 9 6 [4;7];
 Te (-141359599180800) 9 6 [5;6];
 Te 172571918238720000 9 6 [13];
 Te (-413318505600) 9 7 [1;1;8];
 Te (-570810240000) 9 7 [1;2;7];
 Te (-454313059200) 9 7 [1;3;6];
 Te (-408648240000) 9 7 [1;4;5];
 Te 718381811347200 9 7 [1;11];
 Te (-200432232000) 9 7 [2;2;6];
 Te (-328734806400) 9 7 [2;3;5];
 Te (-154378224000) 9 7 [2;4;4];
 Te 509122777363200 9 7 [2;10];
 Te (-140756616000) 9 7 [3;3;4];
 Te 414784968998400 9 7 [3;9];
 Te 365778315302400 9 7 [4;8];
 Te 340943399596800 9 7 [5;7];
 Te 166630406342400 9 7 [6;6];
 Te (-517715754716160000) 9 7 [14];
 Te 776431656000 9 8 [1;1;9];
 Te 1082463782400 9 8 [1;2;8];
 Te 850247798400 9 8 [1;3;7];
 Te 743350608000 9 8 [1;4;6];
 Te 356107752000 9 8 [1;5;5];
 Te (-1661160544243200) 9 8 [1;12];
 Te 381145564800 9 8 [2;2;7];
 Te 611545334400 9 8 [2;3;6];
 Te 551350800000 9 8 [2;4;5];
 Te (-1178083838131200) 9 8 [2;11];
 Te 252972720000 9 8 [3;3;5];
 Te 238053816000 9 8 [3;4;4];
 Te (-953669792275200) 9 8 [3;10];
 Te (-833980225478400) 9 8 [4;9];
 Te (-768225999340800) 9 8 [5;8];
 Te (-738476407468800) 9 8 [6;7];
 Te 1423718325469440000 9 8 [15];
 Te (-1377079704000) 9 9 [1;1;10];
 Te (-1942571030400) 9 9 [1;2;9];
 Te (-1515501187200) 9 9 [1;3;8];
 Te (-1299112214400) 9 9 [1;4;7];
 Te (-1207782576000) 9 9 [1;5;6];
 Te 3596930284147200 9 9 [1;13];
 Te (-688864176000) 9 9 [2;2;8];
 Te (-1091025936000) 9 9 [2;3;7];
 Te (-956626070400) 9 9 [2;4;6];
 Te (-458594136000) 9 9 [2;5;5];
 Te 2557189918483200 9 9 [2;12];
 Te (-441859017600) 9 9 [3;3;6];
 Te (-799134336000) 9 9 [3;4;5];
 Te 2059643172787200 9 9 [3;11];
 Te (-125621496000) 9 9 [4;4;4];
 Te 1789003010995200 9 9 [4;10];
 Te 1633089134476800 9 9 [5;9];
 Te 1550215271404800 9 9 [6;8];
 Te 762039973094400 9 9 [7;7];
 Te 2327478753600 9 10 [1;1;11];
 Te 3325488566400 9 10 [1;2;10];
 Te 2588105520000 9 10 [1;3;9];
 Te 2188538352000 9 10 [1;4;8];
 Te 1990570982400 9 10 [1;5;7];
 Te 965317953600 9 10 [1;6;6];
 Te (-7364582300275200) 9 10 [1;14];
 Te 1190528539200 9 10 [2;2;9];
 Te 1872517046400 9 10 [2;3;8];
 Te 1610463254400 9 10 [2;4;7];
 Te 1498895798400 9 10 [2;5;6];
 Te (-5255666787571200) 9 10 [2;13];
 Te 748799251200 9 10 [3;3;7];
 Te 1318052736000 9 10 [3;4;6];
 Te 632431800000 9 10 [3;5;5];
 Te (-4216792150771200) 9 10 [3;12];
 Te 598053456000 9 10 [4;4;5];
 Te (-3642214563187200) 9 10 [4;11];
 Te (-3301049585433600) 9 10 [5;10];
 Te (-3103242042700800) 9 10 [6;9];
 Te (-3011486891212800) 9 10 [7;8];
 Te 259459200 10 0 [1;1;2];
 Te (-102745843200) 10 0 [1;5];
 Te (-74724249600) 10 0 [2;4];
 Te (-34285680000) 10 0 [3;3];
 Te 20035439424000 10 0 [8];
 Te (-2594592000) 10 1 [1;1;3];
 Te (-2075673600) 10 1 [1;2;2];
 Te 1369944576000 10 1 [1;6];
 Te 980755776000 10 1 [2;5];
 Te 853620768000 10 1 [3;4];
 Te (-340602470208000) 10 1 [9];
 Te 14789174400 10 2 [1;1;4];
 Te 21275654400 10 2 [1;2;3];
 Te (-9897849561600) 10 2 [1;7];
 Te 2854051200 10 2 [2;2;2];
 Te (-6992944358400) 10 2 [2;6];
 Te (-5899064371200) 10 2 [3;5];
 Te (-2800862064000) 10 2 [4;4];
 Te 3065422231872000 10 2 [10];
 Te (-61751289600) 10 3 [1;1;5];
 Te (-84064780800) 10 3 [1;2;4];
 Te (-37621584000) 10 3 [1;3;3];
 Te 51201678528000 10 3 [1;8];
 Te (-30616185600) 10 3 [2;2;3];
 Te 35789802048000 10 3 [2;7];
 Te 29593916352000 10 3 [3;6];
 Te 27170567424000 10 3 [4;5];
 Te (-19414340801856000) 10 3 [11];
 Te 208864656000 10 4 [1;1;6];
 Te 276583507200 10 4 [1;2;5];
 Te 231956524800 10 4 [1;3;4];
 Te (-211930425907200) 10 4 [1;9];
 Te 95740444800 10 4 [2;2;4];
 Te 85880995200 10 4 [2;3;3];
 Te (-146960804390400) 10 4 [2;8];
 Te (-119851469337600) 10 4 [3;7];
 Te (-107531308684800) 10 4 [4;6];
 Te (-51959299392000) 10 4 [5;5];
 Te 97071704009280000 10 4 [12];
 Te (-604799395200) 10 5 [1;1;7];
 Te (-791869478400) 10 5 [1;2;6];
 Te (-637231795200) 10 5 [1;3;5];
 Te (-298118620800) 10 5 [1;4;4];
 Te 744873114585600 10 5 [1;10];
 Te (-267242976000) 10 5 [2;2;5];
 Te (-449902252800) 10 5 [2;3;4];
 Te 513797713228800 10 5 [2;9];
 Te (-67459392000) 10 5 [3;3;3];
 Te 414750720384000 10 5 [3;8];
 Te 366086552832000 10 5 [4;7];
 Te 345397276224000 10 5 [5;6];
 Te (-407701156838976000) 10 5 [13];
 Te 1552863312000 10 6 [1;1;8];
 Te 2030527699200 10 6 [1;2;7];
 Te 1590484896000 10 6 [1;3;6];
 Te 1424431008000 10 6 [1;4;5];
 Te (-2306301693696000) 10 6 [1;11];
 Te 677966889600 10 6 [2;2;6];
 Te 1096474579200 10 6 [2;3;5];
 Te 513469756800 10 6 [2;4;4];
 Te (-1586361570393600) 10 6 [2;10];
 Te 463653590400 10 6 [3;3;4];
 Te (-1270383853939200) 10 6 [3;9];
 Te (-1107948902860800) 10 6 [4;8];
 Te (-1027181329574400) 10 6 [5;7];
 Te (-501275174400000) 10 6 [6;6];
 Te 1494904241742912000 10 6 [14];
 Te (-3621790972800) 10 7 [1;1;9];
 Te (-4759000646400) 10 7 [1;2;8];
 Te (-3662785526400) 10 7 [1;3;7];
 Te (-3182007628800) 10 7 [1;4;6];
 Te (-1521987667200) 10 7 [1;5;5];
 Te 6448740102604800 10 7 [1;12];
 Te (-1586074089600) 10 7 [2;2;7];
 Te (-2499111014400) 10 7 [2;3;6];
 Te (-2241727488000) 10 7 [2;4;5];
 Te 4432729664563200 10 7 [2;11];
 Te (-1016561145600) 10 7 [3;3;5];
 Te (-953253100800) 10 7 [3;4;4];
 Te 3527255011737600 10 7 [3;10];
 Te 3048297924672000 10 7 [4;9];
 Te 2789160454080000 10 7 [5;8];
 Te 2673758191104000 10 7 [6;7];
 Te (-4911828222869568000) 10 7 [15];
 Te 7808684083200 10 8 [1;1;10];
 Te 10349308569600 10 8 [1;2;9];
 Te 7878478608000 10 8 [1;3;8];
 Te 6696382492800 10 8 [1;4;7];
 Te 6207820819200 10 8 [1;5;6];
 Te (-16575986883456000) 10 8 [1;13];
 Te 3461964105600 10 8 [2;2;8];
 Te 5363281123200 10 8 [2;3;7];
 Te 4668708844800 10 8 [2;4;6];
 Te 2234203171200 10 8 [2;5;5];
 Te (-11406843512064000) 10 8 [2;12];
 Te 2127565440000 10 8 [3;3;6];
 Te 3824428608000 10 8 [3;4;5];
 Te (-9030417780384000) 10 8 [3;11];
 Te 598572374400 10 8 [4;4;4];
 Te (-7748406521856000) 10 8 [4;10];
 Te (-7018397305920000) 10 8 [5;9];
 Te (-6636291742080000) 10 8 [6;8];
 Te (-3258506579328000) 10 8 [7;7];
 Te (-15768632880000) 10 9 [1;1;11];
 Te (-21125686982400) 10 9 [1;2;10];
 Te (-15982167801600) 10 9 [1;3;9];
 Te (-13369673116800) 10 9 [1;4;8];
 Te (-12110517619200) 10 9 [1;5;7];
 Te (-5866372512000) 10 9 [1;6;6];
 Te 39691541194905600 10 9 [1;14];
 Te (-7117225315200) 10 9 [2;2;9];
 Te (-10909480982400) 10 9 [2;3;8];
 Te (-9294606921600) 10 9 [2;4;7];
 Te (-8623385971200) 10 9 [2;5;6];
 Te 27384438604723200 10 9 [2;13];
 Te (-4257984931200) 10 9 [3;3;7];
 Te (-7431949324800) 10 9 [3;4;6];
 Te (-3558742387200) 10 9 [3;5;5];
 Te 21591451013932800 10 9 [3;12];
 Te (-3347542598400) 10 9 [4;4;5];
 Te 18419024694470400 10 9 [4;11];
 Te 16551670367232000 10 9 [5;10];
 Te 15483798570240000 10 9 [6;9];
 Te 14994385870464000 10 9 [7;8];
 Te 648648000 11 0 [1;1;3];
 Te 518918400 11 0 [1;2;2];
 Te (-359610451200) 11 0 [1;6];
 Te (-250637587200) 11 0 [2;5];
 Te (-217945728000) 11 0 [3;4];
 Te 88304344128000 11 0 [9];
 Te (-8172964800) 11 1 [1;1;4];
 Te (-11675664000) 11 1 [1;2;3];
 Te 5565399840000 11 1 [1;7];
 Te (-1556755200) 11 1 [2;2;2];
 Te 3835844812800 11 1 [2;6];
 Te 3214699488000 11 1 [3;5];
 Te 1525620096000 11 1 [4;4];
 Te (-1677782538432000) 11 1 [10];
 Te 56302646400 11 2 [1;1;5];
 Te 75502627200 11 2 [1;2;4];
 Te 33729696000 11 2 [1;3;3];
 Te (-46081510675200) 11 2 [1;8];
 Te 27113486400 11 2 [2;2;3];
 Te (-31457352326400) 11 2 [2;7];
 Te (-25750287763200) 11 2 [3;6];
 Te (-23592625056000) 11 2 [4;5];
 Te 16777825384320000 11 2 [11];
 Te (-277880803200) 11 3 [1;1;6];
 Te (-359610451200) 11 3 [1;2;5];
 Te (-300453753600) 11 3 [1;3;4];
 Te 270478432224000 11 3 [1;9];
 Te (-121816094400) 11 3 [2;2;4];
 Te (-108972864000) 11 3 [2;3;3];
 Te 183212962732800 11 3 [2;8];
 Te 147611528064000 11 3 [3;7];
 Te 131911651872000 11 3 [4;6];
 Te 63694639008000 11 3 [5;5];
 Te (-117444777690240000) 11 3 [12];
 Te 1095177283200 11 4 [1;1;7];
 Te 1391220230400 11 4 [1;2;6];
 Te 1112820508800 11 4 [1;3;5];
 Te 519956236800 11 4 [1;4;4];
 Te (-1260006523776000) 11 4 [1;10];
 Te 456388732800 11 4 [2;2;5];
 Te 764366803200 11 4 [2;3;4];
 Te (-848612167603200) 11 4 [2;9];
 Te 114162048000 11 4 [3;3;3];
 Te (-675999151027200) 11 4 [3;8];
 Te (-593266952678400) 11 4 [4;7];
 Te (-558812846592000) 11 4 [5;6];
 Te 645946277296320000 11 4 [13];
 Te (-3656039587200) 11 5 [1;1;8];
 Te (-4609552147200) 11 5 [1;2;7];
 Te (-3579758582400) 11 5 [1;3;6];
 Te (-3198353558400) 11 5 [1;4;5];
 Te 4950089233689600 11 5 [1;11];
 Te (-1487479593600) 11 5 [2;2;6];
 Te (-2387284099200) 11 5 [2;3;5];
 Te (-1116193478400) 11 5 [2;4;4];
 Te 3321653240505600 11 5 [2;10];
 Te (-1002550348800) 11 5 [3;3;4];
 Te 2623529484576000 11 5 [3;9];
 Te 2271710593152000 11 5 [4;8];
 Te 2100394353657600 11 5 [5;7];
 Te 1024377613459200 11 5 [6;6];
 Te (-2971352875563072000) 11 5 [14];
 Te 10728378460800 11 6 [1;1;9];
 Te 13523532422400 11 6 [1;2;8];
 Te 10290670790400 11 6 [1;3;7];
 Te 8908531632000 11 6 [1;4;6];
 Te 4257206553600 11 6 [1;5;5];
 Te (-17030123510400000) 11 6 [1;12];
 Te 4335303772800 11 6 [2;2;7];
 Te 6760728374400 11 6 [2;3;6];
 Te 6047215574400 11 6 [2;4;5];
 Te (-11407733976038400) 11 6 [2;11];
 Te 2723543222400 11 6 [3;3;5];
 Te 2548927180800 11 6 [3;4;4];
 Te (-8950276022688000) 11 6 [3;10];
 Te (-7671261517920000) 11 6 [4;9];
 Te (-6992687493792000) 11 6 [5;8];
 Te (-6694777478188800) 11 6 [6;7];
 Te 11885411502252288000 11 6 [15];
 Te (-28383539184000) 11 7 [1;1;10];
 Te (-35943920812800) 11 7 [1;2;9];
 Te (-26973897350400) 11 7 [1;3;8];
 Te (-22818917721600) 11 7 [1;4;7];
 Te (-21118941043200) 11 7 [1;5;6];
 Te 52634435062809600 11 7 [1;13];
 Te (-11520766857600) 11 7 [2;2;8];
 Te (-17616241843200) 11 7 [2;3;7];
 Te (-15272546889600) 11 7 [2;4;6];
 Te (-7301181888000) 11 7 [2;5;5];
 Te 35256140138419200 11 7 [2;12];
 Te (-6901874179200) 11 7 [3;3;6];
 Te (-12363749798400) 11 7 [3;4;5];
 Te 27514446344985600 11 7 [3;11];
 Te (-1930376448000) 11 7 [4;4;4];
 Te 23395827847392000 11 7 [4;10];
 Te 21091324205952000 11 7 [5;9];
 Te 19903530885638400 11 7 [6;8];
 Te 9767910318566400 11 7 [7;7];
 Te 68955304017600 11 8 [1;1;11];
 Te 88001814700800 11 8 [1;2;10];
 Te 65438983209600 11 8 [1;3;9];
 Te 54413783424000 11 8 [1;4;8];
 Te 49172188665600 11 8 [1;5;7];
 Te 23803305926400 11 8 [1;6;6];
 Te (-148843279480896000) 11 8 [1;14];
 Te 28321268976000 11 8 [2;2;9];
 Te 42730854566400 11 8 [2;3;8];
 Te 36211682707200 11 8 [2;4;7];
 Te 33534582681600 11 8 [2;5;6];
 Te (-99841937433638400) 11 8 [2;13];
 Te 16427918707200 11 8 [3;3;7];
 Te 28535322816000 11 8 [3;4;6];
 Te 13647683649600 11 8 [3;5;5];
 Te (-77586126089472000) 11 8 [3;12];
 Te 12799381795200 11 8 [4;4;5];
 Te (-65555957795328000) 11 8 [4;11];
 Te (-58581912445056000) 11 8 [5;10];
 Te (-54654966317952000) 11 8 [6;9];
 Te (-52874106866380800) 11 8 [7;8];
 Te 1816214400 12 0 [1;1;4];
 Te 2594592000 12 0 [1;2;3];
 Te (-1286225740800) 12 0 [1;7];
 Te 345945600 12 0 [2;2;2];
 Te (-867631564800) 12 0 [2;6];
 Te (-726485760000) 12 0 [3;5];
 Te (-344677132800) 12 0 [4;4];
 Te 383493151641600 12 0 [10];
 Te (-27243216000) 12 1 [1;1;5];
 Te (-36324288000) 12 1 [1;2;4];
 Te (-16216200000) 12 1 [1;3;3];
 Te 22632626016000 12 1 [1;8];
 Te (-12972960000) 12 1 [2;2;3];
 Te 15137887564800 12 1 [2;7];
 Te 12329501184000 12 1 [3;6];
 Te 11289588710400 12 1 [4;5];
 Te (-8053356184473600) 12 1 [11];
 Te 218724105600 12 2 [1;1;6];
 Te 279697017600 12 2 [1;2;5];
 Te 233253820800 12 2 [1;3;4];
 Te (-211114167264000) 12 2 [1;9];
 Te 93664771200 12 2 [2;2;4];
 Te 83675592000 12 2 [2;3;3];
 Te (-140173870636800) 12 2 [2;8];
 Te (-112061466316800) 12 2 [3;7];
 Te (-99974818944000) 12 2 [4;6];
 Te (-48260449036800) 12 2 [5;5];
 Te 88586918029209600 12 2 [12];
 Te (-1241512272000) 12 3 [1;1;7];
 Te (-1548971424000) 12 3 [1;2;6];
 Te (-1235025792000) 12 3 [1;3;5];
 Te (-576648072000) 12 3 [1;4;4];
 Te 1385537209056000 12 3 [1;10];
 Te (-499458960000) 12 3 [2;2;5];
 Te (-834161328000) 12 3 [2;3;4];
 Te 914580707040000 12 3 [2;9];
 Te (-124324200000) 12 3 [3;3;3];
 Te 721646845920000 12 3 [3;8];
 Te 631430287488000 12 3 [4;7];
 Te 594338000256000 12 3 [5;6];
 Te (-679166371557273600) 12 3 [13];
 Te 5573961993600 12 4 [1;1;8];
 Te 6863733676800 12 4 [1;2;7];
 Te 5304902803200 12 4 [1;3;6];
 Te 4733054726400 12 4 [1;4;5];
 Te (-7171574233824000) 12 4 [1;11];
 Te 2165705942400 12 4 [2;2;6];
 Te 3460666809600 12 4 [2;3;5];
 Te 1616560545600 12 4 [2;4;4];
 Te (-4713893664480000) 12 4 [2;10];
 Te 1447652606400 12 4 [3;3;4];
 Te (-3683923667424000) 12 4 [3;9];
 Te (-3176245039968000) 12 4 [4;8];
 Te (-2932864526592000) 12 4 [5;7];
 Te (-1429978245696000) 12 4 [6;6];
 Te 4074998229343641600 12 4 [14];
 Te (-21037211395200) 12 5 [1;1;9];
 Te (-25772082336000) 12 5 [1;2;8];
 Te (-19482791328000) 12 5 [1;3;7];
 Te (-16830599385600) 12 5 [1;4;6];
 Te (-8038564934400) 12 5 [1;5;5];
 Te 31134850248902400 12 5 [1;12];
 Te (-8041418985600) 12 5 [2;2;7];
 Te (-12464419968000) 12 5 [2;3;6];
 Te (-11129761843200) 12 5 [2;4;5];
 Te 20412179890502400 12 5 [2;11];
 Te (-4992643656000) 12 5 [3;3;5];
 Te (-4667022360000) 12 5 [3;4;4];
 Te 15835788704736000 12 5 [3;10];
 Te 13499508057235200 12 5 [4;9];
 Te 12280554205920000 12 5 [5;8];
 Te 11750151622809600 12 5 [6;7];
 Te (-20374991146718208000) 12 5 [15];
 Te 69344882006400 12 6 [1;1;10];
 Te 84987936633600 12 6 [1;2;9];
 Te 63236952979200 12 6 [1;3;8];
 Te 53344292601600 12 6 [1;4;7];
 Te 49319042572800 12 6 [1;5;6];
 Te (-117804302519904000) 12 6 [1;13];
 Te 26409573590400 12 6 [2;2;8];
 Te 40064132908800 12 6 [2;3;7];
 Te 34647662649600 12 6 [2;4;6];
 Te 16552978041600 12 6 [2;5;5];
 Te (-77154028445894400) 12 6 [2;12];
 Te 15578060097600 12 6 [3;3;6];
 Te 27846977558400 12 6 [3;4;5];
 Te (-59513046649056000) 12 6 [3;11];
 Te 4341401064000 12 6 [4;4;4];
 Te (-50285168482348800) 12 6 [4;10];
 Te (-45207012263212800) 12 6 [5;9];
 Te (-42617976841440000) 12 6 [6;8];
 Te (-20910122397964800) 12 6 [7;7];
 Te (-204918022108800) 12 7 [1;1;11];
 Te (-252223920748800) 12 7 [1;2;10];
 Te (-185576117126400) 12 7 [1;3;9];
 Te (-153749813817600) 12 7 [1;4;8];
 Te (-138731796403200) 12 7 [1;5;7];
 Te (-67128840979200) 12 7 [1;6;6];
 Te 398713036097376000 12 7 [1;14];
 Te (-78437889129600) 12 7 [2;2;9];
 Te (-117184747680000) 12 7 [2;3;8];
 Te (-98982128044800) 12 7 [2;4;7];
 Te (-91556924659200) 12 7 [2;5;6];
 Te 261230741233862400 12 7 [2;13];
 Te (-44625036456000) 12 7 [3;3;7];
 Te (-77283295689600) 12 7 [3;4;6];
 Te (-36934536038400) 12 7 [3;5;5];
 Te 200578271724230400 12 7 [3;12];
 Te (-34576181640000) 12 7 [4;4;5];
 Te 168287673441888000 12 7 [4;11];
 Te 149862192883603200 12 7 [5;10];
 Te 139612221901152000 12 7 [6;9];
 Te 134994504054009600 12 7 [7;8];
 Te 5448643200 13 0 [1;1;5];
 Te 7264857600 13 0 [1;2;4];
 Te 3243240000 13 0 [1;3;3];
 Te (-4674935865600) 13 0 [1;8];
 Te 2594592000 13 0 [2;2;3];
 Te (-3072100711680) 13 0 [2;7];
 Te (-2500148851200) 13 0 [3;6];
 Te (-2288430144000) 13 0 [4;5];
 Te 1647277401369600 13 0 [11];
 Te (-94183689600) 13 1 [1;1;6];
 Te (-119870150400) 13 1 [1;2;5];
 Te (-99891792000) 13 1 [1;3;4];
 Te 92088816019200 13 1 [1;9];
 Te (-39956716800) 13 1 [2;2;4];
 Te (-35675640000) 13 1 [2;3;3];
 Te 60106318272000 13 1 [2;8];
 Te 47862438624000 13 1 [3;7];
 Te 42673773542400 13 1 [4;6];
 Te 20595871296000 13 1 [5;5];
 Te (-37887380231500800) 13 1 [12];
 Te 860496436800 13 2 [1;1;7];
 Te 1063263801600 13 2 [1;2;6];
 Te 846355910400 13 2 [1;3;5];
 Te 395026632000 13 2 [1;4;4];
 Te (-954948407212800) 13 2 [1;10];
 Te 339632092800 13 2 [2;2;5];
 Te 566399433600 13 2 [2;3;4];
 Te (-619688720851200) 13 2 [2;9];
 Te 84324240000 13 2 [3;3;3];
 Te (-485970714028800) 13 2 [3;8];
 Te (-424631445638400) 13 2 [4;7];
 Te (-399538108569600) 13 2 [5;6];
 Te 454648562778009600 13 2 [13];
 Te (-5509745841600) 13 3 [1;1;8];
 Te (-6687041961600) 13 3 [1;2;7];
 Te (-5154416467200) 13 3 [1;3;6];
 Te (-4595022432000) 13 3 [1;4;5];
 Te 6926845051526400 13 3 [1;11];
 Te (-2080603324800) 13 3 [2;2;6];
 Te (-3316407494400) 13 3 [2;3;5];
 Te (-1548322776000) 13 3 [2;4;4];
 Te 4474507266028800 13 3 [2;10];
 Te (-1384214832000) 13 3 [3;3;4];
 Te 3470286518899200 13 3 [3;9];
 Te 2985057858182400 13 3 [4;8];
 Te 2754496186041600 13 3 [5;7];
 Te 1342785424780800 13 3 [6;6];
 Te (-3788738023150080000) 13 3 [14];
 Te 27715691203200 13 4 [1;1;9];
 Te 33315339657600 13 4 [1;2;8];
 Te 25087888425600 13 4 [1;3;7];
 Te 21644605382400 13 4 [1;4;6];
 Te 10334259936000 13 4 [1;5;5];
 Te (-39427889653152000) 13 4 [1;12];
 Te 10207254657600 13 4 [2;2;7];
 Te 15764222073600 13 4 [2;3;6];
 Te 14061131884800 13 4 [2;4;5];
 Te (-25387498936800000) 13 4 [2;11];
 Te 6292793707200 13 4 [3;3;5];
 Te 5878048176000 13 4 [3;4;4];
 Te (-19526687673292800) 13 4 [3;10];
 Te (-16590827949696000) 13 4 [4;9];
 Te (-15076548296409600) 13 4 [5;8];
 Te (-14420379093120000) 13 4 [6;7];
 Te 24626797150475520000 13 4 [15];
 Te (-116539472649600) 13 5 [1;1;10];
 Te (-139580227987200) 13 5 [1;2;9];
 Te (-103319507491200) 13 5 [1;3;8];
 Te (-87000042729600) 13 5 [1;4;7];
 Te (-80381497996800) 13 5 [1;5;6];
 Te 187408309542854400 13 5 [1;13];
 Te (-42429752164800) 13 5 [2;2;8];
 Te (-64053471081600) 13 5 [2;3;7];
 Te (-55305804153600) 13 5 [2;4;6];
 Te (-26411389804800) 13 5 [2;5;5];
 Te 120450405266231040 13 5 [2;12];
 Te (-24788861697600) 13 5 [3;3;6];
 Te (-44252063856000) 13 5 [3;4;5];
 Te 92050971300288000 13 5 [3;11];
 Te (-6892533648000) 13 5 [4;4;4];
 Te 77451814440000000 13 5 [4;10];
 Te 69521119668000000 13 5 [5;9];
 Te 65502684075628800 13 5 [6;8];
 Te 32133495321607680 13 5 [7;7];
 Te 425864395756800 13 6 [1;1;11];
 Te 510458473324800 13 6 [1;2;10];
 Te 373087280966400 13 6 [1;3;9];
 Te 308384642966400 13 6 [1;4;8];
 Te 277988997686400 13 6 [1;5;7];
 Te 134474070931200 13 6 [1;6;6];
 Te (-773289971963308800) 13 6 [1;14];
 Te 154778050627200 13 6 [2;2;9];
 Te 229793413449600 13 6 [2;3;8];
 Te 193688627932800 13 6 [2;4;7];
 Te 179019583142400 13 6 [2;5;6];
 Te (-496743472985760000) 13 6 [2;13];
 Te 86977599508800 13 6 [3;3;7];
 Te 150340260470400 13 6 [3;4;6];
 Te 71813117376000 13 6 [3;5;5];
 Te (-377702909648064000) 13 6 [3;12];
 Te 67149986904000 13 6 [4;4;5];
 Te (-315328579633267200) 13 6 [4;11];
 Te (-280213800650784000) 13 6 [5;10];
 Te (-260832681004896000) 13 6 [6;9];
 Te (-252130079545344000) 13 6 [7;8];
 Te 17124307200 14 0 [1;1;6];
 Te 21794572800 14 0 [1;2;5];
 Te 18162144000 14 0 [1;3;4];
 Te (-17202144960000) 14 0 [1;9];
 Te 7264857600 14 0 [2;2;4];
 Te 6486480000 14 0 [2;3;3];
 Te (-11063340288000) 14 0 [2;8];
 Te (-8803450656000) 14 0 [3;7];
 Te (-7846046208000) 14 0 [4;6];
 Te (-3786311692800) 14 0 [5;5];
 Te 7016181524352000 14 0 [12];
 Te (-333923990400) 14 1 [1;1;7];
 Te (-410983372800) 14 1 [1;2;6];
 Te (-326918592000) 14 1 [1;3;5];
 Te (-152562009600) 14 1 [1;4;4];
 Te 374777398195200 14 1 [1;10];
 Te (-130767436800) 14 1 [2;2;5];
 Te (-217945728000) 14 1 [2;3;4];
 Te 239683219776000 14 1 [2;9];
 Te (-32432400000) 14 1 [3;3;3];
 Te 187368461280000 14 1 [3;8];
 Te 163622755296000 14 1 [4;7];
 Te 153913273113600 14 1 [5;6];
 Te (-175404538108800000) 14 1 [13];
 Te 3413445235200 14 2 [1;1;8];
 Te 4109833728000 14 2 [1;2;7];
 Te 3163326566400 14 2 [1;3;6];
 Te 2818764748800 14 2 [1;4;5];
 Te (-4275077065459200) 14 2 [1;11];
 Te 1268755488000 14 2 [2;2;6];
 Te 2019630412800 14 2 [2;3;5];
 Te 942615273600 14 2 [2;4;4];
 Te (-2721149970739200) 14 2 [2;10];
 Te 841945104000 14 2 [3;3;4];
 Te (-2100010872960000) 14 2 [3;9];
 Te (-1804302628128000) 14 2 [4;8];
 Te (-1664277168153600) 14 2 [5;7];
 Te (-811215794188800) 14 2 [6;6];
 Te 2280258995414400000 14 2 [14];
 Te (-24302245968000) 14 3 [1;1;9];
 Te (-28865873836800) 14 3 [1;2;8];
 Te (-21687935068800) 14 3 [1;3;7];
 Te (-18696629952000) 14 3 [1;4;6];
 Te (-8924877561600) 14 3 [1;5;5];
 Te 33952217550451200 14 3 [1;12];
 Te (-8741958825600) 14 3 [2;2;7];
 Te (-13472159500800) 14 3 [2;3;6];
 Te (-12008809612800) 14 3 [2;4;5];
 Te 21532268889331200 14 3 [2;11];
 Te (-5366913552000) 14 3 [3;3;5];
 Te (-5010935529600) 14 3 [3;4;4];
 Te 16458782935795200 14 3 [3;10];
 Te 13958022798720000 14 3 [4;9];
 Te 12676348318233600 14 3 [5;8];
 Te 12121749089049600 14 3 [6;7];
 Te (-20522330958729600000) 14 3 [15];
 Te 135239216112000 14 4 [1;1;10];
 Te 159467256748800 14 4 [1;2;9];
 Te 117663968822400 14 4 [1;3;8];
 Te 98965263196800 14 4 [1;4;7];
 Te 91397097792000 14 4 [1;5;6];
 Te (-210729486827059200) 14 4 [1;13];
 Te 47748276576000 14 4 [2;2;8];
 Te 71863711920000 14 4 [2;3;7];
 Te 61985840716800 14 4 [2;4;6];
 Te 29593397433600 14 4 [2;5;5];
 Te (-133311806839411200) 14 4 [2;12];
 Te 27729961459200 14 4 [3;3;6];
 Te 49459150540800 14 4 [3;4;5];
 Te (-101157557480179200) 14 4 [3;11];
 Te 7698932841600 14 4 [4;4;4];
 Te (-84890939368435200) 14 4 [4;10];
 Te (-76130069080665600) 14 4 [5;9];
 Te (-71703606912537600) 14 4 [6;8];
 Te (-35171667487756800) 14 4 [7;7];
 Te (-626330097993600) 14 5 [1;1;11];
 Te (-736636322822400) 14 5 [1;2;10];
 Te (-536133517920000) 14 5 [1;3;9];
 Te (-442477827792000) 14 5 [1;4;8];
 Te (-398604055449600) 14 5 [1;5;7];
 Te (-192783893702400) 14 5 [1;6;6];
 Te 1088209754426995200 14 5 [1;14];
 Te (-219313856361600) 14 5 [2;2;9];
 Te (-324302983804800) 14 5 [2;3;8];
 Te (-272965348656000) 14 5 [2;4;7];
 Te (-252160093785600) 14 5 [2;5;6];
 Te 687524779112371200 14 5 [2;13];
 Te (-122270666918400) 14 5 [3;3;7];
 Te (-211072653792000) 14 5 [3;4;6];
 Te (-100789001913600) 14 5 [3;5;5];
 Te 518722424239219200 14 5 [3;12];
 Te (-94172532854400) 14 5 [4;4;5];
 Te 431617643019763200 14 5 [4;11];
 Te 383071260604032000 14 5 [5;10];
 Te 356393216276697600 14 5 [6;9];
 Te 344430574833945600 14 5 [7;8];
 Te 55653998400 15 0 [1;1;7];
 Te 68497228800 15 0 [1;2;6];
 Te 54486432000 15 0 [1;3;5];
 Te 25427001600 15 0 [1;4;4];
 Te (-63915525273600) 15 0 [1;10];
 Te 21794572800 15 0 [2;2;5];
 Te 36324288000 15 0 [2;3;4];
 Te (-40367700172800) 15 0 [2;9];
 Te 5405400000 15 0 [3;3;3];
 Te (-31537265760000) 15 0 [3;8];
 Te (-27530177875200) 15 0 [4;7];
 Te (-25891952486400) 15 0 [5;6];
 Te 29683844910720000 15 0 [13];
 Te (-1205836632000) 15 1 [1;1;8];
 Te (-1447003958400) 15 1 [1;2;7];
 Te (-1113079968000) 15 1 [1;3;6];
 Te (-991653062400) 15 1 [1;4;5];
 Te 1525256853120000 15 1 [1;11];
 Te (-445231987200) 15 1 [2;2;6];
 Te (-708323616000) 15 1 [2;3;5];
 Te (-330551020800) 15 1 [2;4;4];
 Te 958732879104000 15 1 [2;10];
 Te (-295134840000) 15 1 [3;3;4];
 Te 737972018784000 15 1 [3;9];
 Te 633713528448000 15 1 [4;8];
 Te 584366983200000 15 1 [5;7];
 Te 284811477350400 15 1 [6;6];
 Te (-801463812589440000) 15 1 [14];
 Te 13616678275200 15 2 [1;1;9];
 Te 16065454204800 15 2 [1;2;8];
 Te 12055512268800 15 2 [1;3;7];
 Te 10388227449600 15 2 [1;4;6];
 Te 4958265312000 15 2 [1;5;5];
 Te (-18974195252812800) 15 2 [1;12];
 Te 4833335707200 15 2 [2;2;7];
 Te 7439733100800 15 2 [2;3;6];
 Te 6629182560000 15 2 [2;4;5];
 Te (-11879571947443200) 15 2 [2;11];
 Te 2960429472000 15 2 [3;3;5];
 Te 2763370209600 15 2 [3;4;4];
 Te (-9043626329337600) 15 2 [3;10];
 Te (-7662071473056000) 15 2 [4;9];
 Te (-6955785130694400) 15 2 [5;8];
 Te (-6650276074041600) 15 2 [6;7];
 Te 11220493376252160000 15 2 [15];
 Te (-106595958268800) 15 3 [1;1;10];
 Te (-124442340422400) 15 3 [1;2;9];
 Te (-91643584032000) 15 3 [1;3;8];
 Te (-77025133785600) 15 3 [1;4;7];
 Te (-71115691046400) 15 3 [1;5;6];
 Te 163710902234880000 15 3 [1;13];
 Te (-36898600939200) 15 3 [2;2;8];
 Te (-55431382406400) 15 3 [2;3;7];
 Te (-47781487353600) 15 3 [2;4;6];
 Te (-22808020435200) 15 3 [2;5;5];
 Te 102192209159040000 15 3 [2;12];
 Te (-21350897568000) 15 3 [3;3;6];
 Te (-38060588966400) 15 3 [3;4;5];
 Te 77145312692448000 15 3 [3;11];
 Te (-5922372456000) 15 3 [4;4;4];
 Te 64640882386080000 15 3 [4;10];
 Te 57938038494336000 15 3 [5;9];
 Te 54554943239596800 15 3 [6;8];
 Te 26757774582739200 15 3 [7;7];
 Te 649667674656000 15 4 [1;1;11];
 Te 754148780985600 15 4 [1;2;10];
 Te 547412728262400 15 4 [1;3;9];
 Te 451333948665600 15 4 [1;4;8];
 Te 406405734134400 15 4 [1;5;7];
 Te 196532560224000 15 4 [1;6;6];
 Te (-1100137263018393600) 15 4 [1;14];
 Te 221688426960000 15 4 [2;2;9];
 Te 326971521676800 15 4 [2;3;8];
 Te 274955660179200 15 4 [2;4;7];
 Te 253909886630400 15 4 [2;5;6];
 Te (-685389419518003200) 15 4 [2;13];
 Te 122967314870400 15 4 [3;3;7];
 Te 212094404121600 15 4 [3;4;6];
 Te 101253952800000 15 4 [3;5;5];
 Te (-514039885700140800) 15 4 [3;12];
 Te 94559386521600 15 4 [4;4;5];
 Te (-426812854570502400) 15 4 [4;11];
 Te (-378516942131328000) 15 4 [5;10];
 Te (-352030981676774400) 15 4 [6;9];
 Te (-340160800076697600) 15 4 [7;8];
 Te 185513328000 16 0 [1;1;8];
 Te 222615993600 16 0 [1;2;7];
 Te 171243072000 16 0 [1;3;6];
 Te 152562009600 16 0 [1;4;5];
 Te (-239347998489600) 16 0 [1;11];
 Te 68497228800 16 0 [2;2;6];
 Te 108972864000 16 0 [2;3;5];
 Te 50854003200 16 0 [2;4;4];
 Te (-148838251161600) 16 0 [2;10];
 Te 45405360000 16 0 [3;3;4];
 Te (-114504534144000) 16 0 [3;9];
 Te (-98293523328000) 16 0 [4;8];
 Te (-90621833702400) 16 0 [5;7];
 Te (-44164905523200) 16 0 [6;6];
 Te 124903451312640000 16 0 [14];
 Te (-4415217206400) 16 1 [1;1;9];
 Te (-5194373184000) 16 1 [1;2;8];
 Te (-3895779888000) 16 1 [1;3;7];
 Te (-3356364211200) 16 1 [1;4;6];
 Te (-1601901100800) 16 1 [1;5;5];
 Te 6206622117696000 16 1 [1;12];
 Te (-1558311955200) 16 1 [2;2;7];
 Te (-2397403008000) 16 1 [2;3;6];
 Te (-2135868134400) 16 1 [2;4;5];
 Te 3843647269862400 16 1 [2;11];
 Te (-953512560000) 16 1 [3;3;5];
 Te (-889945056000) 16 1 [3;4;4];
 Te 2919777404544000 16 1 [3;10];
 Te 2472521635584000 16 1 [4;9];
 Te 2243969215488000 16 1 [5;8];
 Te 2145127714329600 16 1 [6;7];
 Te (-3622200088066560000) 16 1 [15];
 Te 54530799523200 16 2 [1;1;10];
 Te 63297147513600 16 2 [1;2;9];
 Te 46563845328000 16 2 [1;3;8];
 Te 39120479798400 16 2 [1;4;7];
 Te 36113607129600 16 2 [1;5;6];
 Te (-83600501394009600) 16 2 [1;13];
 Te 18662640796800 16 2 [2;2;8];
 Te 28006804425600 16 2 [2;3;7];
 Te 24132819110400 16 2 [2;4;6];
 Te 11518431724800 16 2 [2;5;5];
 Te (-51598266066547200) 16 2 [2;12];
 Te 10776637872000 16 2 [3;3;6];
 Te 19204651065600 16 2 [3;4;5];
 Te (-38819965850265600) 16 2 [3;11];
 Te 2987672688000 16 2 [4;4;4];
 Te (-32500585877760000) 16 2 [4;10];
 Te (-29119656069504000) 16 2 [5;9];
 Te (-27413823915878400) 16 2 [6;8];
 Te (-13444910057779200) 16 2 [7;7];
 Te (-465203340201600) 16 3 [1;1;11];
 Te (-535445432121600) 16 3 [1;2;10];
 Te (-388019676844800) 16 3 [1;3;9];
 Te (-319713669475200) 16 3 [1;4;8];
 Te (-287808231110400) 16 3 [1;5;7];
 Te (-139169244614400) 16 3 [1;6;6];
 Te 778526296067520000 16 3 [1;14];
 Te (-156090914179200) 16 3 [2;2;9];
 Te (-229851013392000) 16 3 [2;3;8];
 Te (-193170747369600) 16 3 [2;4;7];
 Te (-178344989222400) 16 3 [2;5;6];
 Te 479313139367462400 16 3 [2;13];
 Te (-86306508288000) 16 3 [3;3;7];
 Te (-148780651219200) 16 3 [3;4;6];
 Te (-71017615468800) 16 3 [3;5;5];
 Te 357930852447168000 16 3 [3;12];
 Te (-66300906672000) 16 3 [4;4;5];
 Te 296814983617152000 16 3 [4;11];
 Te 263098779495552000 16 3 [5;10];
 Te 244623810727296000 16 3 [6;9];
 Te 236346057621273600 16 3 [7;8];
 Te 630745315200 17 0 [1;1;9];
 Te 742053312000 17 0 [1;2;8];
 Te 556539984000 17 0 [1;3;7];
 Te 479480601600 17 0 [1;4;6];
 Te 228843014400 17 0 [1;5;5];
 Te (-902080481702400) 17 0 [1;12];
 Te 222615993600 17 0 [2;2;7];
 Te 342486144000 17 0 [2;3;6];
 Te 305124019200 17 0 [2;4;5];
 Te (-553450343846400) 17 0 [2;11];
 Te 136216080000 17 0 [3;3;5];
 Te 127135008000 17 0 [3;4;4];
 Te (-420223826880000) 17 0 [3;10];
 Te (-355740357772800) 17 0 [4;9];
 Te (-322793190720000) 17 0 [5;8];
 Te (-308545767129600) 17 0 [6;7];
 Te 523206679387392000 17 0 [15];
 Te (-16342037712000) 17 1 [1;1;10];
 Te (-18922359456000) 17 1 [1;2;9];
 Te (-13913499600000) 17 1 [1;3;8];
 Te (-11687339664000) 17 1 [1;4;7];
 Te (-10788313536000) 17 1 [1;5;6];
 Te 25250543398080000 17 1 [1;13];
 Te (-5565399840000) 17 1 [2;2;8];
 Te (-8348099760000) 17 1 [2;3;7];
 Te (-7192209024000) 17 1 [2;4;6];
 Te (-3432645216000) 17 1 [2;5;5];
 Te 15435599353574400 17 1 [2;12];
 Te (-3210807600000) 17 1 [3;3;6];
 Te (-5721075360000) 17 1 [3;4;5];
 Te 11591952083712000 17 1 [3;11];
 Te (-889945056000) 17 1 [4;4;4];
 Te 9700633585843200 17 1 [4;10];
 Te 8689147462195200 17 1 [5;9];
 Te 8178911604864000 17 1 [6;8];
 Te 4011094972684800 17 1 [7;7];
 Te 218983305340800 17 2 [1;1;11];
 Te 250807273516800 17 2 [1;2;10];
 Te 181580445446400 17 2 [1;3;9];
 Te 149560845033600 17 2 [1;4;8];
 Te 134614178899200 17 2 [1;5;7];
 Te 65089491667200 17 2 [1;6;6];
 Te (-366036503152320000) 17 2 [1;14];
 Te 72758327241600 17 2 [2;2;9];
 Te 107041190256000 17 2 [2;3;8];
 Te 89928299260800 17 2 [2;4;7];
 Te 83015527795200 17 2 [2;5;6];
 Te (-223106862384806400) 17 2 [2;13];
 Te 40156500384000 17 2 [3;3;7];
 Te 69202438905600 17 2 [3;4;6];
 Te 33029675078400 17 2 [3;5;5];
 Te (-166130976441830400) 17 2 [3;12];
 Te 30830239440000 17 2 [4;4;5];
 Te (-137665325685888000) 17 2 [4;11];
 Te (-121985226511948800) 17 2 [5;10];
 Te (-113396134819968000) 17 2 [6;9];
 Te (-109548439986585600) 17 2 [7;8];
 Te 2178938361600 18 0 [1;1;10];
 Te 2522981260800 18 0 [1;2;9];
 Te 1855133280000 18 0 [1;3;8];
 Te 1558311955200 18 0 [1;4;7];
 Te 1438441804800 18 0 [1;5;6];
 Te (-3418139716992000) 18 0 [1;13];
 Te 742053312000 18 0 [2;2;8];
 Te 1113079968000 18 0 [2;3;7];
 Te 958961203200 18 0 [2;4;6];
 Te 457686028800 18 0 [2;5;5];
 Te (-2072472081039360) 18 0 [2;12];
 Te 428107680000 18 0 [3;3;6];
 Te 762810048000 18 0 [3;4;5];
 Te (-1555761990182400) 18 0 [3;11];
 Te 118659340800 18 0 [4;4;4];
 Te (-1301552514662400) 18 0 [4;10];
 Te (-1165617342489600) 18 0 [5;9];
 Te (-1097051616460800) 18 0 [6;8];
 Te (-537996071733120) 18 0 [7;7];
 Te (-61010274124800) 18 1 [1;1;11];
 Te (-69726027571200) 18 1 [1;2;10];
 Te (-50459625216000) 18 1 [1;3;9];
 Te (-41554985472000) 18 1 [1;4;8];
 Te (-37399486924800) 18 1 [1;5;7];
 Te (-18083268403200) 18 1 [1;6;6];
 Te 102698393301504000 18 1 [1;14];
 Te (-20183850086400) 18 1 [2;2;9];
 Te (-29682132480000) 18 1 [2;3;8];
 Te (-24932991283200) 18 1 [2;4;7];
 Te (-23015068876800) 18 1 [2;5;6];
 Te 62066221176960000 18 1 [2;13];
 Te (-11130799680000) 18 1 [3;3;7];
 Te (-19179224064000) 18 1 [3;4;6];
 Te (-9153720576000) 18 1 [3;5;5];
 Te 46144886179392000 18 1 [3;12];
 Te (-8543472537600) 18 1 [4;4;5];
 Te 38222936739187200 18 1 [4;11];
 Te 33860702139264000 18 1 [5;10];
 Te 31471668247219200 18 1 [6;9];
 Te 30401553165984000 18 1 [7;8];
 Te 7626284265600 19 0 [1;1;11];
 Te 8715753446400 19 0 [1;2;10];
 Te 6307453152000 19 0 [1;3;9];
 Te 5194373184000 19 0 [1;4;8];
 Te 4674935865600 19 0 [1;5;7];
 Te 2260408550400 19 0 [1;6;6];
 Te (-13010776178400000) 19 0 [1;14];
 Te 2522981260800 19 0 [2;2;9];
 Te 3710266560000 19 0 [2;3;8];
 Te 3116623910400 19 0 [2;4;7];
 Te 2876883609600 19 0 [2;5;6];
 Te (-7806465707040000) 19 0 [2;13];
 Te 1391349960000 19 0 [3;3;7];
 Te 2397403008000 19 0 [3;4;6];
 Te 1144215072000 19 0 [3;5;5];
 Te (-5801842414368000) 19 0 [3;12];
 Te 1067934067200 19 0 [4;4;5];
 Te (-4804559087328000) 19 0 [4;11];
 Te (-4255466620204800) 19 0 [5;10];
 Te (-3954773126304000) 19 0 [6;9];
 Te (-3820090450176000) 19 0 [7;8]].
Definition wit0_4 : list term := [Te 1037836800 7 0 [1;2];
 Te (-65383718400) 7 0 [5];
 Te (-7783776000) 7 1 [1;3];
 Te (-3113510400) 7 1 [2;2];
 Te 719220902400 7 1 [6];
 Te (-129729600) 7 2 [1;1;1];
 Te 33729696000 7 2 [1;4];
 Te 24389164800 7 2 [2;3];
 Te (-4315325414400) 7 2 [7];
 Te 648648000 7 3 [1;1;2];
 Te (-108972864000) 7 3 [1;5];
 Te (-75243168000) 7 3 [2;4];
 Te (-33729696000) 7 3 [3;3];
 Te 18699743462400 7 3 [8];
 Te (-1037836800) 7 4 [1;1;3];
 Te (-908107200) 7 4 [1;2;2];
 Te 290594304000 7 4 [1;6];
 Te 197188992000 7 4 [2;5];
 Te 166053888000 7 4 [3;4];
 Te (-65449102118400) 7 4 [9];
 Te 1556755200 7 5 [1;1;4];
 Te 2594592000 7 5 [1;2;3];
 Te (-675631756800) 7 5 [1;7];
 Te 389188800 7 5 [2;2;2];
 Te (-457686028800) 7 5 [2;6];
 Te (-371026656000) 7 5 [3;5];
 Te (-173837664000) 7 5 [4;4];
 Te 196347306355200 7 5 [10];
 Te (-2205403200) 7 6 [1;1;5];
 Te (-3632428800) 7 6 [1;2;4];
 Te (-1686484800) 7 6 [1;3;3];
 Te 1416647232000 7 6 [1;8];
 Te (-1556755200) 7 6 [2;2;3];
 Te 966226060800 7 6 [2;7];
 Te 765404640000 7 6 [3;6];
 Te 687566880000 7 6 [4;5];
 Te (-523592816947200) 7 6 [11];
 Te 2983780800 7 7 [1;1;6];
 Te 4929724800 7 7 [1;2;5];
 Te 4410806400 7 7 [1;3;4];
 Te (-2739889152000) 7 7 [1;9];
 Te 2075673600 7 7 [2;2;4];
 Te 1945944000 7 7 [2;3;3];
 Te (-1889900812800) 7 7 [2;8];
 Te (-1477360684800) 7 7 [3;7];
 Te (-1289512224000) 7 7 [4;6];
 Te (-617512896000) 7 7 [5;5];
 Te 1271582555443200 7 7 [12];
 Te (-3891888000) 7 8 [1;1;7];
 Te (-6486480000) 7 8 [1;2;6];
 Te (-5708102400) 7 8 [1;3;5];
 Te (-2724321600) 7 8 [1;4;4];
 Te 4966049088000 7 8 [1;10];
 Te (-2724321600) 7 8 [2;2;5];
 Te (-4929724800) 7 8 [2;3;4];
 Te 3471564096000 7 8 [2;9];
 Te (-778377600) 7 8 [3;3;3];
 Te 2695781088000 7 8 [3;8];
 Te 2306592288000 7 8 [4;7];
 Te 2143132992000 7 8 [5;6];
 Te (-2861060749747200) 7 8 [13];
 Te 4929724800 7 9 [1;1;8];
 Te 8302694400 7 9 [1;2;7];
 Te 7264857600 7 9 [1;3;6];
 Te 6745939200 7 9 [1;4;5];
 Te (-8533613088000) 7 9 [1;11];
 Te 3502699200 7 9 [2;2;6];
 Te 6227020800 7 9 [2;3;5];
 Te 2983780800 7 9 [2;4;4];
 Te (-6050588544000) 7 9 [2;10];
 Te 2854051200 7 9 [3;3;4];
 Te (-4688427744000) 7 9 [3;9];
 Te (-3956752800000) 7 9 [4;8];
 Te (-3596104512000) 7 9 [5;7];
 Te (-1743565824000) 7 9 [6;6];
 Te 6040017138355200 7 9 [14];
 Te (-6097291200) 7 10 [1;1;9];
 Te (-10378368000) 7 10 [1;2;8];
 Te (-9081072000) 7 10 [1;3;7];
 Te (-8302694400) 7 10 [1;4;6];
 Te (-4021617600) 7 10 [1;5;5];
 Te 14024807596800 7 10 [1;12];
 Te (-4410806400) 7 10 [2;2;7];
 Te (-7783776000) 7 10 [2;3;6];
 Te (-7264857600) 7 10 [2;4;5];
 Te 10086216940800 7 10 [2;11];
 Te (-3502699200) 7 10 [3;3;5];
 Te (-3372969600) 7 10 [3;4;4];
 Te 7822694880000 7 10 [3;10];
 Te 6540966432000 7 10 [4;9];
 Te 5848210368000 7 10 [5;8];
 Te 5543086348800 7 10 [6;7];
 Te (-12080034276710400) 7 10 [15];
 Te 7394587200 7 11 [1;1;10];
 Te 12713500800 7 11 [1;2;9];
 Te 11156745600 7 11 [1;3;8];
 Te 10118908800 7 11 [1;4;7];
 Te 9599990400 7 11 [1;5;6];
 Te (-22194139968000) 7 11 [1;13];
 Te 5448643200 7 11 [2;2;8];
 Te 9599990400 7 11 [2;3;7];
 Te 8821612800 7 11 [2;4;6];
 Te 4281076800 7 11 [2;5;5];
 Te (-16183508140800) 7 11 [2;12];
 Te 4281076800 7 11 [3;3;6];
 Te 8043235200 7 11 [3;4;5];
 Te (-12588960384000) 7 11 [3;11];
 Te 1297296000 7 11 [4;4;4];
 Te (-10463989536000) 7 11 [4;10];
 Te (-9241936704000) 7 11 [5;9];
 Te (-8608856256000) 7 11 [6;8];
 Te (-4206352550400) 7 11 [7;7];
 Te (-8821612800) 7 12 [1;1;11];
 Te (-15308092800) 7 12 [1;2;10];
 Te (-13491878400) 7 12 [1;3;9];
 Te (-12194582400) 7 12 [1;4;8];
 Te (-11416204800) 7 12 [1;5;7];
 Te (-5578372800) 7 12 [1;6;6];
 Te 33999533568000 7 12 [1;14];
 Te (-6616209600) 7 12 [2;2;9];
 Te (-11675664000) 7 12 [2;3;8];
 Te (-10637827200) 7 12 [2;4;7];
 Te (-10118908800) 7 12 [2;5;6];
 Te 25121877580800 7 12 [2;13];
 Te (-5189184000) 7 12 [3;3;7];
 Te (-9599990400) 7 12 [3;4;6];
 Te (-4670265600) 7 12 [3;5;5];
 Te 19626531724800 7 12 [3;12];
 Te (-4540536000) 7 12 [4;4;5];
 Te 16257713472000 7 12 [4;11];
 Te 14228742528000 7 12 [5;10];
 Te 13076743680000 7 12 [6;9];
 Te 12553673932800 7 12 [7;8];
 Te 8302694400 8 0 [1;3];
 Te 2957834880 8 0 [2;2];
 Te (-719220902400) 8 0 [6];
 Te 302702400 8 1 [1;1;1];
 Te (-76281004800) 8 1 [1;4];
 Te (-54486432000) 8 1 [2;3];
 Te 9349871731200 8 1 [7];
 Te (-2508105600) 8 2 [1;1;2];
 Te 395934739200 8 2 [1;5];
 Te 281253772800 8 2 [2;4];
 Te 123762038400 8 2 [3;3];
 Te (-65449102118400) 8 2 [8];
 Te 5881075200 8 3 [1;1;3];
 Te 5318913600 8 3 [1;2;2];
 Te (-1514722809600) 8 3 [1;6];
 Te (-1067934067200) 8 3 [2;5];
 Te (-893577484800) 8 3 [3;4];
 Te 327245510592000 8 3 [9];
 Te 5405400 8 4 [1;1;1;1];
 Te (-12194582400) 8 4 [1;1;4];
 Te (-21016195200) 8 4 [1;2;3];
 Te 4740319584000 8 4 [1;7];
 Te (-3113510400) 8 4 [2;2;2];
 Te 3323672352000 8 4 [2;6];
 Te 2718094579200 8 4 [3;5];
 Te 1264863600000 8 4 [4;4];
 Te (-1308982042368000) 8 4 [10];
 Te (-21621600) 8 5 [1;1;1;2];
 Te 23005382400 8 5 [1;1;5];
 Te 38486448000 8 5 [1;2;4];
 Te 18421603200 8 5 [1;3;3];
 Te (-12826106092800) 8 5 [1;8];
 Te 16345929600 8 5 [2;2;3];
 Te (-8972825621760) 8 5 [2;7];
 Te (-7246695456000) 8 5 [3;6];
 Te (-6483885408000) 8 5 [4;5];
 Te 4450538944051200 8 5 [11];
 Te 21621600 8 6 [1;1;1;3];
 Te 32432400 8 6 [1;1;2;2];
 Te (-40259419200) 8 6 [1;1;6];
 Te (-66162096000) 8 6 [1;2;5];
 Te (-61578316800) 8 6 [1;3;4];
 Te 31046368953600 8 6 [1;9];
 Te (-27502675200) 8 6 [2;2;4];
 Te (-26075649600) 8 6 [2;3;3];
 Te 21740086368000 8 6 [2;8];
 Te 17417496096000 8 6 [3;7];
 Te 15241671244800 8 6 [4;6];
 Te 7273938672000 8 6 [5;5];
 Te (-13351616832153600) 8 6 [12];
 Te (-21621600) 8 7 [1;1;1;4];
 Te (-64864800) 8 7 [1;1;2;3];
 Te 66291825600 8 7 [1;1;7];
 Te (-21621600) 8 7 [1;2;2;2];
 Te 107935027200 8 7 [1;2;6];
 Te 98335036800 8 7 [1;3;5];
 Te 47999952000 8 7 [1;4;4];
 Te (-68788342022400) 8 7 [1;10];
 Te 44367523200 8 7 [2;2;5];
 Te 81729648000 8 7 [2;3;4];
 Te (-48341919225600) 8 7 [2;9];
 Te 12843230400 8 7 [3;3;3];
 Te (-38515680403200) 8 7 [3;8];
 Te (-33258518092800) 8 7 [4;7];
 Te (-30817525939200) 8 7 [5;6];
 Te 36240102830131200 8 7 [13];
 Te 21621600 8 8 [1;1;1;5];
 Te 64864800 8 8 [1;1;2;4];
 Te 32432400 8 8 [1;1;3;3];
 Te (-103826923200) 8 8 [1;1;8];
 Te 64864800 8 8 [1;2;2;3];
 Te (-168475507200) 8 8 [1;2;7];
 Te (-151005254400) 8 8 [1;3;6];
 Te (-144864720000) 8 8 [1;4;5];
 Te 141806387923200 8 8 [1;11];
 Te 5405400 8 8 [2;2;2;2];
 Te (-68886417600) 8 8 [2;2;6];
 Te (-124540416000) 8 8 [2;3;5];
 Te (-60497236800) 8 8 [2;4;4];
 Te 100211445734400 8 8 [2;10];
 Te (-56951294400) 8 8 [3;3;4];
 Te 79539293433600 8 8 [3;9];
 Te 68093510284800 8 8 [4;8];
 Te 61911116467200 8 8 [5;7];
 Te 29956640313600 8 8 [6;6];
 Te (-90600257075328000) 8 8 [14];
 Te (-21621600) 8 9 [1;1;1;6];
 Te (-64864800) 8 9 [1;1;2;5];
 Te (-64864800) 8 9 [1;1;3;4];
 Te 155978222400 8 9 [1;1;9];
 Te (-64864800) 8 9 [1;2;2;4];
 Te (-64864800) 8 9 [1;2;3;3];
 Te 253232179200 8 9 [1;2;8];
 Te 224259235200 8 9 [1;3;7];
 Te 212064652800 8 9 [1;4;6];
 Te 104432328000 8 9 [1;5;5];
 Te (-275301778752000) 8 9 [1;12];
 Te (-21621600) 8 9 [2;2;2;3];
 Te 103394491200 8 9 [2;2;7];
 Te 184475491200 8 9 [2;3;6];
 Te 175913337600 8 9 [2;4;5];
 Te (-195902074368000) 8 9 [2;11];
 Te 82897214400 8 9 [3;3;5];
 Te 80216136000 8 9 [3;4;4];
 Te (-155123390822400) 8 9 [3;10];
 Te (-132007651776000) 8 9 [4;9];
 Te (-118540681459200) 8 9 [5;8];
 Te (-112133077056000) 8 9 [6;7];
 Te 211400599842432000 8 9 [15];
 Te 21621600 8 10 [1;1;1;7];
 Te 64864800 8 10 [1;1;2;6];
 Te 64864800 8 10 [1;1;3;5];
 Te 32432400 8 10 [1;1;4;4];
 Te (-226248422400) 8 10 [1;1;10];
 Te 64864800 8 10 [1;2;2;5];
 Te 129729600 8 10 [1;2;3;4];
 Te (-368432064000) 8 10 [1;2;9];
 Te 21621600 8 10 [1;3;3;3];
 Te (-323545622400) 8 10 [1;3;8];
 Te (-302269968000) 8 10 [1;4;7];
 Te (-294226732800) 8 10 [1;5;6];
 Te 508009697395200 8 10 [1;13];
 Te 21621600 8 10 [2;2;2;4];
 Te 32432400 8 10 [2;2;3;3];
 Te (-150616065600) 8 10 [2;2;8];
 Te (-266205139200) 8 10 [2;3;7];
 Te (-250378128000) 8 10 [2;4;6];
 Te (-122983660800) 8 10 [2;5;5];
 Te 364333335125760 8 10 [2;12];
 Te (-118313395200) 8 10 [3;3;6];
 Te (-224432208000) 8 10 [3;4;5];
 Te 288167841561600 8 10 [3;11];
 Te (-36108072000) 8 10 [4;4;4];
 Te 244153701792000 8 10 [4;10];
 Te 217400863680000 8 10 [5;9];
 Te 202427992166400 8 10 [6;8];
 Te 98775183386880 8 10 [7;7];
 Te (-21621600) 8 11 [1;1;1;8];
 Te (-64864800) 8 11 [1;1;2;7];
 Te (-64864800) 8 11 [1;1;3;6];
 Te (-64864800) 8 11 [1;1;4;5];
 Te 318529411200 8 11 [1;1;11];
 Te (-64864800) 8 11 [1;2;2;6];
 Te (-129729600) 8 11 [1;2;3;5];
 Te (-64864800) 8 11 [1;2;4;4];
 Te 521080560000 8 11 [1;2;10];
 Te (-64864800) 8 11 [1;3;3;4];
 Te 455091436800 8 11 [1;3;9];
 Te 420929308800 8 11 [1;4;8];
 Te 405621216000 8 11 [1;5;7];
 Te 200691691200 8 11 [1;6;6];
 Te (-897493243046400) 8 11 [1;14];
 Te (-21621600) 8 11 [2;2;2;5];
 Te (-64864800) 8 11 [2;2;3;4];
 Te 213664651200 8 11 [2;2;9];
 Te (-21621600) 8 11 [2;3;3;3];
 Te 375178003200 8 11 [2;3;8];
 Te 349059110400 8 11 [2;4;7];
 Te 338594256000 8 11 [2;5;6];
 Te (-649060540128000) 8 11 [2;13];
 Te 165534969600 8 11 [3;3;7];
 Te 309794284800 8 11 [3;4;6];
 Te 151783632000 8 11 [3;5;5];
 Te (-513332243424000) 8 11 [3;12];
 Te 146378232000 8 11 [4;4;5];
 Te (-433502874604800) 8 11 [4;11];
 Te (-383690859552000) 8 11 [5;10];
 Te (-353333614233600) 8 11 [6;9];
 Te (-338687661312000) 8 11 [7;8];
 Te (-172972800) 9 0 [1;1;1];
 Te 43589145600 9 0 [1;4];
 Te 31135104000 9 0 [2;3];
 Te (-5342783846400) 9 0 [7];
 Te 3113510400 9 1 [1;1;2];
 Te (-490377888000) 9 1 [1;5];
 Te (-348713164800) 9 1 [2;4];
 Te (-155675520000) 9 1 [3;3];
 Te 80141757696000 9 1 [8];
 Te (-12194582400) 9 2 [1;1;3];
 Te (-10897286400) 9 2 [1;2;2];
 Te 3040342905600 9 2 [1;6];
 Te 2146765420800 9 2 [2;5];
 Te 1818290073600 9 2 [3;4];
 Te (-641134061568000) 9 2 [9];
 Te (-21621600) 9 3 [1;1;1;1];
 Te 37621584000 9 3 [1;1;4];
 Te 63308044800 9 3 [1;2;3];
 Te (-13665197145600) 9 3 [1;7];
 Te 9340531200 9 3 [2;2;2];
 Te (-9578714745600) 9 3 [2;6];
 Te (-7900532640000) 9 3 [3;5];
 Te (-3705077376000) 9 3 [4;4];
 Te 3633093015552000 9 3 [10];
 Te 129729600 9 4 [1;1;1;2];
 Te (-98594496000) 9 4 [1;1;5];
 Te (-159826867200) 9 4 [1;2;4];
 Te (-75762086400) 9 4 [1;3;3];
 Te 49626242265600 9 4 [1;8];
 Te (-66681014400) 9 4 [2;2;3];
 Te 34587987033600 9 4 [2;7];
 Te 28104101625600 9 4 [3;6];
 Te 25379780025600 9 4 [4;5];
 Te (-16348918569984000) 9 4 [11];
 Te (-194594400) 9 5 [1;1;1;3];
 Te (-259459200) 9 5 [1;1;2;2];
 Te 228843014400 9 5 [1;1;6];
 Te 362205043200 9 5 [1;2;5];
 Te 332107776000 9 5 [1;3;4];
 Te (-154272883564800) 9 5 [1;9];
 Te 146075529600 9 5 [2;2;4];
 Te 138032294400 9 5 [2;3;3];
 Te (-107163914457600) 9 5 [2;8];
 Te (-86241124569600) 9 5 [3;7];
 Te (-76095750931200) 9 5 [4;6];
 Te (-36495012153600) 9 5 [5;5];
 Te 62125890565939200 9 5 [12];
 Te 281080800 9 6 [1;1;1;4];
 Te 713512800 9 6 [1;1;2;3];
 Te (-483113030400) 9 6 [1;1;7];
 Te 216216000 9 6 [1;2;2;2];
 Te (-753469516800) 9 6 [1;2;6];
 Te (-674593920000) 9 6 [1;3;5];
 Te (-326918592000) 9 6 [1;4;4];
 Te 425419163769600 9 6 [1;10];
 Te (-297859161600) 9 6 [2;2;5];
 Te (-543826483200) 9 6 [2;3;4];
 Te 295240180435200 9 6 [2;9];
 Te (-85362076800) 9 6 [3;3;3];
 Te 235969839705600 9 6 [3;8];
 Te 205152313766400 9 6 [4;7];
 Te 191399938329600 9 6 [5;6];
 Te (-207086301886464000) 9 6 [13];
 Te (-389188800) 9 7 [1;1;1;5];
 Te (-972972000) 9 7 [1;1;2;4];
 Te (-454053600) 9 7 [1;1;3;3];
 Te 944950406400 9 7 [1;1;8];
 Te (-843242400) 9 7 [1;2;2;3];
 Te 1461793132800 9 7 [1;2;7];
 Te 1285360876800 9 7 [1;3;6];
 Te 1219458240000 9 7 [1;4;5];
 Te (-1065885377356800) 9 7 [1;11];
 Te (-64864800) 9 7 [2;2;2;2];
 Te 571329158400 9 7 [2;2;6];
 Te 1018636819200 9 7 [2;3;5];
 Te 492972480000 9 7 [2;4;4];
 Te (-740643410707200) 9 7 [2;10];
 Te 463134672000 9 7 [3;3;4];
 Te (-588887800300800) 9 7 [3;9];
 Te (-506919968755200) 9 7 [4;8];
 Te (-464126325062400) 9 7 [5;7];
 Te (-225344985465600) 9 7 [6;6];
 Te 621258905659392000 9 7 [14];
 Te 518918400 9 8 [1;1;1;6];
 Te 1297296000 9 8 [1;1;2;5];
 Te 1167566400 9 8 [1;1;3;4];
 Te (-1735782048000) 9 8 [1;1;9];
 Te 1102701600 9 8 [1;2;2;4];
 Te 1037836800 9 8 [1;2;3;3];
 Te (-2676062188800) 9 8 [1;2;8];
 Te (-2320603084800) 9 8 [1;3;7];
 Te (-2166484320000) 9 8 [1;4;6];
 Te (-1061188128000) 9 8 [1;5;5];
 Te 2468366137036800 9 8 [1;12];
 Te 324324000 9 8 [2;2;2;3];
 Te (-1039912473600) 9 8 [2;2;7];
 Te (-1822441420800) 9 8 [2;3;6];
 Te (-1725403680000) 9 8 [2;4;5];
 Te 1720376398540800 9 8 [2;11];
 Te (-809512704000) 9 8 [3;3;5];
 Te (-782269488000) 9 8 [3;4;4];
 Te 1362461253753600 9 8 [3;10];
 Te 1164582100281600 9 8 [4;9];
 Te 1052449023225600 9 8 [5;8];
 Te 1000730501971200 9 8 [6;7];
 Te (-1708461990563328000) 9 8 [15];
 Te (-670269600) 9 9 [1;1;1;7];
 Te (-1686484800) 9 9 [1;1;2;6];
 Te (-1491890400) 9 9 [1;1;3;5];
 Te (-713512800) 9 9 [1;1;4;4];
 Te 3025294272000 9 9 [1;1;10];
 Te (-1427025600) 9 9 [1;2;2;5];
 Te (-2594592000) 9 9 [1;2;3;4];
 Te 4664038579200 9 9 [1;2;9];
 Te (-410810400) 9 9 [1;3;3;3];
 Te 4001898700800 9 9 [1;3;8];
 Te 3688471987200 9 9 [1;4;7];
 Te 3559780224000 9 9 [1;5;6];
 Te (-5351243254156800) 9 9 [1;13];
 Te (-410810400) 9 9 [2;2;2;4];
 Te (-583783200) 9 9 [2;2;3;3];
 Te 1808949542400 9 9 [2;2;8];
 Te 3130115788800 9 9 [2;3;7];
 Te 2915283571200 9 9 [2;4;6];
 Te 1427025600000 9 9 [2;5;5];
 Te (-3746181940300800) 9 9 [2;12];
 Te 1367868902400 9 9 [3;3;6];
 Te 2584213632000 9 9 [3;4;5];
 Te (-2958121322956800) 9 9 [3;11];
 Te 415567152000 9 9 [4;4;4];
 Te (-2515201117228800) 9 9 [4;10];
 Te (-2252011412851200) 9 9 [5;9];
 Te (-2108984528851200) 9 9 [6;8];
 Te (-1031689692633600) 9 9 [7;7];
 Te 843242400 9 10 [1;1;1;8];
 Te 2140538400 9 10 [1;1;2;7];
 Te 1881079200 9 10 [1;1;3;6];
 Te 1751349600 9 10 [1;1;4;5];
 Te (-5043108470400) 9 10 [1;1;11];
 Te 1816214400 9 10 [1;2;2;6];
 Te 3243240000 9 10 [1;2;3;5];
 Te 1556755200 9 10 [1;2;4;4];
 Te (-7793116531200) 9 10 [1;2;10];
 Te 1491890400 9 10 [1;3;3;4];
 Te (-6634371744000) 9 10 [1;3;9];
 Te (-6050588544000) 9 10 [1;4;8];
 Te (-5771929363200) 9 10 [1;5;7];
 Te (-2844191750400) 9 10 [1;6;6];
 Te 10967399540697600 9 10 [1;14];
 Te 518918400 9 10 [2;2;2;5];
 Te 1427025600 9 10 [2;2;3;4];
 Te (-3024775353600) 9 10 [2;2;9];
 Te 454053600 9 10 [2;3;3;3];
 Te (-5185032652800) 9 10 [2;3;8];
 Te (-4767822259200) 9 10 [2;4;7];
 Te (-4596579187200) 9 10 [2;5;6];
 Te 7719877426060800 9 10 [2;13];
 Te (-2239651814400) 9 10 [3;3;7];
 Te (-4161725568000) 9 10 [3;4;6];
 Te (-2035457424000) 9 10 [3;5;5];
 Te 6083649873100800 9 10 [3;12];
 Te (-1961511552000) 9 10 [4;4;5];
 Te 5151539583590400 9 10 [4;11];
 Te 4581175613414400 9 10 [5;10];
 Te 4242487952102400 9 10 [6;9];
 Te 4083082446643200 9 10 [7;8];
 Te (-1254052800) 10 0 [1;1;2];
 Te 203934931200 10 0 [1;5];
 Te 142702560000 10 0 [2;4];
 Te 65791440000 10 0 [3;3];
 Te (-33392399040000) 10 0 [8];
 Te 10940529600 10 1 [1;1;3];
 Te 9496206720 10 1 [1;2;2];
 Te (-2722764844800) 10 1 [1;6];
 Te (-1896127833600) 10 1 [2;5];
 Te (-1634592960000) 10 1 [3;4];
 Te 567670783680000 10 1 [9];
 Te 32432400 10 2 [1;1;1;1];
 Te (-56043187200) 10 2 [1;1;4];
 Te (-91070179200) 10 2 [1;2;3];
 Te 19692953280000 10 2 [1;7];
 Te (-13258365120) 10 2 [2;2;2];
 Te 13630948531200 10 2 [2;6];
 Te 11329545427200 10 2 [3;5];
 Te 5364318960000 10 2 [4;4];
 Te (-5109037053120000) 10 2 [10];
 Te (-302702400) 10 3 [1;1;1;2];
 Te 215524108800 10 3 [1;1;5];
 Te 336951014400 10 3 [1;2;4];
 Te 157232275200 10 3 [1;3;3];
 Te (-101958125068800) 10 3 [1;8];
 Te 137279862720 10 3 [2;2;3];
 Te (-70158286598400) 10 3 [2;7];
 Te (-57100223980800) 10 3 [3;6];
 Te (-52089028992000) 10 3 [4;5];
 Te 32357234669760000 10 3 [11];
 Te 670269600 10 4 [1;1;1;3];
 Te 843242400 10 4 [1;1;2;2];
 Te (-684410126400) 10 4 [1;1;6];
 Te (-1043804361600) 10 4 [1;2;5];
 Te (-936215280000) 10 4 [1;3;4];
 Te 422302539859200 10 4 [1;9];
 Te (-408284997120) 10 4 [2;2;4];
 Te (-381923942400) 10 4 [2;3;3];
 Te 289246672915200 10 4 [2;8];
 Te 232353497376000 10 4 [3;7];
 Te 206596463673600 10 4 [4;6];
 Te 99590819328000 10 4 [5;5];
 Te (-161786173348800000) 10 4 [12];
 Te (-1362160800) 10 5 [1;1;1;4];
 Te (-3178375200) 10 5 [1;1;2;3];
 Te 1887954868800 10 5 [1;1;7];
 Te (-908107200) 10 5 [1;2;2;2];
 Te 2833294464000 10 5 [1;2;6];
 Te 2476797523200 10 5 [1;3;5];
 Te 1188582595200 10 5 [1;4;4];
 Te (-1485071293305600) 10 5 [1;10];
 Te 1081062702720 10 5 [2;2;5];
 Te 1942571030400 10 5 [2;3;4];
 Te (-1014238466841600) 10 5 [2;9];
 Te 303048345600 10 5 [3;3;3];
 Te (-807565203244800) 10 5 [3;8];
 Te (-705426494572800) 10 5 [4;7];
 Te (-662553456364800) 10 5 [5;6];
 Te 679501928064960000 10 5 [13];
 Te 2551348800 10 6 [1;1;1;5];
 Te 5772967200 10 6 [1;1;2;4];
 Te 2627024400 10 6 [1;1;3;3];
 Te (-4668579115200) 10 6 [1;1;8];
 Te 4605400800 10 6 [1;2;2;3];
 Te (-6936607117440) 10 6 [1;2;7];
 Te (-5954588640000) 10 6 [1;3;6];
 Te (-5564967408000) 10 6 [1;4;5];
 Te 4600136891750400 10 6 [1;11];
 Te 335134800 10 6 [2;2;2;2];
 Te (-2607331446720) 10 6 [2;2;6];
 Te (-4560773817600) 10 6 [2;3;5];
 Te (-2190959971200) 10 6 [2;4;4];
 Te 3138440277772800 10 6 [2;10];
 Te (-2050116868800) 10 6 [3;3;4];
 Te 2482870425235200 10 6 [3;9];
 Te 2141959717497600 10 6 [4;8];
 Te 1973478329222400 10 6 [5;7];
 Te 961325914348800 10 6 [6;6];
 Te (-2491507069571520000) 10 6 [14];
 Te (-4454049600) 10 7 [1;1;1;6];
 Te (-9989179200) 10 7 [1;1;2;5];
 Te (-8627018400) 10 7 [1;1;3;4];
 Te 10572832670400 10 7 [1;1;9];
 Te (-7718911200) 10 7 [1;2;2;4];
 Te (-7070263200) 10 7 [1;2;3;3];
 Te 15624373564800 10 7 [1;2;8];
 Te 13230948931200 10 7 [1;3;7];
 Te 12138971644800 10 7 [1;4;6];
 Te 5906329228800 10 7 [1;5;5];
 Te (-12867204430080000) 10 7 [1;12];
 Te (-2097295200) 10 7 [2;2;2;3];
 Te 5823120663360 10 7 [2;2;7];
 Te 9993849465600 10 7 [2;3;6];
 Te 9349612272000 10 7 [2;4;5];
 Te (-8784649723449600) 10 7 [2;11];
 Te 4371757790400 10 7 [3;3;5];
 Te 4202633635200 10 7 [3;4;4];
 Te (-6915629445753600) 10 7 [3;10];
 Te (-5912595168480000) 10 7 [4;9];
 Te (-5370041073196800) 10 7 [5;8];
 Te (-5130638588275200) 10 7 [6;7];
 Te 8186380371449280000 10 7 [15];
 Te 7329722400 10 8 [1;1;1;7];
 Te 16475659200 10 8 [1;1;2;6];
 Te 13816202400 10 8 [1;1;3;5];
 Te 6518912400 10 8 [1;1;4;4];
 Te (-22270161513600) 10 8 [1;1;10];
 Te 12583771200 10 8 [1;2;2;5];
 Te 21924302400 10 8 [1;2;3;4];
 Te (-32845977964800) 10 8 [1;2;9];
 Te 3372969600 10 8 [1;3;3;3];
 Te (-27524210313600) 10 8 [1;3;8];
 Te (-24911196710400) 10 8 [1;4;7];
 Te (-23783327568000) 10 8 [1;5;6];
 Te 33083853272870400 10 8 [1;13];
 Te 3308104800 10 8 [2;2;2;4];
 Te 4572968400 10 8 [2;2;3;3];
 Te (-12191754294720) 10 8 [2;2;8];
 Te (-20634323149440) 10 8 [2;3;7];
 Te (-18942337814400) 10 8 [2;4;6];
 Te (-9221569156800) 10 8 [2;5;5];
 Te 22636039461235200 10 8 [2;12];
 Te (-8854174929600) 10 8 [3;3;6];
 Te (-16576848288000) 10 8 [3;4;5];
 Te 17752289793638400 10 8 [3;11];
 Te (-2656213560000) 10 8 [4;4;4];
 Te 15076068815808000 10 8 [4;10];
 Te 13545599427360000 10 8 [5;9];
 Te 12749354947929600 10 8 [6;8];
 Te 6251293727078400 10 8 [7;7];
 Te (-11481069600) 10 9 [1;1;1;8];
 Te (-26010784800) 10 9 [1;1;2;7];
 Te (-21470248800) 10 9 [1;1;3;6];
 Te (-19524304800) 10 9 [1;1;4;5];
 Te 44139804508800 10 9 [1;1;11];
 Te (-19848628800) 10 9 [1;2;2;6];
 Te (-33599966400) 10 9 [1;2;3;5];
 Te (-15891876000) 10 9 [1;2;4;4];
 Te 65141815939200 10 9 [1;2;10];
 Te (-14789174400) 10 9 [1;3;3;4];
 Te 54147059366400 10 9 [1;3;9];
 Te 48492405561600 10 9 [1;4;8];
 Te 45654786777600 10 9 [1;5;7];
 Te 22388474908800 10 9 [1;6;6];
 Te (-79239272457945600) 10 9 [1;14];
 Te (-5145940800) 10 9 [2;2;2;5];
 Te (-13556743200) 10 9 [2;2;3;4];
 Te 24156196384320 10 9 [2;2;9];
 Te (-4194590400) 10 9 [2;3;3;3];
 Te 40461883862400 10 9 [2;3;8];
 Te 36623669322240 10 9 [2;4;7];
 Te 34987554201600 10 9 [2;5;6];
 Te (-54400521945369600) 10 9 [2;13];
 Te 17121582878400 10 9 [3;3;7];
 Te 31446973958400 10 9 [3;4;6];
 Te 15314968468800 10 9 [3;5;5];
 Te (-42539319190368000) 10 9 [3;12];
 Te 14721498792000 10 9 [4;4;5];
 Te (-35940535908076800) 10 9 [4;11];
 Te (-32026906783872000) 10 9 [5;10];
 Te (-29794650594508800) 10 9 [6;9];
 Te (-28778699696947200) 10 9 [7;8];
 Te (-3589185600) 11 0 [1;1;3];
 Te (-3009726720) 11 0 [1;2;2];
 Te 907588281600 11 0 [1;6];
 Te 621145324800 11 0 [2;5];
 Te 544864320000 11 0 [3;4];
 Te (-189223594560000) 11 0 [9];
 Te (-21621600) 11 1 [1;1;1;1];
 Te 40259419200 11 1 [1;1;4];
 Te 63308044800 11 1 [1;2;3];
 Te (-14024807596800) 11 1 [1;7];
 Te 9029180160 11 1 [2;2;2];
 Te (-9555363417600) 11 1 [2;6];
 Te (-8009505504000) 11 1 [3;5];
 Te (-3814050240000) 11 1 [4;4];
 Te 3595248296640000 11 1 [10];
 Te 345945600 11 2 [1;1;1;2];
 Te (-253059206400) 11 2 [1;1;5];
 Te (-383307724800) 11 2 [1;2;4];
 Te (-176691715200) 11 2 [1;3;3];
 Te 115982932665600 11 2 [1;8];
 Te (-152328496320) 11 2 [2;2;3];
 Te 78617694355200 11 2 [2;7];
 Te 64127416953600 11 2 [3;6];
 Te 58899832992000 11 2 [4;5];
 Te (-35952482966400000) 11 2 [11];
 Te (-1167566400) 11 3 [1;1;1;3];
 Te (-1427025600) 11 3 [1;1;2;2];
 Te 1162377216000 11 3 [1;1;6];
 Te 1718138822400 11 3 [1;2;5];
 Te 1514463350400 11 3 [1;3;4];
 Te (-680091860448000) 11 3 [1;9];
 Te 654226372800 11 3 [2;2;4];
 Te 605577772800 11 3 [2;3;3];
 Te (-458811562809600) 11 3 [2;8];
 Te (-367898615884800) 11 3 [3;7];
 Te (-328965725088000) 11 3 [4;6];
 Te (-159045895008000) 11 3 [5;5];
 Te 251667380764800000 11 3 [12];
 Te 3372969600 11 4 [1;1;1;4];
 Te 7524316800 11 4 [1;1;2;3];
 Te (-4329855129600) 11 4 [1;1;7];
 Te 2075673600 11 4 [1;2;2;2];
 Te (-6294999110400) 11 4 [1;2;6];
 Te (-5396491900800) 11 4 [1;3;5];
 Te (-2572105536000) 11 4 [1;4;4];
 Te 3165599428992000 11 4 [1;10];
 Te (-2333576044800) 11 4 [2;2;5];
 Te (-4130331004800) 11 4 [2;3;4];
 Te 2127763666828800 11 4 [2;9];
 Te (-639048009600) 11 4 [3;3;3];
 Te 1686881253657600 11 4 [3;8];
 Te 1478886304896000 11 4 [4;7];
 Te 1394681416128000 11 4 [5;6];
 Te (-1384170594206400000) 11 4 [13];
 Te (-8562153600) 11 5 [1;1;1;5];
 Te (-18291873600) 11 5 [1;1;2;4];
 Te (-8237829600) 11 5 [1;1;3;3];
 Te 13825024012800 11 5 [1;1;8];
 Te (-13881067200) 11 5 [1;2;2;3];
 Te 19879556336640 11 5 [1;2;7];
 Te 16723702195200 11 5 [1;3;6];
 Te 15461433187200 11 5 [1;4;5];
 Te (-12428205690700800) 11 5 [1;11];
 Te (-972972000) 11 5 [2;2;2;2];
 Te 7244515998720 11 5 [2;2;6];
 Te 12457155110400 11 5 [2;3;5];
 Te 5946372432000 11 5 [2;4;4];
 Te (-8334520184390400) 11 5 [2;10];
 Te 5529335011200 11 5 [3;3;4];
 Te (-6554927931552000) 11 5 [3;9];
 Te (-5663693363328000) 11 5 [4;8];
 Te (-5239382609260800) 11 5 [5;7];
 Te (-2556928383609600) 11 5 [6;6];
 Te 6367184733349440000 11 5 [14];
 Te 19545926400 11 6 [1;1;1;6];
 Te 40994553600 11 6 [1;1;2;5];
 Te 34767532800 11 6 [1;1;3;4];
 Te (-39157582464000) 11 6 [1;1;9];
 Te 29837808000 11 6 [1;2;2;4];
 Te 26983756800 11 6 [1;2;3;3];
 Te (-55924873804800) 11 6 [1;2;8];
 Te (-46407304944000) 11 6 [1;3;7];
 Te (-42022357977600) 11 6 [1;4;6];
 Te (-20356130995200) 11 6 [1;5;5];
 Te 42734256595430400 11 6 [1;12];
 Te 7697289600 11 6 [2;2;2;3];
 Te (-20165791726080) 11 6 [2;2;7];
 Te (-33989414659200) 11 6 [2;3;6];
 Te (-31481741491200) 11 6 [2;4;5];
 Te 28634650024780800 11 6 [2;11];
 Te (-14648288054400) 11 6 [3;3;5];
 Te (-14003445456000) 11 6 [3;4;4];
 Te 22387377396384000 11 6 [3;10];
 Te 19135300216032000 11 6 [4;9];
 Te 17437720940640000 11 6 [5;8];
 Te 16706796352646400 11 6 [6;7];
 Te (-25468738933397760000) 11 6 [15];
 Te (-40886445600) 11 7 [1;1;1;7];
 Te (-85362076800) 11 7 [1;1;2;6];
 Te (-69794524800) 11 7 [1;1;3;5];
 Te (-32756724000) 11 7 [1;1;4;4];
 Te 100696634438400 11 7 [1;1;10];
 Te (-60972912000) 11 7 [1;2;2;5];
 Te (-104043139200) 11 7 [1;2;3;4];
 Te 143313326956800 11 7 [1;2;9];
 Te (-15762146400) 11 7 [1;3;3;3];
 Te 117693028252800 11 7 [1;3;8];
 Te 105001408512000 11 7 [1;4;7];
 Te 99510386976000 11 7 [1;5;6];
 Te (-132017517452620800) 11 7 [1;13];
 Te (-15091876800) 11 7 [2;2;2;4];
 Te (-20562141600) 11 7 [2;2;3;3];
 Te 51369185387520 11 7 [2;2;8];
 Te 85334885475840 11 7 [2;3;7];
 Te 77397976656000 11 7 [2;4;6];
 Te 37519357075200 11 7 [2;5;5];
 Te (-88511228591385600) 11 7 [2;12];
 Te 36024872083200 11 7 [3;3;6];
 Te 66847327747200 11 7 [3;4;5];
 Te (-68885847827596800) 11 7 [3;11];
 Te 10661610960000 11 7 [4;4;4];
 Te (-58399966681056000) 11 7 [4;10];
 Te (-52594055946432000) 11 7 [5;9];
 Te (-49653829524499200) 11 7 [6;8];
 Te (-24377581503475200) 11 7 [7;7];
 Te 79545866400 11 8 [1;1;1;8];
 Te 166637671200 11 8 [1;1;2;7];
 Te 133232299200 11 8 [1;1;3;6];
 Te 119999880000 11 8 [1;1;4;5];
 Te (-239071025793600) 11 8 [1;1;11];
 Te 118313395200 11 8 [1;2;2;6];
 Te 194853859200 11 8 [1;2;3;5];
 Te 91589097600 11 8 [1;2;4;4];
 Te (-339946038432000) 11 8 [1;2;10];
 Te 83740456800 11 8 [1;3;3;4];
 Te (-276923398752000) 11 8 [1;3;9];
 Te (-244330479993600) 11 8 [1;4;8];
 Te (-227890712649600) 11 8 [1;5;7];
 Te (-111406591296000) 11 8 [1;6;6];
 Te 373186773191232000 11 8 [1;14];
 Te 28713484800 11 8 [2;2;2;5];
 Te 73945872000 11 8 [2;2;3;4];
 Te (-121529651443200) 11 8 [2;2;9];
 Te 22508085600 11 8 [2;3;3;3];
 Te (-199705227321600) 11 8 [2;3;8];
 Te (-178389183772800) 11 8 [2;4;7];
 Te (-169223960505600) 11 8 [2;5;6];
 Te 250660711241740800 11 8 [2;13];
 Te (-83052111542400) 11 8 [3;3;7];
 Te (-150891870729600) 11 8 [3;4;6];
 Te (-73198240315200) 11 8 [3;5;5];
 Te 194389176075494400 11 8 [3;12];
 Te (-70094113689600) 11 8 [4;4;5];
 Te 163765229531904000 11 8 [4;11];
 Te 146113151184000000 11 8 [5;10];
 Te 136318047465600000 11 8 [6;9];
 Te 131939225120102400 11 8 [7;8];
 Te 5405400 12 0 [1;1;1;1];
 Te (-11199988800) 12 0 [1;1;4];
 Te (-17124307200) 12 0 [1;2;3];
 Te 3932882553600 12 0 [1;7];
 Te (-2387024640) 12 0 [2;2;2];
 Te 2637143308800 12 0 [2;6];
 Te 2233943712000 12 0 [3;5];
 Te 1063696233600 12 0 [4;4];
 Te (-1006669523059200) 12 0 [10];
 Te (-194594400) 12 1 [1;1;1;2];
 Te 152172820800 12 1 [1;1;5];
 Te 224432208000 12 1 [1;2;4];
 Te 102764376000 12 1 [1;3;3];
 Te (-69010958016000) 12 1 [1;8];
 Te 87178291200 12 1 [2;2;3];
 Te (-46081510675200) 12 1 [2;7];
 Te (-37759097376000) 12 1 [3;6];
 Te (-34784138188800) 12 1 [4;5];
 Te 21140059984243200 12 1 [11];
 Te 1102701600 12 2 [1;1;1;3];
 Te 1329728400 12 2 [1;1;2;2];
 Te (-1129036708800) 12 2 [1;1;6];
 Te (-1626030806400) 12 2 [1;2;5];
 Te (-1417425609600) 12 2 [1;3;4];
 Te 642247141536000 12 2 [1;9];
 Te (-605188584000) 12 2 [2;2;4];
 Te (-555780139200) 12 2 [2;3;3];
 Te 426977475724800 12 2 [2;8];
 Te 342451895385600 12 2 [3;7];
 Te 307303476480000 12 2 [4;6];
 Te 148709818857600 12 2 [5;5];
 Te (-232540659826675200) 12 2 [12];
 Te (-4735130400) 12 3 [1;1;1;4];
 Te (-10313503200) 12 3 [1;1;2;3];
 Te 6017766955200 12 3 [1;1;7];
 Te (-2789186400) 12 3 [1;2;2;2];
 Te 8524013097600 12 3 [1;2;6];
 Te 7207257657600 12 3 [1;3;5];
 Te 3422483064000 12 3 [1;4;4];
 Te (-4207071252384000) 12 3 [1;10];
 Te 3086656372800 12 3 [2;2;5];
 Te 5400643248000 12 3 [2;3;4];
 Te (-2786039159904000) 12 3 [2;9];
 Te 829250136000 12 3 [3;3;3];
 Te (-2202785256672000) 12 3 [3;8];
 Te (-1936673522784000) 12 3 [4;7];
 Te (-1829599900128000) 12 3 [5;6];
 Te 1782811725337843200 12 3 [13];
 Te 16670253600 12 4 [1;1;1;5];
 Te 34443208800 12 4 [1;1;2;4];
 Te 15437822400 12 4 [1;1;3;3];
 Te (-25690741876800) 12 4 [1;1;8];
 Te 25362136800 12 4 [1;2;2;3];
 Te (-35969607273600) 12 4 [1;2;7];
 Te (-29800964793600) 12 4 [1;3;6];
 Te (-27376318569600) 12 4 [1;4;5];
 Te 21741791014944000 12 4 [1;11];
 Te 1735133400 12 4 [2;2;2;2];
 Te (-12789133156800) 12 4 [2;2;6];
 Te (-21699091814400) 12 4 [2;3;5];
 Te (-10313892388800) 12 4 [2;4;4];
 Te 14355392347296000 12 4 [2;10];
 Te (-9526063060800) 12 4 [3;3;4];
 Te 11237655356928000 12 4 [3;9];
 Te 9725065301952000 12 4 [4;8];
 Te 9015527416896000 12 4 [5;7];
 Te 4402748894544000 12 4 [6;6];
 Te (-10696870352027059200) 12 4 [14];
 Te (-50399949600) 12 5 [1;1;1;6];
 Te (-101383682400) 12 5 [1;1;2;5];
 Te (-85232347200) 12 5 [1;1;3;4];
 Te 93109139323200 12 5 [1;1;9];
 Te (-71026956000) 12 5 [1;2;2;4];
 Te (-63826963200) 12 5 [1;2;3;3];
 Te 129348454435200 12 5 [1;2;8];
 Te 105630510585600 12 5 [1;3;7];
 Te 94848683529600 12 5 [1;4;6];
 Te 45836840649600 12 5 [1;5;5];
 Te (-94267410337900800) 12 5 [1;12];
 Te (-17708090400) 12 5 [2;2;2;3];
 Te 45438337264320 12 5 [2;2;7];
 Te 75493286668800 12 5 [2;3;6];
 Te 69443995420800 12 5 [2;4;5];
 Te (-62129675037830400) 12 5 [2;11];
 Te 32126256676800 12 5 [3;3;5];
 Te 30577915368000 12 5 [3;4;4];
 Te (-48285409011840000) 12 5 [3;10];
 Te (-41279461077254400) 12 5 [4;9];
 Te (-37693254414816000) 12 5 [5;8];
 Te (-36155953984550400) 12 5 [6;7];
 Te 53484351760135296000 12 5 [15];
 Te 135005270400 12 6 [1;1;1;7];
 Te 268475407200 12 6 [1;1;2;6];
 Te 216713296800 12 6 [1;1;3;5];
 Te 101448547200 12 6 [1;1;4;4];
 Te (-296988286795200) 12 6 [1;1;10];
 Te 183372789600 12 6 [1;2;2;5];
 Te 309534825600 12 6 [1;2;3;4];
 Te (-410632324502400) 12 6 [1;2;9];
 Te 46508061600 12 6 [1;3;3;3];
 Te (-331749203385600) 12 6 [1;3;8];
 Te (-293066258284800) 12 6 [1;4;7];
 Te (-276577799097600) 12 6 [1;5;6];
 Te 356289106197024000 12 6 [1;13];
 Te 43567524000 12 6 [2;2;2;4];
 Te 58897238400 12 6 [2;2;3;3];
 Te (-143160375758400) 12 6 [2;2;8];
 Te (-234283873824000) 12 6 [2;3;7];
 Te (-210673346083200) 12 6 [2;4;6];
 Te (-101852006256000) 12 6 [2;5;5];
 Te 234686455388985600 12 6 [2;12];
 Te (-97573542580800) 12 6 [3;3;6];
 Te (-179806003977600) 12 6 [3;4;5];
 Te 181397529304992000 12 6 [3;11];
 Te (-28557160632000) 12 6 [4;4;4];
 Te 153618615159609600 12 6 [4;10];
 Te 138564722321625600 12 6 [5;9];
 Te 131010111584352000 12 6 [6;8];
 Te 64351351259395200 12 6 [7;7];
 Te (-327696969600) 12 7 [1;1;1;8];
 Te (-650334484800) 12 7 [1;1;2;7];
 Te (-511199488800) 12 7 [1;1;3;6];
 Te (-458269812000) 12 7 [1;1;4;5];
 Te 854344529438400 12 7 [1;1;11];
 Te (-439199560800) 12 7 [1;2;2;6];
 Te (-712604692800) 12 7 [1;2;3;5];
 Te (-333923990400) 12 7 [1;2;4;4];
 Te 1178640378115200 12 7 [1;2;10];
 Te (-302205103200) 12 7 [1;3;3;4];
 Te 944354169158400 12 7 [1;3;9];
 Te 824197575801600 12 7 [1;4;8];
 Te 764395603171200 12 7 [1;5;7];
 Te 373061594505600 12 7 [1;6;6];
 Te (-1204767704204064000) 12 7 [1;14];
 Te (-101772871200) 12 7 [2;2;2;5];
 Te (-258810552000) 12 7 [2;2;3;4];
 Te 409189601620800 12 7 [2;2;9];
 Te (-78032354400) 12 7 [2;3;3;3];
 Te 662114451398400 12 7 [2;3;8];
 Te 585700603488000 12 7 [2;4;7];
 Te 553088657721600 12 7 [2;5;6];
 Te (-794046538795910400) 12 7 [2;13];
 Te 271475552462400 12 7 [3;3;7];
 Te 489058019049600 12 7 [3;4;6];
 Te 236576974233600 12 7 [3;5;5];
 Te (-611150581237996800) 12 7 [3;12];
 Te 225666585144000 12 7 [4;4;5];
 Te (-513748737710208000) 12 7 [4;11];
 Te (-458803548633830400) 12 7 [5;10];
 Te (-428697098653824000) 12 7 [6;9];
 Te (-415283149343462400) 12 7 [7;8];
 Te 43243200 13 0 [1;1;1;2];
 Te (-36843206400) 13 0 [1;1;5];
 Te (-53102649600) 13 0 [1;2;4];
 Te (-24277968000) 13 0 [1;3;3];
 Te 16770404851200 13 0 [1;8];
 Te (-20237817600) 13 0 [2;2;3];
 Te 11041753282560 13 0 [2;7];
 Te 9110131430400 13 0 [3;6];
 Te 8390910528000 13 0 [4;5];
 Te (-5124863026483200) 13 0 [11];
 Te (-540540000) 13 1 [1;1;1;3];
 Te (-648648000) 13 1 [1;1;2;2];
 Te 585080496000 13 1 [1;1;6];
 Te 824301878400 13 1 [1;2;5];
 Te 714377664000 13 1 [1;3;4];
 Te (-329249054534400) 13 1 [1;9];
 Te 300972672000 13 1 [2;2;4];
 Te 275212080000 13 1 [2;3;3];
 Te (-215937513792000) 13 1 [2;8];
 Te (-173640475008000) 13 1 [3;7];
 Te (-156070935820800) 13 1 [4;6];
 Te (-75518194752000) 13 1 [5;5];
 Te 117871849609113600 13 1 [12];
 Te 3827023200 13 2 [1;1;1;4];
 Te 8237829600 13 2 [1;1;2;3];
 Te (-4991735548800) 13 2 [1;1;7];
 Te 2205403200 13 2 [1;2;2;2];
 Te (-6918998486400) 13 2 [1;2;6];
 Te (-5798653660800) 13 2 [1;3;5];
 Te (-2748970224000) 13 2 [1;4;4];
 Te 3404763211449600 13 2 [1;10];
 Te (-2457338083200) 13 2 [2;2;5];
 Te (-4267584921600) 13 2 [2;3;4];
 Te 2224453213382400 13 2 [2;9];
 Te (-651613248000) 13 2 [3;3;3];
 Te 1757775885465600 13 2 [3;8];
 Te 1548448354252800 13 2 [4;7];
 Te 1463374796083200 13 2 [5;6];
 Te (-1414462195309363200) 13 2 [13];
 Te (-19675656000) 13 3 [1;1;1;5];
 Te (-39891852000) 13 3 [1;1;2;4];
 Te (-17837820000) 13 3 [1;1;3;3];
 Te 30238672464000 13 3 [1;1;8];
 Te (-28864836000) 13 3 [1;2;2;3];
 Te 41417991014400 13 3 [1;2;7];
 Te 33945047136000 13 3 [1;3;6];
 Te 31077590544000 13 3 [1;4;5];
 Te (-24639434992972800) 13 3 [1;11];
 Te (-1945944000) 13 3 [2;2;2;2];
 Te 14434234214400 13 3 [2;2;6];
 Te 24257359526400 13 3 [2;3;5];
 Te 11502258768000 13 3 [2;4;4];
 Te (-16044899328057600) 13 3 [2;10];
 Te 10561472064000 13 3 [3;3;4];
 Te (-12524895237254400) 13 3 [3;9];
 Te (-10855052669260800) 13 3 [4;8];
 Te (-10071250296307200) 13 3 [5;7];
 Te (-4918751751513600) 13 3 [6;6];
 Te 11787184960911360000 13 3 [14];
 Te 81124243200 13 4 [1;1;1;6];
 Te 159048489600 13 4 [1;1;2;5];
 Te 133102569600 13 4 [1;1;3;4];
 Te (-145405346486400) 13 4 [1;1;9];
 Te 108778269600 13 4 [1;2;2;4];
 Te 97426929600 13 4 [1;2;3;3];
 Te (-197477510630400) 13 4 [1;2;8];
 Te (-159329483913600) 13 4 [1;3;7];
 Te (-142353500889600) 13 4 [1;4;6];
 Te (-68713877232000) 13 4 [1;5;5];
 Te 139975000349184000 13 4 [1;12];
 Te 26529703200 13 4 [2;2;2;3];
 Te (-67926678019200) 13 4 [2;2;7];
 Te (-111634137014400) 13 4 [2;3;6];
 Te (-102257540985600) 13 4 [2;4;5];
 Te 90928244639232000 13 4 [2;11];
 Te (-47042695814400) 13 4 [3;3;5];
 Te (-44646009408000) 13 4 [3;4;4];
 Te 70356523286649600 13 4 [3;10];
 Te 60185346949728000 13 4 [4;9];
 Te 55012795841203200 13 4 [5;8];
 Te 52784820728640000 13 4 [6;7];
 Te (-76616702245923840000) 13 4 [15];
 Te (-283329446400) 13 5 [1;1;1;7];
 Te (-545772427200) 13 5 [1;1;2;6];
 Te (-437513076000) 13 5 [1;1;3;5];
 Te (-204518714400) 13 5 [1;1;4;4];
 Te 589264535059200 13 5 [1;1;10];
 Te (-361815854400) 13 5 [1;2;2;5];
 Te (-607134528000) 13 5 [1;2;3;4];
 Te 795740869123200 13 5 [1;2;9];
 Te (-90810720000) 13 5 [1;3;3;3];
 Te 634669635600000 13 5 [1;3;8];
 Te 557101194249600 13 5 [1;4;7];
 Te 524586805142400 13 5 [1;5;6];
 Te (-664234106965228800) 13 5 [1;13];
 Te (-83610727200) 13 5 [2;2;2;4];
 Te (-112540428000) 13 5 [2;2;3;3];
 Te 271308961123200 13 5 [2;2;8];
 Te 438818934153600 13 5 [2;3;7];
 Te 392371067088000 13 5 [2;4;6];
 Te 189407291673600 13 5 [2;5;5];
 Te (-430873730526919680) 13 5 [2;12];
 Te 180801548928000 13 5 [3;3;6];
 Te 331604425152000 13 5 [3;4;5];
 Te (-331204365011520000) 13 5 [3;11];
 Te 52498974528000 13 5 [4;4;4];
 Te (-280384472912544000) 13 5 [4;10];
 Te (-253151858415456000) 13 5 [5;9];
 Te (-239472271143705600) 13 5 [6;8];
 Te (-117638935368514560) 13 5 [7;7];
 Te 868150483200 13 6 [1;1;1;8];
 Te 1660019961600 13 6 [1;1;2;7];
 Te 1292560869600 13 6 [1;1;3;6];
 Te 1155696141600 13 6 [1;1;4;5];
 Te (-2088880073280000) 13 6 [1;1;11];
 Te 1082723241600 13 6 [1;2;2;6];
 Te 1741879339200 13 6 [1;2;3;5];
 Te 814831617600 13 6 [1;2;4;4];
 Te (-2811380280508800) 13 6 [1;2;10];
 Te 733101969600 13 6 [1;3;3;4];
 Te (-2222717950252800) 13 6 [1;3;9];
 Te (-1925429339433600) 13 6 [1;4;8];
 Te (-1779942522758400) 13 6 [1;5;7];
 Te (-867968861760000) 13 6 [1;6;6];
 Te 2736966654944121600 13 6 [1;14];
 Te 242853811200 13 6 [2;2;2;5];
 Te 613102089600 13 6 [2;2;3;4];
 Te (-953241684595200) 13 6 [2;2;9];
 Te 183826843200 13 6 [2;3;3;3];
 Te (-1523564400758400) 13 6 [2;3;8];
 Te (-1338611677603200) 13 6 [2;4;7];
 Te (-1260662696092800) 13 6 [2;5;6];
 Te 1774734400831392000 13 6 [2;13];
 Te (-617589177004800) 13 6 [3;3;7];
 Te (-1105889834649600) 13 6 [3;4;6];
 Te (-534013736256000) 13 6 [3;5;5];
 Te 1357326073591488000 13 6 [3;12];
 Te (-507726194976000) 13 6 [4;4;5];
 Te 1139519475917222400 13 6 [4;11];
 Te 1018352039376672000 13 6 [5;10];
 Te 952147584067680000 13 6 [6;9];
 Te 922565429001216000 13 6 [7;8];
 Te 108108000 14 0 [1;1;1;3];
 Te 129729600 14 0 [1;1;2;2];
 Te (-125578252800) 14 0 [1;1;6];
 Te (-173578204800) 14 0 [1;2;5];
 Te (-150140390400) 14 0 [1;3;4];
 Te 70758156268800 14 0 [1;9];
 Te (-62373991680) 14 0 [2;2;4];
 Te (-56988360000) 14 0 [2;3;3];
 Te 45838656864000 14 0 [2;8];
 Te 37035206208000 14 0 [3;7];
 Te 33280312665600 14 0 [4;6];
 Te 16102226649600 14 0 [5;5];
 Te (-25258253487667200) 14 0 [12];
 Te (-1664863200) 14 1 [1;1;1;4];
 Te (-3567564000) 14 1 [1;1;2;3];
 Te 2275630156800 14 1 [1;1;7];
 Te (-951350400) 14 1 [1;2;2;2];
 Te 3096645552000 14 1 [1;2;6];
 Te 2582397417600 14 1 [1;3;5];
 Te 1223321299200 14 1 [1;4;4];
 Te (-1536151544928000) 14 1 [1;10];
 Te 1082100539520 14 1 [2;2;5];
 Te 1871998128000 14 1 [2;3;4];
 Te (-991531635494400) 14 1 [2;9];
 Te 284941800000 14 1 [3;3;3];
 Te (-784721377440000) 14 1 [3;8];
 Te (-691890508108800) 14 1 [4;7];
 Te (-653771800281600) 14 1 [5;6];
 Te 631456337191680000 14 1 [13];
 Te 13924310400 14 2 [1;1;1;5];
 Te 27956728800 14 2 [1;1;2;4];
 Te 12486474000 14 2 [1;1;3;3];
 Te (-21909124036800) 14 2 [1;1;8];
 Te 20043223200 14 2 [1;2;2;3];
 Te (-29463321888000) 14 2 [1;2;7];
 Te (-23974808457600) 14 2 [1;3;6];
 Te (-21911242953600) 14 2 [1;4;5];
 Te 17470727783308800 14 2 [1;11];
 Te 1340539200 14 2 [2;2;2;2];
 Te (-10098930441600) 14 2 [2;2;6];
 Te (-16867183132800) 14 2 [2;3;5];
 Te (-7988936155200) 14 2 [2;4;4];
 Te 11238275983334400 14 2 [2;10];
 Te (-7304202734400) 14 2 [3;3;4];
 Te 8765059516012800 14 2 [3;9];
 Te 7604784957369600 14 2 [4;8];
 Te 7056276273446400 14 2 [5;7];
 Te 3445983494553600 14 2 [6;6];
 Te (-8208932383491840000) 14 2 [14];
 Te (-82767484800) 14 3 [1;1;1;6];
 Te (-159826867200) 14 3 [1;1;2;5];
 Te (-133426893600) 14 3 [1;1;3;4];
 Te 148503419064000 14 3 [1;1;9];
 Te (-107740432800) 14 3 [1;2;2;4];
 Te (-96324228000) 14 3 [1;2;3;3];
 Te 197942720976000 14 3 [1;2;8];
 Te 158318025465600 14 3 [1;3;7];
 Te 141045394089600 14 3 [1;4;6];
 Te 68040840067200 14 3 [1;5;5];
 Te (-138401806852108800) 14 3 [1;12];
 Te (-25924298400) 14 3 [2;2;2;3];
 Te 66921792537600 14 3 [2;2;7];
 Te 109127242224000 14 3 [2;3;6];
 Te 99726516489600 14 3 [2;4;5];
 Te (-88776485666668800) 14 3 [2;11];
 Te 45663651633600 14 3 [3;3;5];
 Te 43265441419200 14 3 [3;4;4];
 Te (-68508689112864000) 14 3 [3;10];
 Te (-58648554540576000) 14 3 [4;9];
 Te (-53626189314297600) 14 3 [5;8];
 Te (-51451624915891200) 14 3 [6;7];
 Te 73880391451426560000 14 3 [15];
 Te 389448259200 14 4 [1;1;1;7];
 Te 735047913600 14 4 [1;1;2;6];
 Te 586961575200 14 4 [1;1;3;5];
 Te 274151077200 14 4 [1;1;4;4];
 Te (-793595098296000) 14 4 [1;1;10];
 Te 477923846400 14 4 [1;2;2;5];
 Te 799264065600 14 4 [1;2;3;4];
 Te (-1051044311116800) 14 4 [1;2;9];
 Te 119243124000 14 4 [1;3;3;3];
 Te (-830137894185600) 14 4 [1;3;8];
 Te (-725792657990400) 14 4 [1;4;7];
 Te (-682597457942400) 14 4 [1;5;6];
 Te 857179098884908800 14 4 [1;13];
 Te 108432324000 14 4 [2;2;2;4];
 Te 145589043600 14 4 [2;2;3;3];
 Te (-351905939985600) 14 4 [2;2;8];
 Te (-564121381824000) 14 4 [2;3;7];
 Te (-502644340598400) 14 4 [2;4;6];
 Te (-242440233235200) 14 4 [2;5;5];
 Te 548706795033196800 14 4 [2;12];
 Te (-230534428924800) 14 4 [3;3;6];
 Te (-421577870313600) 14 4 [3;4;5];
 Te 420106999741228800 14 4 [3;11];
 Te (-66602758622400) 14 4 [4;4;4];
 Te 355693264371244800 14 4 [4;10];
 Te 321293204155123200 14 4 [5;9];
 Te 303944911016947200 14 4 [6;8];
 Te 149304963257049600 14 4 [7;7];
 Te (-1538333596800) 14 5 [1;1;1;8];
 Te (-2868321456000) 14 5 [1;1;2;7];
 Te (-2221165346400) 14 5 [1;1;3;6];
 Te (-1982852071200) 14 5 [1;1;4;5];
 Te 3553934478494400 14 5 [1;1;11];
 Te (-1826592768000) 14 5 [1;2;2;6];
 Te (-2923975454400) 14 5 [1;2;3;5];
 Te (-1366377012000) 14 5 [1;2;4;4];
 Te 4686833453702400 14 5 [1;2;10];
 Te (-1225101477600) 14 5 [1;3;3;4];
 Te 3666782235916800 14 5 [1;3;9];
 Te 3160573444828800 14 5 [1;4;8];
 Te 2916301343155200 14 5 [1;5;7];
 Te 1421449302873600 14 5 [1;6;6];
 Te (-4418440314960672000) 14 5 [1;14];
 Te (-400518518400) 14 5 [2;2;2;5];
 Te (-1006766560800) 14 5 [2;2;3;4];
 Te 1558872205450560 14 5 [2;2;9];
 Te (-300864564000) 14 5 [2;3;3;3];
 Te 2467512775728000 14 5 [2;3;8];
 Te 2158164189941760 14 5 [2;4;7];
 Te 2029316284195200 14 5 [2;5;6];
 Te (-2825141753622988800) 14 5 [2;13];
 Te 991273992508800 14 5 [3;3;7];
 Te 1767921259104000 14 5 [3;4;6];
 Te 852814109347200 14 5 [3;5;5];
 Te (-2150030386356652800) 14 5 [3;12];
 Te 808872978513600 14 5 [4;4;5];
 Te (-1803964744271289600) 14 5 [4;11];
 Te (-1612815649539494400) 14 5 [5;10];
 Te (-1508198201032723200) 14 5 [6;9];
 Te (-1461300802740979200) 14 5 [7;8];
 Te 302702400 15 0 [1;1;1;4];
 Te 648648000 15 0 [1;1;2;3];
 Te (-439048209600) 15 0 [1;1;7];
 Te 172972800 15 0 [1;2;2;2];
 Te (-587934547200) 15 0 [1;2;6];
 Te (-489340051200) 15 0 [1;3;5];
 Te (-231668236800) 15 0 [1;4;4];
 Te 296335617177600 15 0 [1;10];
 Te (-202689527040) 15 0 [2;2;5];
 Te (-350269920000) 15 0 [2;3;4];
 Te 189223594560000 15 0 [2;9];
 Te (-53281800000) 15 0 [3;3;3];
 Te 150265795680000 15 0 [3;8];
 Te 132456516192000 15 0 [4;7];
 Te 125144437017600 15 0 [5;6];
 Te (-121433910998400000) 15 0 [13];
 Te (-5448643200) 15 1 [1;1;1;5];
 Te (-10897286400) 15 1 [1;1;2;4];
 Te (-4864860000) 15 1 [1;1;3;3];
 Te 8923191076800 15 1 [1;1;8];
 Te (-7783776000) 15 1 [1;2;2;3];
 Te 11813488727040 15 1 [1;2;7];
 Te 9572487724800 15 1 [1;3;6];
 Te 8739623692800 15 1 [1;4;5];
 Te (-7046686661414400) 15 1 [1;11];
 Te (-518918400) 15 1 [2;2;2;2];
 Te 3993388439040 15 1 [2;2;6];
 Te 6647344704000 15 1 [2;3;5];
 Te 3146894150400 15 1 [2;4;4];
 Te (-4484255148172800) 15 1 [2;10];
 Te 2870267400000 15 1 [3;3;4];
 Te (-3500636499360000) 15 1 [3;9];
 Te (-3038708312640000) 15 1 [4;8];
 Te (-2818986326956800) 15 1 [5;7];
 Te (-1376588807193600) 15 1 [6;6];
 Te 3278715596956800000 15 1 [14];
 Te 52151299200 15 2 [1;1;1;6];
 Te 99891792000 15 2 [1;1;2;5];
 Te 83286403200 15 2 [1;1;3;4];
 Te (-95576466585600) 15 2 [1;1;9];
 Te 66810744000 15 2 [1;2;2;4];
 Te 59675616000 15 2 [1;2;3;3];
 Te (-125407009728000) 15 2 [1;2;8];
 Te (-99711986774400) 15 2 [1;3;7];
 Te (-88685230233600) 15 2 [1;4;6];
 Te (-42764584262400) 15 2 [1;5;5];
 Te 87397217683776000 15 2 [1;12];
 Te 15956740800 15 2 [2;2;2;3];
 Te (-41794440367680) 15 2 [2;2;7];
 Te (-67802915980800) 15 2 [2;3;6];
 Te (-61885689465600) 15 2 [2;4;5];
 Te 55445265549273600 15 2 [2;11];
 Te (-28241096083200) 15 2 [3;3;5];
 Te (-26735930020800) 15 2 [3;4;4];
 Te 42744921925305600 15 2 [3;10];
 Te 36614765547360000 15 2 [4;9];
 Te 33477215733561600 15 2 [5;8];
 Te 32115730565318400 15 2 [6;7];
 Te (-45902018357395200000) 15 2 [15];
 Te (-350334784800) 15 3 [1;1;1;7];
 Te (-653058806400) 15 3 [1;1;2;6];
 Te (-520345425600) 15 3 [1;1;3;5];
 Te (-242918676000) 15 3 [1;1;4;4];
 Te 716106181190400 15 3 [1;1;10];
 Te (-419545526400) 15 3 [1;2;2;5];
 Te (-700280380800) 15 3 [1;2;3;4];
 Te 933206245171200 15 3 [1;2;9];
 Te (-104324220000) 15 3 [1;3;3;3];
 Te 731812976294400 15 3 [1;3;8];
 Te 638269545513600 15 3 [1;4;7];
 Te 599819335315200 15 3 [1;5;6];
 Te (-752134659410534400) 15 3 [1;13];
 Te (-94097203200) 15 3 [2;2;2;4];
 Te (-126162036000) 15 3 [2;2;3;3];
 Te 307800003551040 15 3 [2;2;8];
 Te 490238091383040 15 3 [2;3;7];
 Te 435906504633600 15 3 [2;4;6];
 Te 210154168224000 15 3 [2;5;5];
 Te (-475971653584627200) 15 3 [2;12];
 Te 199161919756800 15 3 [3;3;6];
 Te 363591593164800 15 3 [3;4;5];
 Te (-363531897310982400) 15 3 [3;11];
 Te 57370681368000 15 3 [4;4;4];
 Te (-307897178805216000) 15 3 [4;10];
 Te (-278143100883648000) 15 3 [5;9];
 Te (-263091365708371200) 15 3 [6;8];
 Te (-129229252132780800) 15 3 [7;7];
 Te 1847284639200 15 4 [1;1;1;8];
 Te 3387693909600 15 4 [1;1;2;7];
 Te 2614829817600 15 4 [1;1;3;6];
 Te 2332019289600 15 4 [1;1;4;5];
 Te (-4207701997699200) 15 4 [1;1;11];
 Te 2123154633600 15 4 [1;2;2;6];
 Te 3388537152000 15 4 [1;2;3;5];
 Te 1582441660800 15 4 [1;2;4;4];
 Te (-5456243797804800) 15 4 [1;2;10];
 Te 1415933719200 15 4 [1;3;3;4];
 Te (-4234490122262400) 15 4 [1;3;9];
 Te (-3638121853766400) 15 4 [1;4;8];
 Te (-3353046246950400) 15 4 [1;5;7];
 Te (-1633826517523200) 15 4 [1;6;6];
 Te 5043231279704217600 15 4 [1;14];
 Te 458464406400 15 4 [2;2;2;5];
 Te 1149404256000 15 4 [2;2;3;4];
 Te (-1786285573712640) 15 4 [2;2;9];
 Te 342810468000 15 4 [2;3;3;3];
 Te (-2806596890697600) 15 4 [2;3;8];
 Te (-2447588436733440) 15 4 [2;4;7];
 Te (-2299330543910400) 15 4 [2;5;6];
 Te 3185926009659993600 15 4 [2;13];
 Te (-1119788026156800) 15 4 [3;3;7];
 Te (-1992056645779200) 15 4 [3;4;6];
 Te (-960373180166400) 15 4 [3;5;5];
 Te 2416039539417504000 15 4 [3;12];
 Te (-909420928416000) 15 4 [4;4;5];
 Te 2026911194448940800 15 4 [4;11];
 Te 1812414147800256000 15 4 [5;10];
 Te 1694707884014745600 15 4 [6;9];
 Te 1641856175742182400 15 4 [7;8];
 Te 908107200 16 0 [1;1;1;5];
 Te 1816214400 16 0 [1;1;2;4];
 Te 810810000 16 0 [1;1;3;3];
 Te (-1564495732800) 16 0 [1;1;8];
 Te 1297296000 16 0 [1;2;2;3];
 Te (-2043120119040) 16 0 [1;2;7];
 Te (-1652495644800) 16 0 [1;3;6];
 Te (-1507457952000) 16 0 [1;4;5];
 Te 1234284776524800 16 0 [1;11];
 Te 86486400 16 0 [2;2;2;2];
 Te (-682689047040) 16 0 [2;2;6];
 Te (-1135134000000) 16 0 [2;3;5];
 Te (-537195859200) 16 0 [2;4;4];
 Te 778048605734400 16 0 [2;10];
 Te (-489729240000) 16 0 [3;3;4];
 Te 608911823520000 16 0 [3;9];
 Te 528427579680000 16 0 [4;8];
 Te 490149044985600 16 0 [5;7];
 Te 239342489971200 16 0 [6;6];
 Te (-572474151849600000) 16 0 [14];
 Te (-18551332800) 16 1 [1;1;1;6];
 Te (-35416180800) 16 1 [1;1;2;5];
 Te (-29513484000) 16 1 [1;1;3;4];
 Te 35197499937600 16 1 [1;1;9];
 Te (-23610787200) 16 1 [1;2;2;4];
 Te (-21081060000) 16 1 [1;2;3;3];
 Te 45565446326400 16 1 [1;2;8];
 Te 36099769305600 16 1 [1;3;7];
 Te 32072530089600 16 1 [1;4;6];
 Te 15460277414400 16 1 [1;5;5];
 Te (-31896640622246400) 16 1 [1;12];
 Te (-5621616000) 16 1 [2;2;2;3];
 Te 15004317968640 16 1 [2;2;7];
 Te 24270851404800 16 1 [2;3;6];
 Te 22137837321600 16 1 [2;4;5];
 Te (-20041875049996800) 16 1 [2;11];
 Te 10083233160000 16 1 [3;3;5];
 Te 9542188656000 16 1 [3;4;4];
 Te (-15459567675552000) 16 1 [3;10];
 Te (-13245651619200000) 16 1 [4;9];
 Te (-12108083891904000) 16 1 [5;8];
 Te (-11614544234092800) 16 1 [6;7];
 Te 16601750403638400000 16 1 [15];
 Te 199070071200 16 2 [1;1;1;7];
 Te 368561793600 16 2 [1;1;2;6];
 Te 293318625600 16 2 [1;1;3;5];
 Te 136897160400 16 2 [1;1;4;4];
 Te (-414772385227200) 16 2 [1;1;10];
 Te 235199764800 16 2 [1;2;2;5];
 Te 392172580800 16 2 [1;2;3;4];
 Te (-533195661398400) 16 2 [1;2;9];
 Te 58378320000 16 2 [1;3;3;3];
 Te (-416069292038400) 16 2 [1;3;8];
 Te (-362327507942400) 16 2 [1;4;7];
 Te (-340300459699200) 16 2 [1;5;6];
 Te 428364867375244800 16 2 [1;13];
 Te 52410758400 16 2 [2;2;2;4];
 Te 70216146000 16 2 [2;2;3;3];
 Te (-173677240376640) 16 2 [2;2;8];
 Te (-275422998090240) 16 2 [2;3;7];
 Te (-244605160800000) 16 2 [2;4;6];
 Te (-117891137145600) 16 2 [2;5;5];
 Te 268402968267033600 16 2 [2;12];
 Te (-111452385844800) 16 2 [3;3;6];
 Te (-203279796720000) 16 2 [3;4;5];
 Te 204794058730060800 16 2 [3;11];
 Te (-32054670648000) 16 2 [4;4;4];
 Te 173505421305216000 16 2 [4;10];
 Te 156716836147872000 16 2 [5;9];
 Te 148214166682982400 16 2 [6;8];
 Te 72798717774182400 16 2 [7;7];
 Te (-1487198512800) 16 3 [1;1;1;8];
 Te (-2699218922400) 16 3 [1;1;2;7];
 Te (-2079435758400) 16 3 [1;1;3;6];
 Te (-1853446795200) 16 3 [1;1;4;5];
 Te 3401867517048000 16 3 [1;1;11];
 Te (-1674679406400) 16 3 [1;2;2;6];
 Te (-2668018953600) 16 3 [1;2;3;5];
 Te (-1245469024800) 16 3 [1;2;4;4];
 Te 4349524126147200 16 3 [1;2;10];
 Te (-1113079968000) 16 3 [1;3;3;4];
 Te 3355521228259200 16 3 [1;3;9];
 Te 2876915955513600 16 3 [1;4;8];
 Te 2649316788518400 16 3 [1;5;7];
 Te 1290609217497600 16 3 [1;6;6];
 Te (-3978984483714240000) 16 3 [1;14];
 Te (-358096939200) 16 3 [2;2;2;5];
 Te (-896366671200) 16 3 [2;2;3;4];
 Te 1405356216264000 16 3 [2;2;9];
 Te (-267026760000) 16 3 [2;3;3;3];
 Te 2196147252499200 16 3 [2;3;8];
 Te 1911746239603200 16 3 [2;4;7];
 Te 1794877513228800 16 3 [2;5;6];
 Te (-2487614144772556800) 16 3 [2;13];
 Te 871863474081600 16 3 [3;3;7];
 Te 1548614148681600 16 3 [3;4;6];
 Te 746332195190400 16 3 [3;5;5];
 Te (-1882338254827430400) 16 3 [3;12];
 Te 706052843496000 16 3 [4;4;5];
 Te (-1579327208563104000) 16 3 [4;11];
 Te (-1412118919122912000) 16 3 [5;10];
 Te (-1320194096885664000) 16 3 [6;9];
 Te (-1278905063320684800) 16 3 [7;8];
 Te 2854051200 17 0 [1;1;1;6];
 Te 5448643200 17 0 [1;1;2;5];
 Te 4540536000 17 0 [1;1;3;4];
 Te (-5657594342400) 17 0 [1;1;9];
 Te 3632428800 17 0 [1;2;2;4];
 Te 3243240000 17 0 [1;2;3;3];
 Te (-7238392761600) 17 0 [1;2;8];
 Te (-5725053734400) 17 0 [1;3;7];
 Te (-5081767891200) 17 0 [1;4;6];
 Te (-2448917452800) 17 0 [1;5;5];
 Te 5119499485900800 17 0 [1;12];
 Te 864864000 17 0 [2;2;2;3];
 Te (-2359729532160) 17 0 [2;2;7];
 Te (-3813012403200) 17 0 [2;3;6];
 Te (-3476234361600) 17 0 [2;4;5];
 Te 3189965761382400 17 0 [2;11];
 Te (-1582701120000) 17 0 [3;3;5];
 Te (-1497367872000) 17 0 [3;4;4];
 Te 2465313117696000 17 0 [3;10];
 Te 2111735315289600 17 0 [4;9];
 Te 1930080664512000 17 0 [5;8];
 Te 1851274602777600 17 0 [6;7];
 Te (-2656280064582144000) 17 0 [15];
 Te (-64929664800) 17 1 [1;1;1;7];
 Te (-119870150400) 17 1 [1;1;2;6];
 Te (-95351256000) 17 1 [1;1;3;5];
 Te (-44497252800) 17 1 [1;1;4;4];
 Te 139452055142400 17 1 [1;1;10];
 Te (-76281004800) 17 1 [1;2;2;5];
 Te (-127135008000) 17 1 [1;2;3;4];
 Te 177182093088000 17 1 [1;2;9];
 Te (-18918900000) 17 1 [1;3;3;3];
 Te 137836402704000 17 1 [1;3;8];
 Te 119903447664000 17 1 [1;4;7];
 Te 112558071225600 17 1 [1;5;6];
 Te (-142829409602880000) 17 1 [1;13];
 Te (-16951334400) 17 1 [2;2;2;4];
 Te (-22702680000) 17 1 [2;2;3;3];
 Te 57111121267200 17 1 [2;2;8];
 Te 90341617766400 17 1 [2;3;7];
 Te 80174968473600 17 1 [2;4;6];
 Te 38632861612800 17 1 [2;5;5];
 Te (-88727710969497600) 17 1 [2;12];
 Te 36474774336000 17 1 [3;3;6];
 Te 66491609184000 17 1 [3;4;5];
 Te (-67721404278528000) 17 1 [3;11];
 Te 10481575104000 17 1 [4;4;4];
 Te (-57380162814374400) 17 1 [4;10];
 Te (-51816989134310400) 17 1 [5;9];
 Te (-49000006351296000) 17 1 [6;8];
 Te (-24066569836108800) 17 1 [7;7];
 Te 769880311200 17 2 [1;1;1;8];
 Te 1389209421600 17 2 [1;1;2;7];
 Te 1069101633600 17 2 [1;1;3;6];
 Te 952604452800 17 2 [1;1;4;5];
 Te (-1791813646022400) 17 2 [1;1;11];
 Te 856993737600 17 2 [1;2;2;6];
 Te 1363977014400 17 2 [1;2;3;5];
 Te 636583147200 17 2 [1;2;4;4];
 Te (-2263764049747200) 17 2 [1;2;10];
 Te 568539972000 17 2 [1;3;3;4];
 Te (-1739146974364800) 17 2 [1;3;9];
 Te (-1489004175859200) 17 2 [1;4;8];
 Te (-1370308943203200) 17 2 [1;5;7];
 Te (-667404305568000) 17 2 [1;6;6];
 Te 2064569239212480000 17 2 [1;14];
 Te 182226844800 17 2 [2;2;2;5];
 Te 455740084800 17 2 [2;2;3;4];
 Te (-723427773868800) 17 2 [2;2;9];
 Te 135675540000 17 2 [2;3;3;3];
 Te (-1126345857436800) 17 2 [2;3;8];
 Te (-979387647638400) 17 2 [2;4;7];
 Te (-919124356550400) 17 2 [2;5;6];
 Te 1279234934039462400 17 2 [2;13];
 Te (-445647640838400) 17 2 [3;3;7];
 Te (-790833198355200) 17 2 [3;4;6];
 Te (-381042111340800) 17 2 [3;5;5];
 Te 967050389662156800 17 2 [3;12];
 Te (-360290522592000) 17 2 [4;4;5];
 Te 811480224627072000 17 2 [4;11];
 Te 725437847880345600 17 2 [5;10];
 Te 678106125785088000 17 2 [6;9];
 Te 656849860252185600 17 2 [7;8];
 Te 9275666400 18 0 [1;1;1;7];
 Te 17124307200 18 0 [1;1;2;6];
 Te 13621608000 18 0 [1;1;3;5];
 Te 6356750400 18 0 [1;1;4;4];
 Te (-20699914435200) 18 0 [1;1;10];
 Te 10897286400 18 0 [1;2;2;5];
 Te 18162144000 18 0 [1;2;3;4];
 Te (-26032579372800) 18 0 [1;2;9];
 Te 2702700000 18 0 [1;3;3;3];
 Te (-20220952752000) 18 0 [1;3;8];
 Te (-17574295939200) 18 0 [1;4;7];
 Te (-16490707833600) 18 0 [1;5;6];
 Te 21164195916864000 18 0 [1;13];
 Te 2421619200 18 0 [2;2;2;4];
 Te 3243240000 18 0 [2;2;3;3];
 Te (-8317743033600) 18 0 [2;2;8];
 Te (-13144462531200) 18 0 [2;3;7];
 Te (-11659058611200) 18 0 [2;4;6];
 Te (-5617055808000) 18 0 [2;5;5];
 Te 13050097635294720 18 0 [2;12];
 Te (-5302419408000) 18 0 [3;3;6];
 Te (-9662260608000) 18 0 [3;4;5];
 Te 9975179819404800 18 0 [3;11];
 Te (-1522794873600) 18 0 [4;4;4];
 Te 8449922966284800 18 0 [4;10];
 Te 7629495332659200 18 0 [5;9];
 Te 7214093888601600 18 0 [6;8];
 Te 3543133892538240 18 0 [7;7];
 Te (-231891660000) 18 1 [1;1;1;8];
 Te (-417404988000) 18 1 [1;1;2;7];
 Te (-321080760000) 18 1 [1;1;3;6];
 Te (-286053768000) 18 1 [1;1;4;5];
 Te 554372202384000 18 1 [1;1;11];
 Te (-256864608000) 18 1 [1;2;2;6];
 Te (-408648240000) 18 1 [1;2;3;5];
 Te (-190702512000) 18 1 [1;2;4;4];
 Te 693237620275200 18 1 [1;2;10];
 Te (-170270100000) 18 1 [1;3;3;4];
 Te 531171360720000 18 1 [1;3;9];
 Te 454307870016000 18 1 [1;4;8];
 Te 417858782140800 18 1 [1;5;7];
 Te 203480238931200 18 1 [1;6;6];
 Te (-633885015411648000) 18 1 [1;14];
 Te (-54486432000) 18 1 [2;2;2;5];
 Te (-136216080000) 18 1 [2;2;3;4];
 Te 219499369689600 18 1 [2;2;9];
 Te (-40540500000) 18 1 [2;3;3;3];
 Te 341007226560000 18 1 [2;3;8];
 Te 296301887481600 18 1 [2;4;7];
 Te 277978878777600 18 1 [2;5;6];
 Te (-389745028632960000) 18 1 [2;13];
 Te 134653764960000 18 1 [3;3;7];
 Te 238814031456000 18 1 [3;4;6];
 Te 115045624512000 18 1 [3;5;5];
 Te (-294679624022784000) 18 1 [3;12];
 Te 108751285843200 18 1 [4;4;5];
 Te (-247274641027814400) 18 1 [4;11];
 Te (-221009718017088000) 18 1 [5;10];
 Te (-206564044765478400) 18 1 [6;9];
 Te (-200077237327968000) 18 1 [7;8];
 Te 30918888000 19 0 [1;1;1;8];
 Te 55653998400 19 0 [1;1;2;7];
 Te 42810768000 19 0 [1;1;3;6];
 Te 38140502400 19 0 [1;1;4;5];
 Te (-76458388406400) 19 0 [1;1;11];
 Te 34248614400 19 0 [1;2;2;6];
 Te 54486432000 19 0 [1;2;3;5];
 Te 25427001600 19 0 [1;2;4;4];
 Te (-94755883622400) 19 0 [1;2;10];
 Te 22702680000 19 0 [1;3;3;4];
 Te (-72504835603200) 19 0 [1;3;9];
 Te (-61959548851200) 19 0 [1;4;8];
 Te (-56961153849600) 19 0 [1;5;7];
 Te (-27733474137600) 19 0 [1;6;6];
 Te 87258938903136000 19 0 [1;14];
 Te 7264857600 19 0 [2;2;2;5];
 Te 18162144000 19 0 [2;2;3;4];
 Te (-29771178877440) 19 0 [2;2;9];
 Te 5405400000 19 0 [2;3;3;3];
 Te (-46209683520000) 19 0 [2;3;8];
 Te (-40130243112960) 19 0 [2;4;7];
 Te (-37639227225600) 19 0 [2;5;6];
 Te 53295994271520000 19 0 [2;13];
 Te (-18232105320000) 19 0 [3;3;7];
 Te (-32321351462400) 19 0 [3;4;6];
 Te (-15568259616000) 19 0 [3;5;5];
 Te 40343043765024000 19 0 [3;12];
 Te (-14713758259200) 19 0 [4;4;5];
 Te 33845449570732800 19 0 [4;11];
 Te 30245843397369600 19 0 [5;10];
 Te 28266220555372800 19 0 [6;9];
 Te 27377314892928000 19 0 [7;8]].
Definition wit0_5 : list term := [Te 43243200 9 0 [1;1;1];
 Te (-10897286400) 9 0 [1;4];
 Te (-7783776000) 9 0 [2;3];
 Te 1335695961600 9 0 [7];
 Te (-908107200) 9 1 [1;1;2];
 Te 130767436800 9 1 [1;5];
 Te 87178291200 9 1 [2;4];
 Te 38918880000 9 1 [3;3];
 Te (-20035439424000) 9 1 [8];
 Te 4021617600 9 2 [1;1;3];
 Te 3243240000 9 2 [1;2;2];
 Te (-849988339200) 9 2 [1;6];
 Te (-544864320000) 9 2 [2;5];
 Te (-454572518400) 9 2 [3;4];
 Te 160283515392000 9 2 [9];
 Te 21621600 9 3 [1;1;1;1];
 Te (-13621608000) 9 3 [1;1;4];
 Te (-19978358400) 9 3 [1;2;3];
 Te 3955714963200 9 3 [1;7];
 Te (-2724321600) 9 3 [2;2;2];
 Te 2484581299200 9 3 [2;6];
 Te 1983306124800 9 3 [3;5];
 Te 926269344000 9 3 [4;4];
 Te (-908273253888000) 9 3 [10];
 Te (-129729600) 9 4 [1;1;1;2];
 Te 38270232000 9 4 [1;1;5];
 Te 53708054400 9 4 [1;2;4];
 Te 24129705600 9 4 [1;3;3];
 Te (-14744028499200) 9 4 [1;8];
 Te 20108088000 9 4 [2;2;3];
 Te (-9186412435200) 9 4 [2;7];
 Te (-7115928019200) 9 4 [3;6];
 Te (-6353117971200) 9 4 [4;5];
 Te 4087229642496000 9 4 [11];
 Te 194594400 9 5 [1;1;1;3];
 Te 259459200 9 5 [1;1;2;2];
 Te (-93535041600) 9 5 [1;1;6];
 Te (-128951222400) 9 5 [1;2;5];
 Te (-108972864000) 9 5 [1;3;4];
 Te 46749358656000 9 5 [1;9];
 Te (-46313467200) 9 5 [2;2;4];
 Te (-41772931200) 9 5 [2;3;3];
 Te 29128446547200 9 5 [2;8];
 Te 22099696819200 9 5 [3;7];
 Te 19113840345600 9 5 [4;6];
 Te 9131926003200 9 5 [5;5];
 Te (-15531472641484800) 9 5 [12];
 Te (-281080800) 9 6 [1;1;1;4];
 Te (-713512800) 9 6 [1;1;2;3];
 Te 205232227200 9 6 [1;1;7];
 Te (-216216000) 9 6 [1;2;2;2];
 Te 282032150400 9 6 [1;2;6];
 Te 229621392000 9 6 [1;3;5];
 Te 107675568000 9 6 [1;4;4];
 Te (-130898204236800) 9 6 [1;10];
 Te 99502603200 9 6 [2;2;5];
 Te 169167398400 9 6 [2;3;4];
 Te (-81991182873600) 9 6 [2;9];
 Te 25556731200 9 6 [3;3;3];
 Te (-61329927859200) 9 6 [3;8];
 Te (-51827494118400) 9 6 [4;7];
 Te (-47948060160000) 9 6 [5;6];
 Te 51771575471616000 9 6 [13];
 Te 389188800 9 7 [1;1;1;5];
 Te 972972000 9 7 [1;1;2;4];
 Te 454053600 9 7 [1;1;3;3];
 Te (-413318505600) 9 7 [1;1;8];
 Te 843242400 9 7 [1;2;2;3];
 Te (-570810240000) 9 7 [1;2;7];
 Te (-454313059200) 9 7 [1;3;6];
 Te (-408648240000) 9 7 [1;4;5];
 Te 331920446457600 9 7 [1;11];
 Te 64864800 9 7 [2;2;2;2];
 Te (-200432232000) 9 7 [2;2;6];
 Te (-328734806400) 9 7 [2;3;5];
 Te (-154378224000) 9 7 [2;4;4];
 Te 209704265971200 9 7 [2;10];
 Te (-140756616000) 9 7 [3;3;4];
 Te 155403087840000 9 7 [3;9];
 Te 129067460121600 9 7 [4;8];
 Te 116579169907200 9 7 [5;7];
 Te 56426148979200 9 7 [6;6];
 Te (-155314726414848000) 9 7 [14];
 Te (-518918400) 9 8 [1;1;1;6];
 Te (-1297296000) 9 8 [1;1;2;5];
 Te (-1167566400) 9 8 [1;1;3;4];
 Te 776431656000 9 8 [1;1;9];
 Te (-1102701600) 9 8 [1;2;2;4];
 Te (-1037836800) 9 8 [1;2;3;3];
 Te 1082463782400 9 8 [1;2;8];
 Te 850247798400 9 8 [1;3;7];
 Te 743350608000 9 8 [1;4;6];
 Te 356107752000 9 8 [1;5;5];
 Te (-776039353689600) 9 8 [1;12];
 Te (-324324000) 9 8 [2;2;2;3];
 Te 381145564800 9 8 [2;2;7];
 Te 611545334400 9 8 [2;3;6];
 Te 551350800000 9 8 [2;4;5];
 Te (-495543201753600) 9 8 [2;11];
 Te 252972720000 9 8 [3;3;5];
 Te 238053816000 9 8 [3;4;4];
 Te (-365158726732800) 9 8 [3;10];
 Te (-299326662835200) 9 8 [4;9];
 Te (-265457896704000) 9 8 [5;8];
 Te (-250811943782400) 9 8 [6;7];
 Te 427115497640832000 9 8 [15];
 Te 670269600 9 9 [1;1;1;7];
 Te 1686484800 9 9 [1;1;2;6];
 Te 1491890400 9 9 [1;1;3;5];
 Te 713512800 9 9 [1;1;4;4];
 Te (-1377079704000) 9 9 [1;1;10];
 Te 1427025600 9 9 [1;2;2;5];
 Te 2594592000 9 9 [1;2;3;4];
 Te (-1942571030400) 9 9 [1;2;9];
 Te 410810400 9 9 [1;3;3;3];
 Te (-1515501187200) 9 9 [1;3;8];
 Te (-1299112214400) 9 9 [1;4;7];
 Te (-1207782576000) 9 9 [1;5;6];
 Te 1695443407257600 9 9 [1;13];
 Te 410810400 9 9 [2;2;2;4];
 Te 583783200 9 9 [2;2;3;3];
 Te (-688864176000) 9 9 [2;2;8];
 Te (-1091025936000) 9 9 [2;3;7];
 Te (-956626070400) 9 9 [2;4;6];
 Te (-458594136000) 9 9 [2;5;5];
 Te 1095493304505600 9 9 [2;12];
 Te (-441859017600) 9 9 [3;3;6];
 Te (-799134336000) 9 9 [3;4;5];
 Te 804979432857600 9 9 [3;11];
 Te (-125621496000) 9 9 [4;4;4];
 Te 653343692601600 9 9 [4;10];
 Te 571192163942400 9 9 [5;9];
 Te 529673502758400 9 9 [6;8];
 Te 258461838835200 9 9 [7;7];
 Te (-843242400) 9 10 [1;1;1;8];
 Te (-2140538400) 9 10 [1;1;2;7];
 Te (-1881079200) 9 10 [1;1;3;6];
 Te (-1751349600) 9 10 [1;1;4;5];
 Te 2327478753600 9 10 [1;1;11];
 Te (-1816214400) 9 10 [1;2;2;6];
 Te (-3243240000) 9 10 [1;2;3;5];
 Te (-1556755200) 9 10 [1;2;4;4];
 Te 3325488566400 9 10 [1;2;10];
 Te (-1491890400) 9 10 [1;3;3;4];
 Te 2588105520000 9 10 [1;3;9];
 Te 2188538352000 9 10 [1;4;8];
 Te 1990570982400 9 10 [1;5;7];
 Te 965317953600 9 10 [1;6;6];
 Te (-3496852027468800) 9 10 [1;14];
 Te (-518918400) 9 10 [2;2;2;5];
 Te (-1427025600) 9 10 [2;2;3;4];
 Te 1190528539200 9 10 [2;2;9];
 Te (-454053600) 9 10 [2;3;3;3];
 Te 1872517046400 9 10 [2;3;8];
 Te 1610463254400 9 10 [2;4;7];
 Te 1498895798400 9 10 [2;5;6];
 Te (-2287601950233600) 9 10 [2;13];
 Te 748799251200 9 10 [3;3;7];
 Te 1318052736000 9 10 [3;4;6];
 Te 632431800000 9 10 [3;5;5];
 Te (-1679860287705600) 9 10 [3;12];
 Te 598053456000 9 10 [4;4;5];
 Te (-1353333998016000) 9 10 [4;11];
 Te (-1169845489612800) 9 10 [5;10];
 Te (-1068893028403200) 9 10 [6;9];
 Te (-1023647495270400) 9 10 [7;8];
 Te 959999040 10 0 [1;1;2];
 Te (-135437702400) 10 0 [1;5];
 Te (-85621536000) 10 0 [2;4];
 Te (-39474864000) 10 0 [3;3];
 Te 20035439424000 10 0 [8];
 Te (-8951342400) 10 1 [1;1;3];
 Te (-7238911680) 10 1 [1;2;2];
 Te 1849425177600 10 1 [1;6];
 Te 1176906931200 10 1 [2;5];
 Te 980755776000 10 1 [3;4];
 Te (-340602470208000) 10 1 [9];
 Te (-75675600) 10 2 [1;1;1;1];
 Te 47999952000 10 2 [1;1;4];
 Te 71714522880 10 2 [1;2;3];
 Te (-13613824224000) 10 2 [1;7];
 Te 10118908800 10 2 [2;2;2];
 Te (-8682023750400) 10 2 [2;6];
 Te (-6876187718400) 10 2 [3;5];
 Te (-3218591376000) 10 2 [4;4];
 Te 3065422231872000 10 2 [10];
 Te 670269600 10 3 [1;1;1;2];
 Te (-190702512000) 10 3 [1;1;5];
 Te (-275286211200) 10 3 [1;2;4];
 Te (-123632308800) 10 3 [1;3;3];
 Te 71459733945600 10 3 [1;8];
 Te (-106482055680) 10 3 [2;2;3];
 Te 45619154380800 10 3 [2;7];
 Te 35195121561600 10 3 [3;6];
 Te 31384184832000 10 3 [4;5];
 Te (-19414340801856000) 10 3 [11];
 Te (-1383782400) 10 4 [1;1;1;3];
 Te (-1859457600) 10 4 [1;1;2;2];
 Te 620237217600 10 4 [1;1;6];
 Te 880604524800 10 4 [1;2;5];
 Te 748799251200 10 4 [1;3;4];
 Te (-299195895398400) 10 4 [1;9];
 Te 324765080640 10 4 [2;2;4];
 Te 296484027840 10 4 [2;3;3];
 Te (-191312760038400) 10 4 [2;8];
 Te (-145525476096000) 10 4 [3;7];
 Te (-125468242099200) 10 4 [4;6];
 Te (-59950642752000) 10 4 [5;5];
 Te 97071704009280000 10 4 [12];
 Te (-540540) 10 5 [1;1;1;1;1];
 Te 2637835200 10 5 [1;1;1;4];
 Te 6767560800 10 5 [1;1;2;3];
 Te (-1741931231040) 10 5 [1;1;7];
 Te 2010808800 10 5 [1;2;2;2];
 Te (-2454068897280) 10 5 [1;2;6];
 Te (-2026635811200) 10 5 [1;3;5];
 Te (-949490942400) 10 5 [1;4;4];
 Te 1061210441491200 10 5 [1;10];
 Te (-883380738240) 10 5 [2;2;5];
 Te (-1527176851200) 10 5 [2;3;4];
 Te 680537092435200 10 5 [2;9];
 Te (-234680846400) 10 5 [3;3;3];
 Te 513523724313600 10 5 [3;8];
 Te 432821534745600 10 5 [4;7];
 Te 400036270233600 10 5 [5;6];
 Te (-407701156838976000) 10 5 [13];
 Te 2702700 10 6 [1;1;1;1;2];
 Te (-4691887200) 10 6 [1;1;1;5];
 Te (-11740528800) 10 6 [1;1;2;4];
 Te (-5589183600) 10 6 [1;1;3;3];
 Te 4367087524800 10 6 [1;1;8];
 Te (-9989179200) 10 6 [1;2;2;3];
 Te 6137714943360 10 6 [1;2;7];
 Te 4984211232000 10 6 [1;3;6];
 Te 4491238752000 10 6 [1;4;5];
 Te (-3309854592844800) 10 6 [1;11];
 Te (-745945200) 10 6 [2;2;2;2];
 Te 2184750247680 10 6 [2;2;6];
 Te 3652926076800 10 6 [2;3;5];
 Te 1723976654400 10 6 [2;4;4];
 Te (-2131770754713600) 10 6 [2;10];
 Te 1598528131200 10 6 [3;3;4];
 Te (-1600985728742400) 10 6 [3;9];
 Te (-1329120227635200) 10 6 [4;8];
 Te (-1198334109772800) 10 6 [5;7];
 Te (-579888198489600) 10 6 [6;6];
 Te 1494904241742912000 10 6 [14];
 Te (-2702700) 10 7 [1;1;1;1;3];
 Te (-5405400) 10 7 [1;1;1;2;2];
 Te 7870262400 10 7 [1;1;1;6];
 Te 19416196800 10 7 [1;1;2;5];
 Te 17967549600 10 7 [1;1;3;4];
 Te (-9996314328000) 10 7 [1;1;9];
 Te 16172956800 10 7 [1;2;2;4];
 Te 15308092800 10 7 [1;2;3;3];
 Te (-14066684311680) 10 7 [1;2;8];
 Te (-11305000586880) 10 7 [1;3;7];
 Te (-9947406268800) 10 7 [1;4;6];
 Te (-4761206049600) 10 7 [1;5;5];
 Te 9309800852352000 10 7 [1;12];
 Te 4605400800 10 7 [2;2;2;3];
 Te (-4988622038400) 10 7 [2;2;7];
 Te (-8169695614080) 10 7 [2;3;6];
 Te (-7425722304000) 10 7 [2;4;5];
 Te 6029999418643200 10 7 [2;11];
 Te (-3453661411200) 10 7 [3;3;5];
 Te (-3278137262400) 10 7 [3;4;4];
 Te 4515892639315200 10 7 [3;10];
 Te 3711179856384000 10 7 [4;9];
 Te 3285139547289600 10 7 [5;8];
 Te 3101542066022400 10 7 [6;7];
 Te (-4911828222869568000) 10 7 [15];
 Te 2702700 10 8 [1;1;1;1;4];
 Te 10810800 10 8 [1;1;1;2;3];
 Te (-12562149600) 10 8 [1;1;1;7];
 Te 5405400 10 8 [1;1;2;2;2];
 Te (-30767536800) 10 8 [1;1;2;6];
 Te (-27913485600) 10 8 [1;1;3;5];
 Te (-13589175600) 10 8 [1;1;4;4];
 Te 21234140928000 10 8 [1;1;10];
 Te (-25362136800) 10 8 [1;2;2;5];
 Te (-46616169600) 10 8 [1;2;3;4];
 Te 29994002438400 10 8 [1;2;9];
 Te (-7329722400) 10 8 [1;3;3;3];
 Te 23944711190400 10 8 [1;3;8];
 Te 20755698163200 10 8 [1;4;7];
 Te 19300910428800 10 8 [1;5;6];
 Te (-24046534396684800) 10 8 [1;13];
 Te (-7070263200) 10 8 [2;2;2;4];
 Te (-10021611600) 10 8 [2;2;3;3];
 Te 10645714759680 10 8 [2;2;8];
 Te 17207541711360 10 8 [2;3;7];
 Te 15255163123200 10 8 [2;4;6];
 Te 7329203481600 10 8 [2;5;5];
 Te (-15679734893222400) 10 8 [2;12];
 Te 7109700998400 10 8 [3;3;6];
 Te 13020959952000 10 8 [3;4;5];
 Te (-11724739150924800) 10 8 [3;11];
 Te 2067889824000 10 8 [4;4;4];
 Te (-9569234106432000) 10 8 [4;10];
 Te (-8357019967296000) 10 8 [5;9];
 Te (-7739947114099200) 10 8 [6;8];
 Te (-3775877045740800) 10 8 [7;7];
 Te (-2702700) 10 9 [1;1;1;1;5];
 Te (-10810800) 10 9 [1;1;1;2;4];
 Te (-5405400) 10 9 [1;1;1;3;3];
 Te 19221602400 10 9 [1;1;1;8];
 Te (-16216200) 10 9 [1;1;2;2;3];
 Te 46962115200 10 9 [1;1;2;7];
 Te 41989147200 10 9 [1;1;3;6];
 Te 40151311200 10 9 [1;1;4;5];
 Te (-42371244115200) 10 9 [1;1;11];
 Te (-2702700) 10 9 [1;2;2;2;2];
 Te 38529691200 10 9 [1;2;2;6];
 Te 69535065600 10 9 [1;2;3;5];
 Te 33729696000 10 9 [1;2;4;4];
 Te (-60186231705600) 10 9 [1;2;10];
 Te 31805373600 10 9 [1;3;3;4];
 Te (-47843238643200) 10 9 [1;3;9];
 Te (-41062531910400) 10 9 [1;4;8];
 Te (-37453973356800) 10 9 [1;5;7];
 Te (-18149430499200) 10 9 [1;6;6];
 Te 57811592609971200 10 9 [1;14];
 Te 10637827200 10 9 [2;2;2;5];
 Te 29254024800 10 9 [2;2;3;4];
 Te (-21439165587840) 10 9 [2;2;9];
 Te 9210801600 10 9 [2;3;3;3];
 Te (-34369107252480) 10 9 [2;3;8];
 Te (-29963230577280) 10 9 [2;4;7];
 Te (-28000577404800) 10 9 [2;5;6];
 Te 37980959900083200 10 9 [2;13];
 Te (-13988794659840) 10 9 [3;3;7];
 Te (-24982029072000) 10 9 [3;4;6];
 Te (-12042279849600) 10 9 [3;5;5];
 Te 28384652263968000 10 9 [3;12];
 Te (-11504420928000) 10 9 [4;4;5];
 Te 23056561073145600 10 9 [4;11];
 Te 19936803414528000 10 9 [5;10];
 Te 18190946046873600 10 9 [6;9];
 Te 17410488621926400 10 9 [7;8];
 Te 4972968000 11 0 [1;1;3];
 Te 4021617600 11 0 [1;2;2];
 Te (-1027458432000) 11 0 [1;6];
 Te (-653837184000) 11 0 [2;5];
 Te (-544864320000) 11 0 [3;4];
 Te 189223594560000 11 0 [9];
 Te 86486400 11 1 [1;1;1;1];
 Te (-56605348800) 11 1 [1;1;4];
 Te (-85621536000) 11 1 [1;2;3];
 Te 16028351539200 11 1 [1;7];
 Te (-12064852800) 11 1 [2;2;2];
 Te 10274584320000 11 1 [2;6];
 Te 8172964800000 11 1 [3;5];
 Te 3814050240000 11 1 [4;4];
 Te (-3595248296640000) 11 1 [10];
 Te (-1254052800) 11 2 [1;1;1;2];
 Te 359913153600 11 2 [1;1;5];
 Te 525664339200 11 2 [1;2;4];
 Te 238053816000 11 2 [1;3;3];
 Te (-133569596160000) 11 2 [1;8];
 Te 205102497600 11 2 [2;2;3];
 Te (-85895524915200) 11 2 [2;7];
 Te (-66644690112000) 11 2 [3;6];
 Te (-59390210880000) 11 2 [4;5];
 Te 35952482966400000 11 2 [11];
 Te 3805401600 11 3 [1;1;1;3];
 Te 5059454400 11 3 [1;1;2;2];
 Te (-1668192926400) 11 3 [1;1;6];
 Te (-2386505721600) 11 3 [1;2;5];
 Te (-2051370921600) 11 3 [1;3;4];
 Te 788060617344000 11 3 [1;9];
 Te (-889815326400) 11 3 [2;2;4];
 Te (-815350536000) 11 3 [2;3;3];
 Te 507564465408000 11 3 [2;8];
 Te 388482033139200 11 3 [3;7];
 Te 335558583360000 11 3 [4;6];
 Te 160190110080000 11 3 [5;5];
 Te (-251667380764800000) 11 3 [12];
 Te 2702700 11 4 [1;1;1;1;1];
 Te (-10032422400) 11 4 [1;1;1;4];
 Te (-25167542400) 11 4 [1;1;2;3];
 Te 6258674822400 11 4 [1;1;7];
 Te (-7394587200) 11 4 [1;2;2;2];
 Te 8839515484800 11 4 [1;2;6];
 Te 7374089923200 11 4 [1;3;5];
 Te 3475412740800 11 4 [1;4;4];
 Te (-3686520854016000) 11 4 [1;10];
 Te 3206915712000 11 4 [2;2;5];
 Te 5586416035200 11 4 [2;3;4];
 Te (-2377538811648000) 11 4 [2;9];
 Te 860107248000 11 4 [3;3;3];
 Te (-1805758194240000) 11 4 [3;8];
 Te (-1527279597043200) 11 4 [4;7];
 Te (-1411354264320000) 11 4 [5;6];
 Te 1384170594206400000 11 4 [13];
 Te (-18918900) 11 5 [1;1;1;1;2];
 Te 23654030400 11 5 [1;1;1;5];
 Te 57340483200 11 5 [1;1;2;4];
 Te 27113486400 11 5 [1;1;3;3];
 Te (-20098228550400) 11 5 [1;1;8];
 Te 47740492800 11 5 [1;2;2;3];
 Te (-28169485344000) 11 5 [1;2;7];
 Te (-23069555308800) 11 5 [1;3;6];
 Te (-20959719580800) 11 5 [1;4;5];
 Te 14532372062208000 11 5 [1;11];
 Te 3502699200 11 5 [2;2;2;2];
 Te (-10052746704000) 11 5 [2;2;6];
 Te (-16965518169600) 11 5 [2;3;5];
 Te (-8036618990400) 11 5 [2;4;4];
 Te 9389942610048000 11 5 [2;10];
 Te (-7461787132800) 11 5 [3;3;4];
 Te 7099224035904000 11 5 [3;9];
 Te 5919701755968000 11 5 [4;8];
 Te 5342839889587200 11 5 [5;7];
 Te 2584618388352000 11 5 [6;6];
 Te (-6367184733349440000) 11 5 [14];
 Te 27027000 11 6 [1;1;1;1;3];
 Te 48648600 11 6 [1;1;1;2;2];
 Te (-50940489600) 11 6 [1;1;1;6];
 Te (-120907987200) 11 6 [1;1;2;5];
 Te (-110529619200) 11 6 [1;1;3;4];
 Te 57188050920000 11 6 [1;1;9];
 Te (-97556659200) 11 6 [1;2;2;4];
 Te (-91978286400) 11 6 [1;2;3;3];
 Te 79844417452800 11 6 [1;2;8];
 Te 64594270540800 11 6 [1;3;7];
 Te 57312461606400 11 6 [1;4;6];
 Te 27547431912000 11 6 [1;5;5];
 Te (-50136683614617600) 11 6 [1;12];
 Te (-27070243200) 11 6 [2;2;2;3];
 Te 28227604204800 11 6 [2;2;7];
 Te 46650504700800 11 6 [2;3;6];
 Te 42669103276800 11 6 [2;4;5];
 Te (-32484125786112000) 11 6 [2;11];
 Te 19864974729600 11 6 [3;3;5];
 Te 18897883804800 11 6 [3;4;4];
 Te (-24489985455936000) 11 6 [3;10];
 Te (-20225005504704000) 11 6 [4;9];
 Te (-17942132976768000) 11 6 [5;8];
 Te (-16939669806259200) 11 6 [6;7];
 Te 25468738933397760000 11 6 [15];
 Te (-37837800) 11 7 [1;1;1;1;4];
 Te (-129729600) 11 7 [1;1;1;2;3];
 Te 101794492800 11 7 [1;1;1;7];
 Te (-59459400) 11 7 [1;1;2;2;2];
 Te 238572734400 11 7 [1;1;2;6];
 Te 213016003200 11 7 [1;1;3;5];
 Te 103135032000 11 7 [1;1;4;4];
 Te (-147612955089600) 11 7 [1;1;10];
 Te 189016027200 11 7 [1;2;2;5];
 Te 344302358400 11 7 [1;2;3;4];
 Te (-205894107619200) 11 7 [1;2;9];
 Te 53967513600 11 7 [1;3;3;3];
 Te (-165146818636800) 11 7 [1;3;8];
 Te (-144231639552000) 11 7 [1;4;7];
 Te (-134962892064000) 11 7 [1;5;6];
 Te 155314726414848000 11 7 [1;13];
 Te 50940489600 11 7 [2;2;2;4];
 Te 71870198400 11 7 [2;2;3;3];
 Te (-72459170784000) 11 7 [2;2;8];
 Te (-118033179264000) 11 7 [2;3;7];
 Te (-105422164848000) 11 7 [2;4;6];
 Te (-50805873518400) 11 7 [2;5;5];
 Te 100999985832345600 11 7 [2;12];
 Te (-49153767062400) 11 7 [3;3;6];
 Te (-90427758220800) 11 7 [3;4;5];
 Te 76007778694848000 11 7 [3;11];
 Te (-14382255888000) 11 7 [4;4;4];
 Te 62356965967296000 11 7 [4;10];
 Te 54621745161984000 11 7 [5;9];
 Te 50623904403072000 11 7 [6;8];
 Te 24693524971315200 11 7 [7;7];
 Te 51351300 11 8 [1;1;1;1;5];
 Te 172972800 11 8 [1;1;1;2;4];
 Te 81081000 11 8 [1;1;1;3;3];
 Te (-191048457600) 11 8 [1;1;1;8];
 Te 227026800 11 8 [1;1;2;2;3];
 Te (-444713068800) 11 8 [1;1;2;7];
 Te (-390226636800) 11 8 [1;1;3;6];
 Te (-369729360000) 11 8 [1;1;4;5];
 Te 351529205227200 11 8 [1;1;11];
 Te 35135100 11 8 [1;2;2;2;2];
 Te (-348713164800) 11 8 [1;2;2;6];
 Te (-620626406400) 11 8 [1;2;3;5];
 Te (-300064564800) 11 8 [1;2;4;4];
 Te 490953887424000 11 8 [1;2;10];
 Te (-281772691200) 11 8 [1;3;3;4];
 Te 391352689728000 11 8 [1;3;9];
 Te 338062883558400 11 8 [1;4;8];
 Te 310453397654400 11 8 [1;5;7];
 Te 150903805852800 11 8 [1;6;6];
 Te (-440058391508736000) 11 8 [1;14];
 Te (-92453961600) 11 8 [2;2;2;5];
 Te (-251934883200) 11 8 [2;2;3;4];
 Te 172575654451200 11 8 [2;2;9];
 Te (-78875596800) 11 8 [2;3;3;3];
 Te 278260651468800 11 8 [2;3;8];
 Te 244433398809600 11 8 [2;4;7];
 Te 229589478518400 11 8 [2;5;6];
 Te (-287468484855552000) 11 8 [2;13];
 Te 114065269718400 11 8 [3;3;7];
 Te 204949935590400 11 8 [3;4;6];
 Te 99003792888000 11 8 [3;5;5];
 Te (-216096906843417600) 11 8 [3;12];
 Te 94685397206400 11 8 [4;4;5];
 Te (-176472150446592000) 11 8 [4;11];
 Te (-153140624372736000) 11 8 [5;10];
 Te (-139931618770944000) 11 8 [6;9];
 Te (-133939070212147200) 11 8 [7;8];
 Te (-32432400) 12 0 [1;1;1;1];
 Te 22227004800 12 0 [1;1;4];
 Te 33952089600 12 0 [1;2;3];
 Te (-6381658483200) 12 0 [1;7];
 Te 4677678720 12 0 [2;2;2];
 Te (-4075585113600) 12 0 [2;6];
 Te (-3284753472000) 12 0 [3;5];
 Te (-1519566048000) 12 0 [4;4];
 Te 1438099318656000 12 0 [10];
 Te 1016215200 12 1 [1;1;1;2];
 Te (-302010508800) 12 1 [1;1;5];
 Te (-442377936000) 12 1 [1;2;4];
 Te (-202656168000) 12 1 [1;3;3];
 Te 112421076768000 12 1 [1;8];
 Te (-172021449600) 12 1 [2;2;3];
 Te 72127581926400 12 1 [2;7];
 Te 56510213760000 12 1 [3;6];
 Te 50345463168000 12 1 [4;5];
 Te (-30200085691776000) 12 1 [11];
 Te (-5081076000) 12 2 [1;1;1;3];
 Te (-6633506880) 12 2 [1;1;2;2];
 Te 2241727488000 12 2 [1;1;6];
 Te 3200948150400 12 2 [1;2;5];
 Te 2781625017600 12 2 [1;3;4];
 Te (-1049634409824000) 12 2 [1;9];
 Te 1194883747200 12 2 [2;2;4];
 Te 1096715505600 12 2 [2;3;3];
 Te (-674749076601600) 12 2 [2;8];
 Te (-519996712435200) 12 2 [3;7];
 Te (-450820738368000) 12 2 [4;6];
 Te (-215057947104000) 12 2 [5;5];
 Te 332200942609536000 12 2 [12];
 Te (-5405400) 12 3 [1;1;1;1;1];
 Te 19632412800 12 3 [1;1;1;4];
 Te 47870222400 12 3 [1;1;2;3];
 Te (-11955620476800) 12 3 [1;1;7];
 Te 13894040160 12 3 [1;2;2;2];
 Te (-16790383209600) 12 3 [1;2;6];
 Te (-14108872377600) 12 3 [1;3;5];
 Te (-6691668984000) 12 3 [1;4;4];
 Te 6894046295136000 12 3 [1;10];
 Te (-6091583097600) 12 3 [2;2;5];
 Te (-10652097456000) 12 3 [2;3;4];
 Te 4435623672480000 12 3 [2;9];
 Te (-1636168248000) 12 3 [3;3;3];
 Te 3384876182688000 12 3 [3;8];
 Te 2877568581888000 12 3 [4;7];
 Te 2661117338880000 12 3 [5;6];
 Te (-2546873893339776000) 12 3 [13];
 Te 54054000 12 4 [1;1;1;1;2];
 Te (-63394531200) 12 4 [1;1;1;5];
 Te (-148605256800) 12 4 [1;1;2;4];
 Te (-69426957600) 12 4 [1;1;3;3];
 Te 51073246224000 12 4 [1;1;8];
 Te (-120920960160) 12 4 [1;2;2;3];
 Te 70943669596800 12 4 [1;2;7];
 Te 58310860608000 12 4 [1;3;6];
 Te 53392292553600 12 4 [1;4;5];
 Te (-35706492293472000) 12 4 [1;11];
 Te (-8763234480) 12 4 [2;2;2;2];
 Te 25235780169600 12 4 [2;2;6];
 Te 42764028278400 12 4 [2;3;5];
 Te 20316118680000 12 4 [2;4;4];
 Te (-22990666739040000) 12 4 [2;10];
 Te 18795984292800 12 4 [3;3;4];
 Te (-17438623858656000) 12 4 [3;9];
 Te (-14617565490528000) 12 4 [4;8];
 Te (-13223249911872000) 12 4 [5;7];
 Te (-6397524413280000) 12 4 [6;6];
 Te 15281243360038656000 12 4 [14];
 Te (-108108000) 12 5 [1;1;1;1;3];
 Te (-183783600) 12 5 [1;1;1;2;2];
 Te 178745767200 12 5 [1;1;1;6];
 Te 408972564000 12 5 [1;1;2;5];
 Te 367069903200 12 5 [1;1;3;4];
 Te (-185216506675200) 12 5 [1;1;9];
 Te 320077517760 12 5 [1;2;2;4];
 Te 299286187200 12 5 [1;2;3;3];
 Te (-255486101270400) 12 5 [1;2;8];
 Te (-206843728291200) 12 5 [1;3;7];
 Te (-184773869280000) 12 5 [1;4;6];
 Te (-89171716233600) 12 5 [1;5;5];
 Te 155099011517049600 12 5 [1;12];
 Te 86866940160 12 5 [2;2;2;3];
 Te (-89685912476160) 12 5 [2;2;7];
 Te (-148691137795200) 12 5 [2;3;6];
 Te (-136607603932800) 12 5 [2;4;5];
 Te 99981962893612800 12 5 [2;11];
 Te (-63374225428800) 12 5 [3;3;5];
 Te (-60319723464000) 12 5 [3;4;4];
 Te 75543624348192000 12 5 [3;10];
 Te 62685324557856000 12 5 [4;9];
 Te 55794503340576000 12 5 [5;8];
 Te 52720330587724800 12 5 [6;7];
 Te (-76406216800193280000) 12 5 [15];
 Te 205405200 12 6 [1;1;1;1;4];
 Te 648648000 12 6 [1;1;1;2;3];
 Te (-452691439200) 12 6 [1;1;1;7];
 Te 281080800 12 6 [1;1;2;2;2];
 Te (-1020280060800) 12 6 [1;1;2;6];
 Te (-891869378400) 12 6 [1;1;3;5];
 Te (-428237409600) 12 6 [1;1;4;4];
 Te 591119668339200 12 6 [1;1;10];
 Te (-780012192960) 12 6 [1;2;2;5];
 Te (-1400949950400) 12 6 [1;2;3;4];
 Te 812197328342400 12 6 [1;2;9];
 Te (-218334916800) 12 6 [1;3;3;3];
 Te 650532971088000 12 6 [1;3;8];
 Te 570931753392000 12 6 [1;4;7];
 Te 537273841104000 12 6 [1;5;6];
 Te (-587104046841312000) 12 6 [1;13];
 Te (-203991147360) 12 6 [2;2;2;4];
 Te (-285962957280) 12 6 [2;2;3;3];
 Te 282740992934400 12 6 [2;2;8];
 Te 461362565664000 12 6 [2;3;7];
 Te 413987391417600 12 6 [2;4;6];
 Te 200016837820800 12 6 [2;5;5];
 Te (-379170023251219200) 12 6 [2;12];
 Te 192412811448000 12 6 [3;3;6];
 Te 354555111081600 12 6 [3;4;5];
 Te (-285748776304992000) 12 6 [3;11];
 Te 56341719720000 12 6 [4;4;4];
 Te (-235388586232800000) 12 6 [4;10];
 Te (-206976963184992000) 12 6 [5;9];
 Te (-192146970663648000) 12 6 [6;8];
 Te (-93751363632326400) 12 6 [7;7];
 Te (-367567200) 12 7 [1;1;1;1;5];
 Te (-1124323200) 12 7 [1;1;1;2;4];
 Te (-513513000) 12 7 [1;1;1;3;3];
 Te 1050355706400 12 7 [1;1;1;8];
 Te (-1362160800) 12 7 [1;1;2;2;3];
 Te 2346237653760 12 7 [1;1;2;7];
 Te 2013143932800 12 7 [1;1;3;6];
 Te 1882376496000 12 7 [1;1;4;5];
 Te (-1701342731088000) 12 7 [1;1;11];
 Te (-199999800) 12 7 [1;2;2;2;2];
 Te 1768746339360 12 7 [1;2;2;6];
 Te 3092494204800 12 7 [1;2;3;5];
 Te 1485663379200 12 7 [1;2;4;4];
 Te (-2334176396323200) 12 7 [1;2;10];
 Te 1388863476000 12 7 [1;3;3;4];
 Te (-1854841351334400) 12 7 [1;3;9];
 Te (-1606987798416000) 12 7 [1;4;8];
 Te (-1484127899654400) 12 7 [1;5;7];
 Te (-723431925216000) 12 7 [1;6;6];
 Te 1987812783212256000 12 7 [1;14];
 Te 452509817760 12 7 [2;2;2;5];
 Te 1218563105760 12 7 [2;2;3;4];
 Te (-808779805891200) 12 7 [2;2;9];
 Te 379459080000 12 7 [2;3;3;3];
 Te (-1304159437152000) 12 7 [2;3;8];
 Te (-1150211952489600) 12 7 [2;4;7];
 Te (-1084626374832000) 12 7 [2;5;6];
 Te 1287170795163052800 12 7 [2;13];
 Te (-535203041630400) 12 7 [3;3;7];
 Te (-963911684736000) 12 7 [3;4;6];
 Te (-466182798681600) 12 7 [3;5;5];
 Te 968306331498105600 12 7 [3;12];
 Te (-445165176456000) 12 7 [4;4;5];
 Te 793440132829344000 12 7 [4;11];
 Te 691232677847712000 12 7 [5;10];
 Te 633110724294048000 12 7 [6;9];
 Te 606445849077868800 12 7 [7;8];
 Te (-302702400) 13 0 [1;1;1;2];
 Te 94572878400 13 0 [1;1;5];
 Te 138291753600 13 0 [1;2;4];
 Te 64123488000 13 0 [1;3;3];
 Te (-35618558976000) 13 0 [1;8];
 Te 53318865600 13 0 [2;2;3];
 Te (-22706831347200) 13 0 [2;7];
 Te (-17980522560000) 13 0 [3;6];
 Te (-16019011008000) 13 0 [4;5];
 Te 9609118174656000 13 0 [11];
 Te 3308104800 13 1 [1;1;1;3];
 Te 4229184960 13 1 [1;1;2;2];
 Te (-1494095803200) 13 1 [1;1;6];
 Te (-2122635715200) 13 1 [1;2;5];
 Te (-1861619760000) 13 1 [1;3;4];
 Te 700127299872000 13 1 [1;9];
 Te (-788107320000) 13 1 [2;2;4];
 Te (-725559120000) 13 1 [2;3;3];
 Te 447458147136000 13 1 [2;8];
 Te 347280950016000 13 1 [3;7];
 Te 302072779008000 13 1 [4;6];
 Te 144171099072000 13 1 [5;5];
 Te (-221009718017088000) 13 1 [12];
 Te 5405400 13 2 [1;1;1;1;1];
 Te (-20886465600) 13 2 [1;1;1;4];
 Te (-49599950400) 13 2 [1;1;2;3];
 Te 12697673788800 13 2 [1;1;7];
 Te (-14192418240) 13 2 [1;2;2;2];
 Te 17696414736000 13 2 [1;2;6];
 Te 14953671532800 13 2 [1;3;5];
 Te 7123452336000 13 2 [1;4;4];
 Te (-7247263671648000) 13 2 [1;10];
 Te 6388534152000 13 2 [2;2;5];
 Te 11201632041600 13 2 [2;3;4];
 Te (-4635978066720000) 13 2 [2;9];
 Te 1717712568000 13 2 [3;3;3];
 Te (-3552951257856000) 13 2 [3;8];
 Te (-3034084749696000) 13 2 [4;7];
 Te (-2810192216832000) 13 2 [5;6];
 Te 2652116616205056000 13 2 [13];
 Te (-81081000) 13 3 [1;1;1;1;2];
 Te 97621524000 13 3 [1;1;1;5];
 Te 222378156000 13 3 [1;1;2;4];
 Te 102789086400 13 3 [1;1;3;3];
 Te (-76691209795200) 13 3 [1;1;8];
 Te 177041985120 13 3 [1;2;2;3];
 Te (-105477170198400) 13 3 [1;2;7];
 Te (-86889513110400) 13 3 [1;3;6];
 Te (-79987379472000) 13 3 [1;4;5];
 Te 52490625130944000 13 3 [1;11];
 Te 12687554880 13 3 [2;2;2;2];
 Te (-37288568116800) 13 3 [2;2;6];
 Te (-63291439411200) 13 3 [2;3;5];
 Te (-30136186080000) 13 3 [2;4;4];
 Te 33587188034400000 13 3 [2;10];
 Te (-27777423960000) 13 3 [3;3;4];
 Te 25532941385952000 13 3 [3;9];
 Te 21500252661888000 13 3 [4;8];
 Te 19498078664064000 13 3 [5;7];
 Te 9439774344000000 13 3 [6;6];
 Te (-22100971801708800000) 13 3 [14];
 Te 229729500 13 4 [1;1;1;1;3];
 Te 378378000 13 4 [1;1;1;2;2];
 Te (-372172600800) 13 4 [1;1;1;6];
 Te (-826226200800) 13 4 [1;1;2;5];
 Te (-730074945600) 13 4 [1;1;3;4];
 Te 367928583422400 13 4 [1;1;9];
 Te (-630001532160) 13 4 [1;2;2;4];
 Te (-583912929600) 13 4 [1;2;3;3];
 Te 501442525584000 13 4 [1;2;8];
 Te 405772913145600 13 4 [1;3;7];
 Te 364179268252800 13 4 [1;4;6];
 Te 176194850832000 13 4 [1;5;5];
 Te (-298405608621120000) 13 4 [1;12];
 Te (-167662535040) 13 4 [2;2;2;3];
 Te 174579976771200 13 4 [2;2;7];
 Te 289548683424000 13 4 [2;3;6];
 Te 266807603462400 13 4 [2;4;5];
 Te (-191002296348864000) 13 4 [2;11];
 Te 123240303014400 13 4 [3;3;5];
 Te 117351450216000 13 4 [3;4;4];
 Te (-144423238927968000) 13 4 [3;10];
 Te (-120325057620768000) 13 4 [4;9];
 Te (-107432081108352000) 13 4 [5;8];
 Te (-101651086240704000) 13 4 [6;7];
 Te 143656316711107200000 13 4 [15];
 Te (-591891300) 13 5 [1;1;1;1;4];
 Te (-1783782000) 13 5 [1;1;1;2;3];
 Te 1219133916000 13 5 [1;1;1;7];
 Te (-745945200) 13 5 [1;1;2;2;2];
 Te 2662116256800 13 5 [1;1;2;6];
 Te 2285792308800 13 5 [1;1;3;5];
 Te 1090507017600 13 5 [1;1;4;4];
 Te (-1488354879211200) 13 5 [1;1;10];
 Te 1976962347360 13 5 [1;2;2;5];
 Te 3503218118400 13 5 [1;2;3;4];
 Te (-2016344362032000) 13 5 [1;2;9];
 Te 542139998400 13 5 [1;3;3;3];
 Te (-1610832205382400) 13 5 [1;3;8];
 Te (-1418398581600000) 13 5 [1;4;7];
 Te (-1339545817209600) 13 5 [1;5;6];
 Te 1416887353705824000 13 5 [1;13];
 Te 504168144480 13 5 [2;2;2;4];
 Te 701785244160 13 5 [2;2;3;3];
 Te (-694484840649600) 13 5 [2;2;8];
 Te (-1132232727225600) 13 5 [2;3;7];
 Te (-1018739824502400) 13 5 [2;4;6];
 Te (-493023593462400) 13 5 [2;5;5];
 Te 907584480003801600 13 5 [2;12];
 Te (-471484328515200) 13 5 [3;3;6];
 Te (-869485400784000) 13 5 [3;4;5];
 Te 683740536583104000 13 5 [3;11];
 Te (-138048510600000) 13 5 [4;4;4];
 Te 565080646594464000 13 5 [4;10];
 Te 498549630747168000 13 5 [5;9];
 Te 463728465135936000 13 5 [6;8];
 Te 226394917215667200 13 5 [7;7];
 Te 1389187800 13 6 [1;1;1;1;5];
 Te 4010806800 13 6 [1;1;1;2;4];
 Te 1810809000 13 6 [1;1;1;3;3];
 Te (-3544796455200) 13 6 [1;1;1;8];
 Te 4621617000 13 6 [1;1;2;2;3];
 Te (-7659975042720) 13 6 [1;1;2;7];
 Te (-6449355712800) 13 6 [1;1;3;6];
 Te (-5969139976800) 13 6 [1;1;4;5];
 Te 5268430104537600 13 6 [1;1;11];
 Te 654053400 13 6 [1;2;2;2;2];
 Te (-5595717647520) 13 6 [1;2;2;6];
 Te (-9629179560000) 13 6 [1;2;3;5];
 Te (-4599217022400) 13 6 [1;2;4;4];
 Te 7112469687523200 13 6 [1;2;10];
 Te (-4275217346400) 13 6 [1;3;3;4];
 Te 5628357355420800 13 6 [1;3;9];
 Te 4884707072044800 13 6 [1;4;8];
 Te 4527690953385600 13 6 [1;5;7];
 Te 2210685010934400 13 6 [1;6;6];
 Te (-5841199907551008000) 13 6 [1;14];
 Te (-1390610501280) 13 6 [2;2;2;5];
 Te (-3701522784960) 13 6 [2;2;3;4];
 Te 2432315189304000 13 6 [2;2;9];
 Te (-1145966421600) 13 6 [2;3;3;3];
 Te 3913892734752000 13 6 [2;3;8];
 Te 3458824130361600 13 6 [2;4;7];
 Te 3269691865440000 13 6 [2;5;6];
 Te (-3746608249928544000) 13 6 [2;13];
 Te 1603134569836800 13 6 [3;3;7];
 Te 2889581283388800 13 6 [3;4;6];
 Te 1398610277064000 13 6 [3;5;5];
 Te (-2815230795144768000) 13 6 [3;12];
 Te 1333323207216000 13 6 [4;4;5];
 Te (-2312488192158144000) 13 6 [4;11];
 Te (-2021303133289440000) 13 6 [5;10];
 Te (-1855734885452448000) 13 6 [6;9];
 Te (-1779558689196288000) 13 6 [7;8];
 Te (-843242400) 14 0 [1;1;1;3];
 Te (-1055134080) 14 0 [1;1;2;2];
 Te 393859065600 14 0 [1;1;6];
 Te 556539984000 14 0 [1;2;5];
 Te 491588697600 14 0 [1;3;4];
 Te (-186127208467200) 14 0 [1;9];
 Te 204609525120 14 0 [2;2;4];
 Te 189497880000 14 0 [2;3;3];
 Te (-118087665696000) 14 0 [2;8];
 Te (-92351907648000) 14 0 [3;7];
 Te (-80451033062400) 14 0 [4;6];
 Te (-38487234240000) 14 0 [5;5];
 Te 58935924804556800 14 0 [12];
 Te (-2702700) 14 1 [1;1;1;1;1];
 Te 11502691200 14 1 [1;1;1;4];
 Te 26702676000 14 1 [1;1;2;3];
 Te (-7086609129600) 14 1 [1;1;7];
 Te 7524316800 14 1 [1;2;2;2];
 Te (-9803665872000) 14 1 [1;2;6];
 Te (-8323970054400) 14 1 [1;3;5];
 Te (-3972969000000) 14 1 [1;4;4];
 Te 4039751722406400 14 1 [1;10];
 Te (-3511105678080) 14 1 [2;2;5];
 Te (-6173831664000) 14 1 [2;3;4];
 Te 2565871942233600 14 1 [2;9];
 Te (-947489400000) 14 1 [3;3;3];
 Te 1975716943200000 14 1 [3;8];
 Te 1692326783347200 14 1 [4;7];
 Te 1570778450841600 14 1 [5;6];
 Te (-1473398120113920000) 14 1 [13];
 Te 67567500 14 2 [1;1;1;1;2];
 Te (-86853967200) 14 2 [1;1;1;5];
 Te (-193253860800) 14 2 [1;1;2;4];
 Te (-88653193200) 14 2 [1;1;3;3];
 Te 67842224049600 14 2 [1;1;8];
 Te (-150888497760) 14 2 [1;2;2;3];
 Te 92459842675200 14 2 [1;2;7];
 Te 76337047987200 14 2 [1;3;6];
 Te 70474740336000 14 2 [1;4;5];
 Te (-45934199600889600) 14 2 [1;11];
 Te (-10689719040) 14 2 [2;2;2;2];
 Te 32436551347200 14 2 [2;2;6];
 Te 55103944896000 14 2 [2;3;5];
 Te 26278892640000 14 2 [2;4;4];
 Te (-29179998495648000) 14 2 [2;10];
 Te 24172090113600 14 2 [3;3;4];
 Te (-22236443752723200) 14 2 [3;9];
 Te (-18789309297158400) 14 2 [4;8];
 Te (-17078939202124800) 14 2 [5;7];
 Te (-8277251830848000) 14 2 [6;6];
 Te 19154175561480960000 14 2 [14];
 Te (-283783500) 14 3 [1;1;1;1;3];
 Te (-459459000) 14 3 [1;1;1;2;2];
 Te 474096823200 14 3 [1;1;1;6];
 Te 1027177351200 14 3 [1;1;2;5];
 Te 897426129600 14 3 [1;1;3;4];
 Te (-457754136840000) 14 3 [1;1;9];
 Te 766528963200 14 3 [1;2;2;4];
 Te 705219372000 14 3 [1;2;3;3];
 Te (-617202842256000) 14 3 [1;2;8];
 Te (-499404733027200) 14 3 [1;3;7];
 Te (-449501907254400) 14 3 [1;4;6];
 Te (-217714160664000) 14 3 [1;5;5];
 Te 363819517174713600 14 3 [1;12];
 Te 200497096800 14 3 [2;2;2;3];
 Te (-213077754489600) 14 3 [2;2;7];
 Te (-353212187328000) 14 3 [2;3;6];
 Te (-326055890160000) 14 3 [2;4;5];
 Te 231089486877849600 14 3 [2;11];
 Te (-150087936398400) 14 3 [3;3;5];
 Te (-143007424560000) 14 3 [3;4;4];
 Te 174858197984870400 14 3 [3;10];
 Te 146154449304864000 14 3 [4;9];
 Te 130824963574905600 14 3 [5;8];
 Te 123979299155712000 14 3 [6;7];
 Te (-172387580053328640000) 14 3 [15];
 Te 1013512500 14 4 [1;1;1;1;4];
 Te 2972970000 14 4 [1;1;1;2;3];
 Te (-2078592516000) 14 4 [1;1;1;7];
 Te 1216215000 14 4 [1;1;2;2;2];
 Te (-4425098277600) 14 4 [1;1;2;6];
 Te (-3748882737600) 14 4 [1;1;3;5];
 Te (-1781219840400) 14 4 [1;1;4;4];
 Te 2437181346600000 14 4 [1;1;10];
 Te (-3210613005600) 14 4 [1;2;2;5];
 Te (-5627497075200) 14 4 [1;2;3;4];
 Te 3261324306240000 14 4 [1;2;9];
 Te (-865046239200) 14 4 [1;3;3;3];
 Te 2600171929555200 14 4 [1;3;8];
 Te 2294699716108800 14 4 [1;4;7];
 Te 2170884229113600 14 4 [1;5;6];
 Te (-2252926392606489600) 14 4 [1;13];
 Te (-802014333120) 14 4 [2;2;2;4];
 Te (-1109037037680) 14 4 [2;2;3;3];
 Te 1112347903867200 14 4 [2;2;8];
 Te 1810488394915200 14 4 [2;3;7];
 Te 1631457914486400 14 4 [2;4;6];
 Te 790251101640000 14 4 [2;5;5];
 Te (-1431052631994585600) 14 4 [2;12];
 Te 752074404681600 14 4 [3;3;6];
 Te 1387733098752000 14 4 [3;4;5];
 Te (-1077486625344729600) 14 4 [3;11];
 Te 220261141900800 14 4 [4;4;4];
 Te (-892894657720665600) 14 4 [4;10];
 Te (-789854902252416000) 14 4 [5;9];
 Te (-736061459829696000) 14 4 [6;8];
 Te (-359611758874368000) 14 4 [7;7];
 Te (-3154050900) 14 5 [1;1;1;1;5];
 Te (-8789180400) 14 5 [1;1;1;2;4];
 Te (-3945942000) 14 5 [1;1;1;3;3];
 Te 7743754418400 14 5 [1;1;1;8];
 Te (-9810801000) 14 5 [1;1;2;2;3];
 Te 16294699380960 14 5 [1;1;2;7];
 Te 13519943236800 14 5 [1;1;3;6];
 Te 12429674056800 14 5 [1;1;4;5];
 Te (-10881302805172800) 14 5 [1;1;11];
 Te (-1354052700) 14 5 [1;2;2;2;2];
 Te 11610163524960 14 5 [1;2;2;6];
 Te 19725385680000 14 5 [1;2;3;5];
 Te 9381504132000 14 5 [1;2;4;4];
 Te (-14487106810176000) 14 5 [1;2;10];
 Te 8669016813600 14 5 [1;3;3;4];
 Te (-11423428403587200) 14 5 [1;3;9];
 Te (-9926878116355200) 14 5 [1;4;8];
 Te (-9219309007708800) 14 5 [1;5;7];
 Te (-4504657592635200) 14 5 [1;6;6];
 Te 11611429613726342400 14 5 [1;14];
 Te 2819115018720 14 5 [2;2;2;5];
 Te 7428706084800 14 5 [2;2;3;4];
 Te (-4897919175589440) 14 5 [2;2;9];
 Te 2286623196000 14 5 [2;3;3;3];
 Te (-7860656355552000) 14 5 [2;3;8];
 Te (-6953385963363840) 14 5 [2;4;7];
 Te (-6581613829190400) 14 5 [2;5;6];
 Te 7378933361729529600 14 5 [2;13];
 Te (-3210010541337600) 14 5 [3;3;7];
 Te (-5787098645328000) 14 5 [3;4;6];
 Te (-2802499900200000) 14 5 [3;5;5];
 Te 5536107137098137600 14 5 [3;12];
 Te (-2668778131219200) 14 5 [4;4;5];
 Te 4556624801381452800 14 5 [4;11];
 Te 3993231611002233600 14 5 [5;10];
 Te 3673681476585120000 14 5 [6;9];
 Te 3527098862519232000 14 5 [7;8];
 Te 540540 15 0 [1;1;1;1;1];
 Te (-2572970400) 15 0 [1;1;1;4];
 Te (-5859453600) 15 0 [1;1;2;3];
 Te 1622623242240 15 0 [1;1;7];
 Te (-1625944320) 15 0 [1;2;2;2];
 Te 2230155607680 15 0 [1;2;6];
 Te 1902095395200 15 0 [1;3;5];
 Te 907602696000 15 0 [1;4;4];
 Te (-930406680403200) 15 0 [1;10];
 Te 791142992640 15 0 [2;2;5];
 Te 1395890496000 15 0 [2;3;4];
 Te (-586593143136000) 15 0 [2;9];
 Te 214980480000 15 0 [3;3;3];
 Te (-454136626944000) 15 0 [3;8];
 Te (-389577988800000) 15 0 [4;7];
 Te (-362487334809600) 15 0 [5;6];
 Te 340014950795520000 15 0 [13];
 Te (-29729700) 15 1 [1;1;1;1;2];
 Te 41578336800 15 1 [1;1;1;5];
 Te 90724233600 15 1 [1;1;2;4];
 Te 41436252000 15 1 [1;1;3;3];
 Te (-32724551059200) 15 1 [1;1;8];
 Te 69664795200 15 1 [1;2;2;3];
 Te (-44248638994560) 15 1 [1;2;7];
 Te (-36628893100800) 15 1 [1;3;6];
 Te (-33846971558400) 15 1 [1;4;5];
 Te 22100971801708800 15 1 [1;11];
 Te 4877832960 15 1 [2;2;2;2];
 Te (-15393039742080) 15 1 [2;2;6];
 Te (-26180730576000) 15 1 [2;3;5];
 Te (-12494041560000) 15 1 [2;4;4];
 Te 13936489760793600 15 1 [2;10];
 Te (-11494042560000) 15 1 [3;3;4];
 Te 10653288373728000 15 1 [3;9];
 Te 9022626220608000 15 1 [4;8];
 Te 8218537251724800 15 1 [5;7];
 Te 3987360682905600 15 1 [6;6];
 Te (-9180403671479040000) 15 1 [14];
 Te 205405200 15 2 [1;1;1;1;3];
 Te 329729400 15 2 [1;1;1;2;2];
 Te (-363372609600) 15 2 [1;1;1;6];
 Te (-771718147200) 15 2 [1;1;2;5];
 Te (-669231763200) 15 2 [1;1;3;4];
 Te 348301273320000 15 2 [1;1;9];
 Te (-565772407200) 15 2 [1;2;2;4];
 Te (-517787899200) 15 2 [1;2;3;3];
 Te 465334211422080 15 2 [1;2;8];
 Te 376790126993280 15 2 [1;3;7];
 Te 339633390096000 15 2 [1;4;6];
 Te 164533586817600 15 2 [1;5;5];
 Te (-273859867977696000) 15 2 [1;12];
 Te (-145777151520) 15 2 [2;2;2;3];
 Te 159315992035200 15 2 [2;2;7];
 Te 263998283028480 15 2 [2;3;6];
 Te 243910329062400 15 2 [2;4;5];
 Te (-172630749574483200) 15 2 [2;11];
 Te 112064579827200 15 2 [3;3;5];
 Te 106842271536000 15 2 [3;4;4];
 Te (-130791692602771200) 15 2 [3;10];
 Te (-109590514409376000) 15 2 [4;9];
 Te (-98295201510105600) 15 2 [5;8];
 Te (-93290862471206400) 15 2 [6;7];
 Te 128525651400706560000 15 2 [15];
 Te (-1070269200) 15 3 [1;1;1;1;4];
 Te (-3091888800) 15 3 [1;1;1;2;3];
 Te 2261835576000 15 3 [1;1;1;7];
 Te (-1248647400) 15 3 [1;1;2;2;2];
 Te 4716903391200 15 3 [1;1;2;6];
 Te 3958136582400 15 3 [1;1;3;5];
 Te 1876214340000 15 3 [1;1;4;4];
 Te (-2596042593144000) 15 3 [1;1;10];
 Te 3358504749600 15 3 [1;2;2;5];
 Te 5839821187200 15 3 [1;2;3;4];
 Te (-3437784583833600) 15 3 [1;2;9];
 Te 892755864000 15 3 [1;3;3;3];
 Te (-2738065413283200) 15 3 [1;3;8];
 Te (-2419833947731200) 15 3 [1;4;7];
 Te (-2290522422988800) 15 3 [1;5;6];
 Te 2354981328648748800 15 3 [1;13];
 Te 824864040000 15 3 [2;2;2;4];
 Te 1134513151200 15 3 [2;2;3;3];
 Te (-1162122271390080) 15 3 [2;2;8];
 Te (-1888679226994560) 15 3 [2;3;7];
 Te (-1703168286019200) 15 3 [2;4;6];
 Te (-825226980177600) 15 3 [2;5;5];
 Te 1483876634694854400 15 3 [2;12];
 Te (-782812795564800) 15 3 [3;3;6];
 Te (-1445045560358400) 15 3 [3;4;5];
 Te 1117115550731980800 15 3 [3;11];
 Te (-229382833680000) 15 3 [4;4;4];
 Te 927776472438816000 15 3 [4;10];
 Te 822375759677472000 15 3 [5;9];
 Te 767633819003251200 15 3 [6;8];
 Te 375294501418636800 15 3 [7;7];
 Te 4543238700 15 4 [1;1;1;1;5];
 Te 12389176800 15 4 [1;1;1;2;4];
 Te 5545940400 15 4 [1;1;1;3;3];
 Te (-11189307729600) 15 4 [1;1;1;8];
 Te 13556743200 15 4 [1;1;2;2;3];
 Te (-23043998577600) 15 4 [1;1;2;7];
 Te (-18911613520800) 15 4 [1;1;3;6];
 Te (-17315161063200) 15 4 [1;1;4;5];
 Te 15187716444700800 15 4 [1;1;11];
 Te 1840538700 15 4 [1;2;2;2;2];
 Te (-16093475798400) 15 4 [1;2;2;6];
 Te (-27078978326400) 15 4 [1;2;3;5];
 Te (-12843187156800) 15 4 [1;2;4;4];
 Te 19984571669462400 15 4 [1;2;10];
 Te (-11804263099200) 15 4 [1;3;3;4];
 Te 15719175026755200 15 4 [1;3;9];
 Te 13673382564441600 15 4 [1;4;8];
 Te 12709116977356800 15 4 [1;5;7];
 Te 6210918372859200 15 4 [1;6;6];
 Te (-15780093866420083200) 15 4 [1;14];
 Te (-3835715083200) 15 4 [2;2;2;5];
 Te (-10026800784000) 15 4 [2;2;3;4];
 Te 6689718205410240 15 4 [2;2;9];
 Te (-3070458705600) 15 4 [2;3;3;3];
 Te 10710533220266880 15 4 [2;3;8];
 Te 9478348247047680 15 4 [2;4;7];
 Te 8975700170236800 15 4 [2;5;6];
 Te (-9941410632676723200) 15 4 [2;13];
 Te 4360658437175040 15 4 [3;3;7];
 Te 7861493370931200 15 4 [3;4;6];
 Te 3807999132537600 15 4 [3;5;5];
 Te (-7449615943241472000) 15 4 [3;12];
 Te 3624575186232000 15 4 [4;4;5];
 Te (-6142255678624665600) 15 4 [4;11];
 Te (-5393506091029056000) 15 4 [5;10];
 Te (-4970388695682009600) 15 4 [6;9];
 Te (-4777242162082790400) 15 4 [7;8];
 Te 5405400 16 0 [1;1;1;1;2];
 Te (-8302694400) 16 0 [1;1;1;5];
 Te (-17816198400) 16 0 [1;1;2;4];
 Te (-8123544000) 16 0 [1;1;3;3];
 Te 6644750112000 16 0 [1;1;8];
 Te (-13491878400) 16 0 [1;2;2;3];
 Te 8924877561600 16 0 [1;2;7];
 Te 7410154752000 16 0 [1;3;6];
 Te 6844486521600 16 0 [1;4;5];
 Te (-4505374089216000) 16 0 [1;11];
 Te (-934053120) 16 0 [2;2;2;2];
 Te 3077705030400 16 0 [2;2;6];
 Te 5245557408000 16 0 [2;3;5];
 Te 2502248112000 16 0 [2;4;4];
 Te (-2820887125056000) 16 0 [2;10];
 Te 2307417840000 16 0 [3;3;4];
 Te (-2164823781120000) 16 0 [3;9];
 Te (-1835647894080000) 16 0 [4;8];
 Te (-1675523167718400) 16 0 [5;7];
 Te (-813509972352000) 16 0 [6;6];
 Te 1873551769689600000 16 0 [14];
 Te (-81081000) 16 1 [1;1;1;1;3];
 Te (-129729600) 16 1 [1;1;1;2;2];
 Te 154118764800 16 1 [1;1;1;6];
 Te 321859137600 16 1 [1;1;2;5];
 Te 277880803200 16 1 [1;1;3;4];
 Te (-148339830038400) 16 1 [1;1;9];
 Te 232527335040 16 1 [1;2;2;4];
 Te 212154228000 16 1 [1;2;3;3];
 Te (-196660992528000) 16 1 [1;2;8];
 Te (-159474002688000) 16 1 [1;3;7];
 Te (-143800591334400) 16 1 [1;4;6];
 Te (-69651492019200) 16 1 [1;5;5];
 Te 116252730795801600 16 1 [1;12];
 Te 59156697600 16 1 [2;2;2;3];
 Te (-66784798080000) 16 1 [2;2;7];
 Te (-110708646048000) 16 1 [2;3;6];
 Te (-102292827436800) 16 1 [2;4;5];
 Te 72754751893824000 16 1 [2;11];
 Te (-46994547600000) 16 1 [3;3;5];
 Te (-44815090320000) 16 1 [3;4;4];
 Te 55236087466560000 16 1 [3;10];
 Te 46359780667200000 16 1 [4;9];
 Te 41653678562496000 16 1 [5;8];
 Te 39582014126054400 16 1 [6;7];
 Te (-54333001320998400000) 16 1 [15];
 Te 686485800 16 2 [1;1;1;1;4];
 Te 1967565600 16 2 [1;1;1;2;3];
 Te (-1525014691200) 16 2 [1;1;1;7];
 Te 789188400 16 2 [1;1;2;2;2];
 Te (-3126353630400) 16 2 [1;1;2;6];
 Te (-2606483880000) 16 2 [1;1;3;5];
 Te (-1233872640000) 16 2 [1;1;4;4];
 Te 1736785895644800 16 2 [1;1;10];
 Te (-2191859429760) 16 2 [1;2;2;5];
 Te (-3790915128000) 16 2 [1;2;3;4];
 Te 2279894714697600 16 2 [1;2;9];
 Te (-577250388000) 16 2 [1;3;3;3];
 Te 1815787589616000 16 2 [1;3;8];
 Te 1605878610336000 16 2 [1;4;7];
 Te 1519976292307200 16 2 [1;5;6];
 Te (-1559211417219456000) 16 2 [1;13];
 Te (-530905415040) 16 2 [2;2;2;4];
 Te (-727421666400) 16 2 [2;2;3;3];
 Te 764412727478400 16 2 [2;2;8];
 Te 1241244510105600 16 2 [2;3;7];
 Te 1119562862745600 16 2 [2;4;6];
 Te 542409953904000 16 2 [2;5;5];
 Te (-975124864787673600) 16 2 [2;12];
 Te 513743014512000 16 2 [3;3;6];
 Te 948497166489600 16 2 [3;4;5];
 Te (-734541911078976000) 16 2 [3;11];
 Te 150597195840000 16 2 [4;4;4];
 Te (-611088997559040000) 16 2 [4;10];
 Te (-542531973791808000) 16 2 [5;9];
 Te (-507124292875200000) 16 2 [6;8];
 Te (-248067714396902400) 16 2 [7;7];
 Te (-4199995800) 16 3 [1;1;1;1;5];
 Te (-11308096800) 16 3 [1;1;1;2;4];
 Te (-5054049000) 16 3 [1;1;1;3;3];
 Te 10639189360800 16 3 [1;1;1;8];
 Te (-12227014800) 16 3 [1;1;2;2;3];
 Te 21527156851200 16 3 [1;1;2;7];
 Te 17526339230400 16 3 [1;1;3;6];
 Te 16006686696000 16 3 [1;1;4;5];
 Te (-14167457227123200) 16 3 [1;1;11];
 Te (-1643241600) 16 3 [1;2;2;2;2];
 Te 14790471696000 16 3 [1;2;2;6];
 Te 24712840152000 16 3 [1;2;3;5];
 Te 11701357668000 16 3 [1;2;4;4];
 Te (-18460137820924800) 16 3 [1;2;10];
 Te 10708230218400 16 3 [1;3;3;4];
 Te (-14499984808108800) 16 3 [1;3;9];
 Te (-12621176654486400) 16 3 [1;4;8];
 Te (-11732770451001600) 16 3 [1;5;7];
 Te (-5733465574636800) 16 3 [1;6;6];
 Te 14466826596942720000 16 3 [1;14];
 Te 3472420311360 16 3 [2;2;2;5];
 Te 9023653679040 16 3 [2;2;3;4];
 Te (-6125724295891200) 16 3 [2;2;9];
 Te 2751842808000 16 3 [2;3;3;3];
 Te (-9789740696736000) 16 3 [2;3;8];
 Te (-8664488459827200) 16 3 [2;4;7];
 Te (-8204675903424000) 16 3 [2;5;6];
 Te 9041969012940864000 16 3 [2;13];
 Te (-3976268023728000) 16 3 [3;3;7];
 Te (-7167747729542400) 16 3 [3;4;6];
 Te (-3471975008611200) 16 3 [3;5;5];
 Te 6771711009384921600 16 3 [3;12];
 Te (-3304493127936000) 16 3 [4;4;5];
 Te 5591591623537920000 16 3 [4;11];
 Te 4917460205129472000 16 3 [5;10];
 Te 4538100492813888000 16 3 [6;9];
 Te 4365614059116710400 16 3 [7;8];
 Te 13513500 17 0 [1;1;1;1;3];
 Te 21621600 17 0 [1;1;1;2;2];
 Te (-27826999200) 17 0 [1;1;1;6];
 Te (-57275618400) 17 0 [1;1;2;5];
 Te (-49340491200) 17 0 [1;1;3;4];
 Te 27112491806400 17 0 [1;1;9];
 Te (-40873472640) 17 0 [1;2;2;4];
 Te (-37250928000) 17 0 [1;2;3;3];
 Te 35713002124800 17 0 [1;2;8];
 Te 29019906115200 17 0 [1;3;7];
 Te 26155303574400 17 0 [1;4;6];
 Te 12666609446400 17 0 [1;5;5];
 Te (-21302977529433600) 17 0 [1;12];
 Te (-10291881600) 17 0 [2;2;2;3];
 Te 12032394454080 17 0 [2;2;7];
 Te 19972650297600 17 0 [2;3;6];
 Te 18443657232000 17 0 [2;4;5];
 Te (-13243587361804800) 17 0 [2;11];
 Te 8487559080000 17 0 [3;3;5];
 Te 8090730648000 17 0 [3;4;4];
 Te (-10083815460576000) 17 0 [3;10];
 Te (-8470909583136000) 17 0 [4;9];
 Te (-7623484700832000) 17 0 [5;8];
 Te (-7250825527545600) 17 0 [6;7];
 Te 9961050242183040000 17 0 [15];
 Te (-245945700) 17 1 [1;1;1;1;4];
 Te (-702702000) 17 1 [1;1;1;2;3];
 Te 581275094400 17 1 [1;1;1;7];
 Te (-281080800) 17 1 [1;1;2;2;2];
 Te 1174442068800 17 1 [1;1;2;6];
 Te 975112538400 17 1 [1;1;3;5];
 Te 461217556800 17 1 [1;1;4;4];
 Te (-663305152910400) 17 1 [1;1;10];
 Te 812859727680 17 1 [1;2;2;5];
 Te 1401425625600 17 1 [1;2;3;4];
 Te (-864407784240000) 17 1 [1;2;9];
 Te 212895540000 17 1 [1;3;3;3];
 Te (-688996500192000) 17 1 [1;3;8];
 Te (-609386547369600) 17 1 [1;4;7];
 Te (-576635358499200) 17 1 [1;5;6];
 Te 593291393735040000 17 1 [1;13];
 Te 194663589120 17 1 [2;2;2;4];
 Te 266131008000 17 1 [2;2;3;3];
 Te (-287624923185600) 17 1 [2;2;8];
 Te (-467028116755200) 17 1 [2;3;7];
 Te (-421154692358400) 17 1 [2;4;6];
 Te (-203992743427200) 17 1 [2;5;5];
 Te 368511441909811200 17 1 [2;12];
 Te (-193226401368000) 17 1 [3;3;6];
 Te (-356677264944000) 17 1 [3;4;5];
 Te 277978061481120000 17 1 [3;11];
 Te (-56635114536000) 17 1 [4;4;4];
 Te 231533990303616000 17 1 [4;10];
 Te 205837426162368000 17 1 [5;9];
 Te 192620714622336000 17 1 [6;8];
 Te 94260731858092800 17 1 [7;7];
 Te 2421619200 17 2 [1;1;1;1;5];
 Te 6475669200 17 2 [1;1;1;2;4];
 Te 2891889000 17 2 [1;1;1;3;3];
 Te (-6409485482400) 17 2 [1;1;1;8];
 Te 6956749800 17 2 [1;1;2;2;3];
 Te (-12778205600160) 17 2 [1;1;2;7];
 Te (-10345092357600) 17 2 [1;1;3;6];
 Te (-9432877053600) 17 2 [1;1;4;5];
 Te 8468807098752000 17 2 [1;1;11];
 Te 929728800 17 2 [1;2;2;2;2];
 Te (-8661487554720) 17 2 [1;2;2;6];
 Te (-14402969380800) 17 2 [1;2;3;5];
 Te (-6813081475200) 17 2 [1;2;4;4];
 Te 10945208773699200 17 2 [1;2;10];
 Te (-6215385290400) 17 2 [1;3;3;4];
 Te 8593662065788800 17 2 [1;3;9];
 Te 7482271955558400 17 2 [1;4;8];
 Te 6954213499833600 17 2 [1;5;7];
 Te 3397942807459200 17 2 [1;6;6];
 Te (-8562825495544320000) 17 2 [1;14];
 Te (-2008581775200) 17 2 [2;2;2;5];
 Te (-5198965611840) 17 2 [2;2;3;4];
 Te 3603874666392000 17 2 [2;2;9];
 Te (-1580801508000) 17 2 [2;3;3;3];
 Te 5753372062838400 17 2 [2;3;8];
 Te 5091467513932800 17 2 [2;4;7];
 Te 4819882488220800 17 2 [2;5;6];
 Te (-5313670382064844800) 17 2 [2;13];
 Te 2333330466667200 17 2 [3;3;7];
 Te 4205215340726400 17 2 [3;4;6];
 Te 2036616723086400 17 2 [3;5;5];
 Te (-3980191783177209600) 17 2 [3;12];
 Te 1938517773192000 17 2 [4;4;5];
 Te (-3290447503927584000) 17 2 [4;11];
 Te (-2897265530839680000) 17 2 [5;10];
 Te (-2676881633602176000) 17 2 [6;9];
 Te (-2576886091132953600) 17 2 [7;8];
 Te 37837800 18 0 [1;1;1;1;4];
 Te 108108000 18 0 [1;1;1;2;3];
 Te (-95848552800) 18 0 [1;1;1;7];
 Te 43243200 18 0 [1;1;2;2;2];
 Te (-191221430400) 18 0 [1;1;2;6];
 Te (-158399841600) 18 0 [1;1;3;5];
 Te (-74868393600) 18 0 [1;1;4;4];
 Te 110371608547200 18 0 [1;1;10];
 Te (-130923112320) 18 0 [1;2;2;5];
 Te (-225383558400) 18 0 [1;2;3;4];
 Te 142963057036800 18 0 [1;2;9];
 Te (-34208460000) 18 0 [1;3;3;3];
 Te 114119237232000 18 0 [1;3;8];
 Te 100884050467200 18 0 [1;4;7];
 Te 95439033043200 18 0 [1;5;6];
 Te (-98881898955840000) 18 0 [1;13];
 Te (-31065914880) 18 0 [2;2;2;4];
 Te (-42440112000) 18 0 [2;2;3;3];
 Te 47232731145600 18 0 [2;2;8];
 Te 76761263779200 18 0 [2;3;7];
 Te 69178289241600 18 0 [2;4;6];
 Te 33500696947200 18 0 [2;5;5];
 Te (-61040779261862400) 18 0 [2;12];
 Te 31779232848000 18 0 [3;3;6];
 Te 58628797920000 18 0 [3;4;5];
 Te (-46144886179392000) 18 0 [3;11];
 Te 9306391248000 18 0 [4;4;4];
 Te (-38459938188672000) 18 0 [4;10];
 Te (-34234914954240000) 18 0 [5;9];
 Te (-32063895287424000) 18 0 [6;8];
 Te (-15695429320771200) 18 0 [7;7];
 Te (-794593800) 18 1 [1;1;1;1;5];
 Te (-2118916800) 18 1 [1;1;1;2;4];
 Te (-945945000) 18 1 [1;1;1;3;3];
 Te 2219976158400 18 1 [1;1;1;8];
 Te (-2270268000) 18 1 [1;1;2;2;3];
 Te 4370075629920 18 1 [1;1;2;7];
 Te 3524753232000 18 1 [1;1;3;6];
 Te 3210158952000 18 1 [1;1;4;5];
 Te (-2934946167753600) 18 1 [1;1;11];
 Te (-302702400) 18 1 [1;2;2;2;2];
 Te 2928827341440 18 1 [1;2;2;6];
 Te 4855649198400 18 1 [1;2;3;5];
 Te 2295493200000 18 1 [1;2;4;4];
 Te (-3767552037849600) 18 1 [1;2;10];
 Te 2090160072000 18 1 [1;3;3;4];
 Te (-2959298229888000) 18 1 [1;3;9];
 Te (-2576309207472000) 18 1 [1;4;8];
 Te (-2393738406259200) 18 1 [1;5;7];
 Te (-1169500608460800) 18 1 [1;6;6];
 Te 2956048347732480000 18 1 [1;14];
 Te 672362570880 18 1 [2;2;2;5];
 Te 1736300966400 18 1 [2;2;3;4];
 Te (-1231845600585600) 18 1 [2;2;9];
 Te 527026500000 18 1 [2;3;3;3];
 Te (-1966103979840000) 18 1 [2;3;8];
 Te (-1739298757996800) 18 1 [2;4;7];
 Te (-1645937035142400) 18 1 [2;5;6];
 Te 1822665178414080000 18 1 [2;13];
 Te (-796936345920000) 18 1 [3;3;7];
 Te (-1435717483200000) 18 1 [3;4;6];
 Te (-695162666016000) 18 1 [3;5;5];
 Te 1366536278435328000 18 1 [3;12];
 Te (-661674149136000) 18 1 [4;4;5];
 Te 1130672905217856000 18 1 [4;11];
 Te 996602827828608000 18 1 [5;10];
 Te 921670284382848000 18 1 [6;9];
 Te 887693518359648000 18 1 [7;8];
 Te 113513400 19 0 [1;1;1;1;5];
 Te 302702400 19 0 [1;1;1;2;4];
 Te 135135000 19 0 [1;1;1;3;3];
 Te (-337015879200) 19 0 [1;1;1;8];
 Te 324324000 19 0 [1;1;2;2;3];
 Te (-656098803360) 19 0 [1;1;2;7];
 Te (-527999472000) 19 0 [1;1;3;6];
 Te (-480388708800) 19 0 [1;1;4;5];
 Te 448609886524800 19 0 [1;1;11];
 Te 43243200 19 0 [1;2;2;2;2];
 Te (-435528213120) 19 0 [1;2;2;6];
 Te (-720907387200) 19 0 [1;2;3;5];
 Te (-340641100800) 19 0 [1;2;4;4];
 Te 572629790304000 19 0 [1;2;10];
 Te (-309945636000) 19 0 [1;3;3;4];
 Te 450260788348800 19 0 [1;3;9];
 Te 391801294684800 19 0 [1;4;8];
 Te 363934338768000 19 0 [1;5;7];
 Te 177789826368000 19 0 [1;6;6];
 Te (-452254579961184000) 19 0 [1;14];
 Te (-99165306240) 19 0 [2;2;2;5];
 Te (-255826771200) 19 0 [2;2;3;4];
 Te 186033825394560 19 0 [2;2;9];
 Te (-77606100000) 19 0 [2;3;3;3];
 Te 297098390160000 19 0 [2;3;8];
 Te 262664610848640 19 0 [2;4;7];
 Te 248490821779200 19 0 [2;5;6];
 Te (-277274096779680000) 19 0 [2;13];
 Te 120469223160000 19 0 [3;3;7];
 Te 216899588505600 19 0 [3;4;6];
 Te 105000307776000 19 0 [3;5;5];
 Te (-208230244526304000) 19 0 [3;12];
 Te 99915402787200 19 0 [4;4;5];
 Te (-172369276971091200) 19 0 [4;11];
 Te (-152079002947872000) 19 0 [5;10];
 Te (-140748294105619200) 19 0 [6;9];
 Te (-135613210981248000) 19 0 [7;8]].
Definition wit0_6 : list term := [Te (-994593600) 11 0 [1;1;3];
 Te (-804323520) 11 0 [1;2;2];
 Te 205491686400 11 0 [1;6];
 Te 130767436800 11 0 [2;5];
 Te 108972864000 11 0 [3;4];
 Te (-37844718912000) 11 0 [9];
 Te (-21621600) 11 1 [1;1;1;1];
 Te 12410798400 11 1 [1;1;4];
 Te 17902684800 11 1 [1;2;3];
 Te (-3339239904000) 11 1 [1;7];
 Te 2412970560 11 1 [2;2;2];
 Te (-2054916864000) 11 1 [2;6];
 Te (-1634592960000) 11 1 [3;5];
 Te (-762810048000) 11 1 [4;4];
 Te 719049659328000 11 1 [10];
 Te 345945600 11 2 [1;1;1;2];
 Te (-85059374400) 11 2 [1;1;5];
 Te (-114940425600) 11 2 [1;2;4];
 Te (-51502651200) 11 2 [1;3;3];
 Te 28717463174400 11 2 [1;8];
 Te (-41798877120) 11 2 [2;2;3];
 Te 17312674579200 11 2 [2;7];
 Te 13328938022400 11 2 [3;6];
 Te 11878042176000 11 2 [4;5];
 Te (-7190496593280000) 11 2 [11];
 Te (-1167566400) 11 3 [1;1;1;3];
 Te (-1427025600) 11 3 [1;1;2;2];
 Te 418637419200 11 3 [1;1;6];
 Te 544864320000 11 3 [1;2;5];
 Te 456821164800 11 3 [1;3;4];
 Te (-173640475008000) 11 3 [1;9];
 Te 186680894400 11 3 [2;2;4];
 Te 167740372800 11 3 [2;3;3];
 Te (-103516437024000) 11 3 [2;8];
 Te (-77829976224000) 11 3 [3;7];
 Te (-67111716672000) 11 3 [4;6];
 Te (-32038022016000) 11 3 [5;5];
 Te 50333476152960000 11 3 [12];
 Te (-2702700) 11 4 [1;1;1;1;1];
 Te 3372969600 11 4 [1;1;1;4];
 Te 7524316800 11 4 [1;1;2;3];
 Te (-1647306460800) 11 4 [1;1;7];
 Te 2075673600 11 4 [1;2;2;2];
 Te (-2101360060800) 11 4 [1;2;6];
 Te (-1686225340800) 11 4 [1;3;5];
 Te (-788799211200) 11 4 [1;4;4];
 Te 828131496192000 11 4 [1;10];
 Te (-695869574400) 11 4 [2;2;5];
 Te (-1172236665600) 11 4 [2;3;4];
 Te 491536113868800 11 4 [2;9];
 Te (-175913337600) 11 4 [3;3;3];
 Te 363155182790400 11 4 [3;8];
 Te 305589489004800 11 4 [4;7];
 Te 282270852864000 11 4 [5;6];
 Te (-276834118841280000) 11 4 [13];
 Te 18918900 11 5 [1;1;1;1;2];
 Te (-8562153600) 11 5 [1;1;1;5];
 Te (-18291873600) 11 5 [1;1;2;4];
 Te (-8237829600) 11 5 [1;1;3;3];
 Te 5494048560000 11 5 [1;1;8];
 Te (-13881067200) 11 5 [1;2;2;3];
 Te 6948109808640 11 5 [1;2;7];
 Te 5410502697600 11 5 [1;3;6];
 Te 4841422185600 11 5 [1;4;5];
 Te (-3315197376691200) 11 5 [1;11];
 Te (-972972000) 11 5 [2;2;2;2];
 Te 2259007470720 11 5 [2;2;6];
 Te 3646699056000 11 5 [2;3;5];
 Te 1708668561600 11 5 [2;4;4];
 Te (-1968815847398400) 11 5 [2;10];
 Te 1541706566400 11 5 [3;3;4];
 Te (-1435873158720000) 11 5 [3;9];
 Te (-1185943895136000) 11 5 [4;8];
 Te (-1068701547513600) 11 5 [5;7];
 Te (-516923677670400) 11 5 [6;6];
 Te 1273436946669888000 11 5 [14];
 Te (-27027000) 11 6 [1;1;1;1;3];
 Te (-48648600) 11 6 [1;1;1;2;2];
 Te 19545926400 11 6 [1;1;1;6];
 Te 40994553600 11 6 [1;1;2;5];
 Te 34767532800 11 6 [1;1;3;4];
 Te (-16112546049600) 11 6 [1;1;9];
 Te 29837808000 11 6 [1;2;2;4];
 Te 26983756800 11 6 [1;2;3;3];
 Te (-20356130995200) 11 6 [1;2;8];
 Te (-15524395286400) 11 6 [1;3;7];
 Te (-13459964918400) 11 6 [1;4;6];
 Te (-6435755726400) 11 6 [1;5;5];
 Te 11580483987072000 11 6 [1;12];
 Te 7697289600 11 6 [2;2;2;3];
 Te (-6564162084480) 11 6 [2;2;7];
 Te (-10290930249600) 11 6 [2;3;6];
 Te (-9232336713600) 11 6 [2;4;5];
 Te 6905548121472000 11 6 [2;11];
 Te (-4175217446400) 11 6 [3;3;5];
 Te (-3917660947200) 11 6 [3;4;4];
 Te 4988824416576000 11 6 [3;10];
 Te 4061029452480000 11 6 [4;9];
 Te 3590430139296000 11 6 [5;8];
 Te 3388067530848000 11 6 [6;7];
 Te (-5093747786679552000) 11 6 [15];
 Te 37837800 11 7 [1;1;1;1;4];
 Te 129729600 11 7 [1;1;1;2;3];
 Te (-40886445600) 11 7 [1;1;1;7];
 Te 59459400 11 7 [1;1;2;2;2];
 Te (-85362076800) 11 7 [1;1;2;6];
 Te (-69794524800) 11 7 [1;1;3;5];
 Te (-32756724000) 11 7 [1;1;4;4];
 Te 42612411441600 11 7 [1;1;10];
 Te (-60972912000) 11 7 [1;2;2;5];
 Te (-104043139200) 11 7 [1;2;3;4];
 Te 54052875676800 11 7 [1;2;9];
 Te (-15762146400) 11 7 [1;3;3;3];
 Te 40636759363200 11 7 [1;3;8];
 Te 34425738547200 11 7 [1;4;7];
 Te 31885460006400 11 7 [1;5;6];
 Te (-36240102830131200) 11 7 [1;13];
 Te (-15091876800) 11 7 [2;2;2;4];
 Te (-20562141600) 11 7 [2;2;3;3];
 Te 17404678811520 11 7 [2;2;8];
 Te 26736025155840 11 7 [2;3;7];
 Te 23252992963200 11 7 [2;4;6];
 Te 11128853736000 11 7 [2;5;5];
 Te (-21753144430617600) 11 7 [2;12];
 Te 10546238102400 11 7 [3;3;6];
 Te 18964651305600 11 7 [3;4;5];
 Te (-15610278703219200) 11 7 [3;11];
 Te 2969078112000 11 7 [4;4;4];
 Te (-12562220518848000) 11 7 [4;10];
 Te (-10940377383936000) 11 7 [5;9];
 Te (-10126784424556800) 11 7 [6;8];
 Te (-4938838563859200) 11 7 [7;7];
 Te (-51351300) 11 8 [1;1;1;1;5];
 Te (-172972800) 11 8 [1;1;1;2;4];
 Te (-81081000) 11 8 [1;1;1;3;3];
 Te 79545866400 11 8 [1;1;1;8];
 Te (-227026800) 11 8 [1;1;2;2;3];
 Te 166637671200 11 8 [1;1;2;7];
 Te 133232299200 11 8 [1;1;3;6];
 Te 119999880000 11 8 [1;1;4;5];
 Te (-103497885691200) 11 8 [1;1;11];
 Te (-35135100) 11 8 [1;2;2;2;2];
 Te 118313395200 11 8 [1;2;2;6];
 Te 194853859200 11 8 [1;2;3;5];
 Te 91589097600 11 8 [1;2;4;4];
 Te (-132251024505600) 11 8 [1;2;10];
 Te 83740456800 11 8 [1;3;3;4];
 Te (-98485782595200) 11 8 [1;3;9];
 Te (-81994815302400) 11 8 [1;4;8];
 Te (-74157244761600) 11 8 [1;5;7];
 Te (-35908374902400) 11 8 [1;6;6];
 Te 103543150943232000 11 8 [1;14];
 Te 28713484800 11 8 [2;2;2;5];
 Te 73945872000 11 8 [2;2;3;4];
 Te (-42714249177600) 11 8 [2;2;9];
 Te 22508085600 11 8 [2;3;3;3];
 Te (-64698746112000) 11 8 [2;3;8];
 Te (-54996788246400) 11 8 [2;4;7];
 Te (-51015646281600) 11 8 [2;5;6];
 Te 62670854518272000 11 8 [2;13];
 Te (-25026915513600) 11 8 [3;3;7];
 Te (-43658421206400) 11 8 [3;4;6];
 Te (-20912281790400) 11 8 [3;5;5];
 Te 44772528632832000 11 8 [3;12];
 Te (-19665018172800) 11 8 [4;4;5];
 Te 35703153053568000 11 8 [4;11];
 Te 30718952199936000 11 8 [5;10];
 Te 28002352105728000 11 8 [6;9];
 Te 26789951155968000 11 8 [7;8];
 Te 23423400 12 0 [1;1;1;1];
 Te (-12929716800) 12 0 [1;1;4];
 Te (-18273340800) 12 0 [1;2;3];
 Te 3413445235200 12 0 [1;7];
 Te (-2338839360) 12 0 [2;2;2];
 Te 2037792556800 12 0 [2;6];
 Te 1642376736000 12 0 [3;5];
 Te 759783024000 12 0 [4;4];
 Te (-719049659328000) 12 0 [10];
 Te (-761080320) 12 1 [1;1;1;2];
 Te 184086302400 12 1 [1;1;5];
 Te 248302454400 12 1 [1;2;4];
 Te 111104136000 12 1 [1;3;3];
 Te (-61219398240000) 12 1 [1;8];
 Te 89902612800 12 1 [2;2;3];
 Te (-36731638944000) 12 1 [2;7];
 Te (-28255106880000) 12 1 [3;6];
 Te (-25172731584000) 12 1 [4;5];
 Te 15100042845888000 12 1 [11];
 Te 3999996000 12 2 [1;1;1;3];
 Te 4994589600 12 2 [1;1;2;2];
 Te (-1416647232000) 12 2 [1;1;6];
 Te (-1866030566400) 12 2 [1;2;5];
 Te (-1559201529600) 12 2 [1;3;4];
 Te 579914663328000 12 2 [1;9];
 Te (-648166147200) 12 2 [2;2;4];
 Te (-578890540800) 12 2 [2;3;3];
 Te 349061877964800 12 2 [2;8];
 Te 261334052179200 12 2 [3;7];
 Te 225410369184000 12 2 [4;6];
 Te 107528973552000 12 2 [5;5];
 Te (-166100471304768000) 12 2 [12];
 Te 12612600 12 3 [1;1;1;1;1];
 Te (-16158542400) 12 3 [1;1;1;4];
 Te (-36985908960) 12 3 [1;1;2;3];
 Te 7771581417600 12 3 [1;1;7];
 Te (-10469178720) 12 3 [1;2;2;2];
 Te 10111903401600 12 3 [1;2;6];
 Te 8100056764800 12 3 [1;3;5];
 Te 3786590808000 12 3 [1;4;4];
 Te (-3853853875872000) 12 3 [1;10];
 Te 3416299286400 12 3 [2;2;5];
 Te 5742351014400 12 3 [2;3;4];
 Te (-2326337133120000) 12 3 [2;9];
 Te 860292576000 12 3 [3;3;3];
 Te (-1714143150720000) 12 3 [3;8];
 Te (-1441010450880000) 12 3 [4;7];
 Te (-1330558669440000) 12 3 [5;6];
 Te 1273436946669888000 12 3 [13];
 Te (-121621500) 12 4 [1;1;1;1;2];
 Te 54075621600 12 4 [1;1;1;5];
 Te 118598800320 12 4 [1;1;2;4];
 Te 53805351600 12 4 [1;1;3;3];
 Te (-33948939024000) 12 4 [1;1;8];
 Te 92497204800 12 4 [1;2;2;3];
 Te (-43916842569600) 12 4 [1;2;7];
 Te (-34278452208000) 12 4 [1;3;6];
 Te (-30626823427200) 12 4 [1;4;5];
 Te 20152312820640000 12 4 [1;11];
 Te 6587020440 12 4 [2;2;2;2];
 Te (-14583682713600) 12 4 [2;2;6];
 Te (-23609082182400) 12 4 [2;3;5];
 Te (-11041842240000) 12 4 [2;4;4];
 Te 12204921849120000 12 4 [2;10];
 Te (-10002448684800) 12 4 [3;3;4];
 Te 8907978983904000 12 4 [3;9];
 Te 7343844764256000 12 4 [4;8];
 Te 6614964195840000 12 4 [5;7];
 Te 3198762206640000 12 4 [6;6];
 Te (-7640621680019328000) 12 4 [14];
 Te 229729500 12 5 [1;1;1;1;3];
 Te 410810400 12 5 [1;1;1;2;2];
 Te (-156799843200) 12 5 [1;1;1;6];
 Te (-336739122720) 12 5 [1;1;2;5];
 Te (-289167278400) 12 5 [1;1;3;4];
 Te 125332804396800 12 5 [1;1;9];
 Te (-250624614240) 12 5 [1;2;2;4];
 Te (-229634364960) 12 5 [1;2;3;3];
 Te 161867513808000 12 5 [1;2;8];
 Te 124322470272000 12 5 [1;3;7];
 Te 107637168038400 12 5 [1;4;6];
 Te 51441937747200 12 5 [1;5;5];
 Te (-88227393199545600) 12 5 [1;12];
 Te (-65928582720) 12 5 [2;2;2;3];
 Te 53237758654080 12 5 [2;2;7];
 Te 84071786198400 12 5 [2;3;6];
 Te 75326973321600 12 5 [2;4;5];
 Te (-53652458001542400) 12 5 [2;11];
 Te 34344021254400 12 5 [3;3;5];
 Te 32193697536000 12 5 [3;4;4];
 Te (-38935537280640000) 12 5 [3;10];
 Te (-31638185010432000) 12 5 [4;9];
 Te (-27949009888800000) 12 5 [5;8];
 Te (-26364840229728000) 12 5 [6;7];
 Te 38203108400096640000 12 5 [15];
 Te 45045 12 6 [1;1;1;1;1;1];
 Te (-411711300) 12 6 [1;1;1;1;4];
 Te (-1405404000) 12 6 [1;1;1;2;3];
 Te 405913828320 12 6 [1;1;1;7];
 Te (-628828200) 12 6 [1;1;2;2;2];
 Te 863363460960 12 6 [1;1;2;6];
 Te 718053336000 12 6 [1;1;3;5];
 Te 337891554000 12 6 [1;1;4;4];
 Te (-405810405000000) 12 6 [1;1;10];
 Te 626775589440 12 6 [1;2;2;5];
 Te 1088742695040 12 6 [1;2;3;4];
 Te (-524782956297600) 12 6 [1;2;9];
 Te 167416048800 12 6 [1;3;3;3];
 Te (-398980790208000) 12 6 [1;3;8];
 Te (-337950451238400) 12 6 [1;4;7];
 Te (-312712681881600) 12 6 [1;5;6];
 Te 336155715735840000 12 6 [1;13];
 Te 157599842400 12 6 [2;2;2;4];
 Te 217556539200 12 6 [2;2;3;3];
 Te (-171877449744000) 12 6 [2;2;8];
 Te (-266882587171200) 12 6 [2;3;7];
 Te (-232183032681600) 12 6 [2;4;6];
 Te (-111030505185600) 12 6 [2;5;5];
 Te 205440056613792000 12 6 [2;12];
 Te (-106394766192000) 12 6 [3;3;6];
 Te (-191342709043200) 12 6 [3;4;5];
 Te 148579479528480000 12 6 [3;11];
 Te (-29982858048000) 12 6 [4;4;4];
 Te 119463533725536000 12 6 [4;10];
 Te 103917573920160000 12 6 [5;9];
 Te 96145278989760000 12 6 [6;8];
 Te 46881915063984000 12 6 [7;7];
 Te (-270270) 12 7 [1;1;1;1;1;2];
 Te 699999300 12 7 [1;1;1;1;5];
 Te 2335132800 12 7 [1;1;1;2;4];
 Te 1108107000 12 7 [1;1;1;3;3];
 Te (-958247690400) 12 7 [1;1;1;8];
 Te 2989186200 12 7 [1;1;2;2;3];
 Te (-2031824995200) 12 7 [1;1;2;7];
 Te (-1657684828800) 12 7 [1;1;3;6];
 Te (-1501295796000) 12 7 [1;1;4;5];
 Te 1181812656024000 12 7 [1;1;11];
 Te 448648200 12 7 [1;2;2;2;2];
 Te (-1457317461600) 12 7 [1;2;2;6];
 Te (-2447400795840) 12 7 [1;2;3;5];
 Te (-1157642085600) 12 7 [1;2;4;4];
 Te 1533569777625600 12 7 [1;2;10];
 Te (-1072993521600) 12 7 [1;3;3;4];
 Te 1158419017641600 12 7 [1;3;9];
 Te 966358903910400 12 7 [1;4;8];
 Te 873000294566400 12 7 [1;5;7];
 Te 422573415264000 12 7 [1;6;6];
 Te (-1144367532820512000) 12 7 [1;14];
 Te (-357275318400) 12 7 [2;2;2;5];
 Te (-936894198240) 12 7 [2;2;3;4];
 Te 502096918752000 12 7 [2;2;9];
 Te (-288544576320) 12 7 [2;3;3;3];
 Te 770656205404800 12 7 [2;3;8];
 Te 656614435276800 12 7 [2;4;7];
 Te 608563629273600 12 7 [2;5;6];
 Te (-703446281720582400) 12 7 [2;13];
 Te 302013251654400 12 7 [3;3;7];
 Te 527990909846400 12 7 [3;4;6];
 Te 252750493195200 12 7 [3;5;5];
 Te (-507773947057977600) 12 7 [3;12];
 Te 238370356224000 12 7 [4;4;5];
 Te (-405149977552320000) 12 7 [4;11];
 Te (-348142473911232000) 12 7 [5;10];
 Te (-317144737990080000) 12 7 [6;9];
 Te (-303326107051968000) 12 7 [7;8];
 Te 415134720 13 0 [1;1;1;2];
 Te (-100410710400) 13 0 [1;1;5];
 Te (-135437702400) 13 0 [1;2;4];
 Te (-60602256000) 13 0 [1;3;3];
 Te 33392399040000 13 0 [1;8];
 Te (-49037788800) 13 0 [2;2;3];
 Te 20035439424000 13 0 [2;7];
 Te 15411876480000 13 0 [3;6];
 Te 13730580864000 13 0 [4;5];
 Te (-8236387006848000) 13 0 [11];
 Te (-4562157600) 13 1 [1;1;1;3];
 Te (-5747021280) 13 1 [1;1;2;2];
 Te 1618247030400 13 1 [1;1;6];
 Te 2148322176000 13 1 [1;2;5];
 Te 1798052256000 13 1 [1;3;4];
 Te (-662282580960000) 13 1 [1;9];
 Te 749577628800 13 1 [2;2;4];
 Te 672184656000 13 1 [2;3;3];
 Te (-400708788480000) 13 1 [2;8];
 Te (-300531591360000) 13 1 [3;7];
 Te (-258919524864000) 13 1 [4;6];
 Te (-123575227776000) 13 1 [5;5];
 Te 189436901157504000 13 1 [12];
 Te (-21621600) 13 2 [1;1;1;1;1];
 Te 29081052000 13 2 [1;1;1;4];
 Te 67558851360 13 2 [1;1;2;3];
 Te (-13973434675200) 13 2 [1;1;7];
 Te 19251872640 13 2 [1;2;2;2];
 Te (-18372824870400) 13 2 [1;2;6];
 Te (-14779833868800) 13 2 [1;3;5];
 Te (-6908101200000) 13 2 [1;4;4];
 Te 6906661201440000 13 2 [1;10];
 Te (-6260491036800) 13 2 [2;2;5];
 Te (-10565697542400) 13 2 [2;3;4];
 Te 4201876879200000 13 2 [2;9];
 Te (-1589558256000) 13 2 [3;3;3];
 Te 3105493110720000 13 2 [3;8];
 Te 2609230688064000 13 2 [4;7];
 Te 2408736185856000 13 2 [5;6];
 Te (-2273242813890048000) 13 2 [13];
 Te 302702400 13 3 [1;1;1;1;2];
 Te (-137275538400) 13 3 [1;1;1;5];
 Te (-305145640800) 13 3 [1;1;2;4];
 Te (-139416076800) 13 3 [1;1;3;3];
 Te 85484541542400 13 3 [1;1;8];
 Te (-240466786560) 13 3 [1;2;2;3];
 Te 111736104480000 13 3 [1;2;7];
 Te 87744950092800 13 3 [1;3;6];
 Te 78483813408000 13 3 [1;4;5];
 Te (-50333476152960000) 13 3 [1;11];
 Te (-17241063840) 13 3 [2;2;2;2];
 Te 37481216572800 13 3 [2;2;6];
 Te 60970317408000 13 3 [2;3;5];
 Te 28562566032000 13 3 [2;4;4];
 Te (-30748834116000000) 13 3 [2;10];
 Te 25969456656000 13 3 [3;3;4];
 Te (-22534303952160000) 13 3 [3;9];
 Te (-18586209305664000) 13 3 [4;8];
 Te (-16732674294336000) 13 3 [5;7];
 Te (-8091235152000000) 13 3 [6;6];
 Te 18943690115750400000 13 3 [14];
 Te (-783783000) 13 4 [1;1;1;1;3];
 Te (-1383782400) 13 4 [1;1;1;2;2];
 Te 528064336800 13 4 [1;1;1;6];
 Te 1143977234400 13 4 [1;1;2;5];
 Te 992647656000 13 4 [1;1;3;4];
 Te (-414399672086400) 13 4 [1;1;9];
 Te 859977518400 13 4 [1;2;2;4];
 Te 791817586560 13 4 [1;2;3;3];
 Te (-539878033094400) 13 4 [1;2;8];
 Te (-417633831014400) 13 4 [1;3;7];
 Te (-362552718528000) 13 4 [1;4;6];
 Te (-173282421312000) 13 4 [1;5;5];
 Te 287619863731200000 13 4 [1;12];
 Te 227986799040 13 4 [2;2;2;3];
 Te (-179263474790400) 13 4 [2;2;7];
 Te (-284811477350400) 13 4 [2;3;6];
 Te (-255829365792000) 13 4 [2;4;5];
 Te 176356390129920000 13 4 [2;11];
 Te (-117030517718400) 13 4 [3;3;5];
 Te (-109965295440000) 13 4 [3;4;4];
 Te 128621955702240000 13 4 [3;10];
 Te 104666248630944000 13 4 [4;9];
 Te 92428105625856000 13 4 [5;8];
 Te 87169573370880000 13 4 [6;7];
 Te (-123133985752377600000) 13 4 [15];
 Te (-270270) 13 5 [1;1;1;1;1;1];
 Te 1854052200 13 5 [1;1;1;1;4];
 Te 6183777600 13 5 [1;1;1;2;3];
 Te (-1743202581120) 13 5 [1;1;1;7];
 Te 2724321600 13 5 [1;1;2;2;2];
 Te (-3718971416160) 13 5 [1;1;2;6];
 Te (-3126526603200) 13 5 [1;1;3;5];
 Te (-1478787710400) 13 5 [1;1;4;4];
 Te 1690657163395200 13 5 [1;1;10];
 Te (-2717381066400) 13 5 [1;2;2;5];
 Te (-4759692537600) 13 5 [1;2;3;4];
 Te 2199891248755200 13 5 [1;2;9];
 Te (-734334400800) 13 5 [1;3;3;3];
 Te 1685442811852800 13 5 [1;3;8];
 Te 1433304512640000 13 5 [1;4;7];
 Te 1327256791660800 13 5 [1;5;6];
 Te (-1371587225168160000) 13 5 [1;13];
 Te (-687566880000) 13 5 [2;2;2;4];
 Te (-953746073280) 13 5 [2;2;3;3];
 Te 726002128051200 13 5 [2;2;8];
 Te 1135416291609600 13 5 [2;3;7];
 Te 991119095366400 13 5 [2;4;6];
 Te 474382228320000 13 5 [2;5;5];
 Te (-844164300051072000) 13 5 [2;12];
 Te 455591414678400 13 5 [3;3;6];
 Te 822145772448000 13 5 [3;4;5];
 Te (-614030564347200000) 13 5 [3;11];
 Te 129152303280000 13 5 [4;4;4];
 Te (-494829717494112000) 13 5 [4;10];
 Te (-430475886064224000) 13 5 [5;9];
 Te (-398142711046080000) 13 5 [6;8];
 Te (-194124913766784000) 13 5 [7;7];
 Te 2162160 13 6 [1;1;1;1;1;2];
 Te (-4043239200) 13 6 [1;1;1;1;5];
 Te (-13059446400) 13 6 [1;1;1;2;4];
 Te (-6162156000) 13 6 [1;1;1;3;3];
 Te 5101746249600 13 6 [1;1;1;8];
 Te (-16313497200) 13 6 [1;1;2;2;3];
 Te 10789040021760 13 6 [1;1;2;7];
 Te 8886953275200 13 6 [1;1;3;6];
 Te 8110521619200 13 6 [1;1;4;5];
 Te (-6026660178739200) 13 6 [1;1;11];
 Te (-2399997600) 13 6 [1;2;2;2;2];
 Te 7749799817760 13 6 [1;2;2;6];
 Te 13141997668800 13 6 [1;2;3;5];
 Te 6239907273600 13 6 [1;2;4;4];
 Te (-7845878078438400) 13 6 [1;2;10];
 Te 5796426636000 13 6 [1;3;3;4];
 Te (-5973026848588800) 13 6 [1;3;9];
 Te (-5006991749760000) 13 6 [1;4;8];
 Te (-4530956247417600) 13 6 [1;5;7];
 Te (-2193450952492800) 13 6 [1;6;6];
 Te 5675099436246240000 13 6 [1;14];
 Te 1905662959200 13 6 [2;2;2;5];
 Te 5035973342400 13 6 [2;2;3;4];
 Te (-2581463623939200) 13 6 [2;2;9];
 Te 1557105469920 13 6 [2;3;3;3];
 Te (-3993469390310400) 13 6 [2;3;8];
 Te (-3416915761459200) 13 6 [2;4;7];
 Te (-3171927638880000) 13 6 [2;5;6];
 Te 3507164713372320000 13 6 [2;13];
 Te (-1576216196755200) 13 6 [3;3;7];
 Te (-2766657557664000) 13 6 [3;4;6];
 Te (-1326273700752000) 13 6 [3;5;5];
 Te 2547517253561280000 13 6 [3;12];
 Te (-1253830097520000) 13 6 [4;4;5];
 Te 2038710590908992000 13 6 [4;11];
 Te 1752995207003040000 13 6 [5;10];
 Te 1596473730659808000 13 6 [6;9];
 Te 1526618287434240000 13 6 [7;8];
 Te 1729728000 14 0 [1;1;1;3];
 Te 2181619440 14 0 [1;1;2;2];
 Te (-620756136000) 14 0 [1;1;6];
 Te (-828193766400) 14 0 [1;2;5];
 Te (-696215520000) 14 0 [1;3;4];
 Te 256311959904000 14 0 [1;9];
 Te (-287869982400) 14 0 [2;2;4];
 Te (-261405144000) 14 0 [2;3;3];
 Te 155122871904000 14 0 [2;8];
 Te 117109504512000 14 0 [3;7];
 Te 100563791328000 14 0 [4;6];
 Te 48109042800000 14 0 [5;5];
 Te (-73669906005696000) 14 0 [12];
 Te 16216200 14 1 [1;1;1;1;1];
 Te (-23221598400) 14 1 [1;1;1;4];
 Te (-54359791200) 14 1 [1;1;2;3];
 Te 11260659009600 14 1 [1;1;7];
 Te (-15428556000) 14 1 [1;2;2;2];
 Te 14872460803200 14 1 [1;2;6];
 Te 12049285248000 14 1 [1;3;5];
 Te 5633291664000 14 1 [1;4;4];
 Te (-5588976897504000) 14 1 [1;10];
 Te 5075411140800 14 1 [2;2;5];
 Te 8627018400000 14 1 [2;3;4];
 Te (-3406024702080000) 14 1 [2;9];
 Te 1307025720000 14 1 [3;3;3];
 Te (-2532256927200000) 14 1 [3;8];
 Te (-2127095818848000) 14 1 [4;7];
 Te (-1963473063552000) 14 1 [5;6];
 Te 1841747650142400000 14 1 [13];
 Te (-367567200) 14 2 [1;1;1;1;2];
 Te 173945772000 14 2 [1;1;1;5];
 Te 388886097600 14 2 [1;1;2;4];
 Te 178779744000 14 2 [1;1;3;3];
 Te (-108525296880000) 14 2 [1;1;8];
 Te 306766025280 14 2 [1;2;2;3];
 Te (-142334387395200) 14 2 [1;2;7];
 Te (-112584536064000) 14 2 [1;3;6];
 Te (-100951250400000) 14 2 [1;4;5];
 Te 63799315227648000 14 2 [1;11];
 Te 21973414320 14 2 [2;2;2;2];
 Te (-47909141280000) 14 2 [2;2;6];
 Te (-78379251350400) 14 2 [2;3;5];
 Te (-36825260472000) 14 2 [2;4;4];
 Te 39062630775168000 14 2 [2;10];
 Te (-33593479920000) 14 2 [3;3;4];
 Te 28776456412704000 14 2 [3;9];
 Te 23774646063168000 14 2 [4;8];
 Te 21395423361312000 14 2 [5;7];
 Te 10346564788560000 14 2 [6;6];
 Te (-23942719451851200000) 14 2 [14];
 Te 1383782400 14 3 [1;1;1;1;3];
 Te 2406484080 14 3 [1;1;1;2;2];
 Te (-945793648800) 14 3 [1;1;1;6];
 Te (-2052084434400) 14 3 [1;1;2;5];
 Te (-1794682375200) 14 3 [1;1;3;4];
 Te 736302398832000 14 3 [1;1;9];
 Te (-1546197681600) 14 3 [1;2;2;4];
 Te (-1426061894400) 14 3 [1;2;3;3];
 Te 961033244371200 14 3 [1;2;8];
 Te 748206646387200 14 3 [1;3;7];
 Te 652267455840000 14 3 [1;4;6];
 Te 311962066416000 14 3 [1;5;5];
 Te (-506995377977088000) 14 3 [1;12];
 Te (-409936269600) 14 3 [2;2;2;3];
 Te 320173171718400 14 3 [2;2;7];
 Te 511399531843200 14 3 [2;3;6];
 Te 461136836160000 14 3 [2;4;5];
 Te (-311511922866144000) 14 3 [2;11];
 Te 211197194208000 14 3 [3;3;5];
 Te 199082827944000 14 3 [3;4;4];
 Te (-228242073163104000) 14 3 [3;10];
 Te (-186247960778880000) 14 3 [4;9];
 Te (-164495409990912000) 14 3 [5;8];
 Te (-155114372020608000) 14 3 [6;7];
 Te 215484475066660800000 14 3 [15];
 Te 675675 14 4 [1;1;1;1;1;1];
 Te (-4472968500) 14 4 [1;1;1;1;4];
 Te (-14540526000) 14 4 [1;1;1;2;3];
 Te 4139152617600 14 4 [1;1;1;7];
 Te (-6322155840) 14 4 [1;1;2;2;2];
 Te 8804531736000 14 4 [1;1;2;6];
 Te 7451452008000 14 4 [1;1;3;5];
 Te 3540515378400 14 4 [1;1;4;4];
 Te (-3938169683448000) 14 4 [1;1;10];
 Te 6436144915200 14 4 [1;2;2;5];
 Te 11314892160000 14 4 [1;2;3;4];
 Te (-5124397556678400) 14 4 [1;2;9];
 Te 1744260804000 14 4 [1;3;3;3];
 Te (-3947109998832000) 14 4 [1;3;8];
 Te (-3373617729081600) 14 4 [1;4;7];
 Te (-3129580005552000) 14 4 [1;5;6];
 Te 3148358933367648000 14 4 [1;13];
 Te 1628795900160 14 4 [2;2;2;4];
 Te 2261146155840 14 4 [2;2;3;3];
 Te (-1694685656664000) 14 4 [2;2;8];
 Te (-2663854892899200) 14 4 [2;3;7];
 Te (-2335459459132800) 14 4 [2;4;6];
 Te (-1119550880448000) 14 4 [2;5;5];
 Te 1940355505696608000 14 4 [2;12];
 Te (-1073616872328000) 14 4 [3;3;6];
 Te (-1945400432976000) 14 4 [3;4;5];
 Te 1417221075318048000 14 4 [3;11];
 Te (-306398396304000) 14 4 [4;4;4];
 Te 1145892654754848000 14 4 [4;10];
 Te 997753752515520000 14 4 [5;9];
 Te 922706476211520000 14 4 [6;8];
 Te 449865318782880000 14 4 [7;7];
 Te (-7297290) 14 5 [1;1;1;1;1;2];
 Te 12775662900 14 5 [1;1;1;1;5];
 Te 39956716800 14 5 [1;1;1;2;4];
 Te 18670251600 14 5 [1;1;1;3;3];
 Te (-15409022428800) 14 5 [1;1;1;8];
 Te 48776167440 14 5 [1;1;2;2;3];
 Te (-32354730888480) 14 5 [1;1;2;7];
 Te (-26769465122400) 14 5 [1;1;3;6];
 Te (-24584688928800) 14 5 [1;1;4;5];
 Te 17649830782584000 14 5 [1;1;11];
 Te 7073506440 14 5 [1;2;2;2;2];
 Te (-23172145476480) 14 5 [1;2;2;6];
 Te (-39462669417600) 14 5 [1;2;3;5];
 Te (-18781942608000) 14 5 [1;2;4;4];
 Te 22930820139427200 14 5 [1;2;10];
 Te (-17413137799200) 14 5 [1;3;3;4];
 Te 17532679115952000 14 5 [1;3;9];
 Te 14773410956304000 14 5 [1;4;8];
 Te 13406753728368000 14 5 [1;5;7];
 Te 6494237830080000 14 5 [1;6;6];
 Te (-16265262818829024000) 14 5 [1;14];
 Te (-5689554773760) 14 5 [2;2;2;5];
 Te (-15070140914400) 14 5 [2;2;3;4];
 Te 7546403913048000 14 5 [2;2;9];
 Te (-4659266383200) 14 5 [2;3;3;3];
 Te 11729568205555200 14 5 [2;3;8];
 Te 10082414566224000 14 5 [2;4;7];
 Te 9382860930643200 14 5 [2;5;6];
 Te (-10054798227137664000) 14 5 [2;13];
 Te 4648940778081600 14 5 [3;3;7];
 Te 8194843697040000 14 5 [3;4;6];
 Te 3935726226432000 14 5 [3;5;5];
 Te (-7331070801678624000) 14 5 [3;12];
 Te 3727392596928000 14 5 [4;4;5];
 Te (-5887578037172832000) 14 5 [4;11];
 Te (-5070393716195808000) 14 5 [5;10];
 Te (-4618369141626240000) 14 5 [6;9];
 Te (-4415850919928448000) 14 5 [7;8];
 Te (-4504500) 15 0 [1;1;1;1;1];
 Te 6926119200 15 0 [1;1;1;4];
 Te 16262532000 15 0 [1;1;2;3];
 Te (-3413445235200) 15 0 [1;1;7];
 Te 4570188480 15 0 [1;2;2;2];
 Te (-4512254947200) 15 0 [1;2;6];
 Te (-3685617936000) 15 0 [1;3;5];
 Te (-1723890168000) 15 0 [1;4;4];
 Te 1710466613856000 15 0 [1;10];
 Te (-1536517382400) 15 0 [2;2;5];
 Te (-2633510880000) 15 0 [2;3;4];
 Te 1040729770080000 15 0 [2;9];
 Te (-402161760000) 15 0 [3;3;3];
 Te 779155977600000 15 0 [3;8];
 Te 654491021184000 15 0 [4;7];
 Te 604145558016000 15 0 [5;6];
 Te (-566691584659200000) 15 0 [13];
 Te 218918700 15 1 [1;1;1;1;2];
 Te (-109621512000) 15 1 [1;1;1;5];
 Te (-245318673600) 15 1 [1;1;2;4];
 Te (-113374404000) 15 1 [1;1;3;3];
 Te 69010958016000 15 1 [1;1;8];
 Te (-192787452000) 15 1 [1;2;2;3];
 Te 90493401398400 15 1 [1;2;7];
 Te 72093333312000 15 1 [1;3;6];
 Te 64838854080000 15 1 [1;4;5];
 Te (-40724357978304000) 15 1 [1;11];
 Te (-13710565440) 15 1 [2;2;2;2];
 Te 30438456048000 15 1 [2;2;6];
 Te 50123625552000 15 1 [2;3;5];
 Te 23606246664000 15 1 [2;4;4];
 Te (-24905265473088000) 15 1 [2;10];
 Te 21612951360000 15 1 [3;3;4];
 Te (-18449300469600000) 15 1 [3;9];
 Te (-15271457160960000) 15 1 [4;8];
 Te (-13744311444864000) 15 1 [5;7];
 Te (-6645601138176000) 15 1 [6;6];
 Te 15300672785798400000 15 1 [14];
 Te (-1340539200) 15 2 [1;1;1;1;3];
 Te (-2295132840) 15 2 [1;1;1;2;2];
 Te 945274730400 15 2 [1;1;1;6];
 Te 2047327682400 15 2 [1;1;2;5];
 Te 1800498585600 15 2 [1;1;3;4];
 Te (-736024128840000) 15 2 [1;1;9];
 Te 1538889580800 15 2 [1;2;2;4];
 Te 1420631784000 15 2 [1;2;3;3];
 Te (-959363624419200) 15 2 [1;2;8];
 Te (-751149173174400) 15 2 [1;3;7];
 Te (-657662909904000) 15 2 [1;4;6];
 Te (-314917955352000) 15 2 [1;5;5];
 Te 505622646809280000 15 2 [1;12];
 Te 406101833280 15 2 [2;2;2;3];
 Te (-319462512969600) 15 2 [2;2;7];
 Te (-512897908723200) 15 2 [2;3;6];
 Te (-464242562784000) 15 2 [2;4;5];
 Te 310302612075456000 15 2 [2;11];
 Te (-212816219616000) 15 2 [3;3;5];
 Te (-201136663728000) 15 2 [3;4;4];
 Te 228342992413536000 15 2 [3;10];
 Te 186869430427680000 15 2 [4;9];
 Te 165149901012096000 15 2 [5;8];
 Te 155718517578624000 15 2 [6;7];
 Te (-214209419001177600000) 15 2 [15];
 Te (-900900) 15 3 [1;1;1;1;1;1];
 Te 6266660400 15 3 [1;1;1;1;4];
 Te 19902682800 15 3 [1;1;1;2;3];
 Te (-5831302276800) 15 3 [1;1;1;7];
 Te 8545937400 15 3 [1;1;2;2;2];
 Te (-12345068736000) 15 3 [1;1;2;6];
 Te (-10490908428000) 15 3 [1;1;3;5];
 Te (-5000319324000) 15 3 [1;1;4;4];
 Te 5495368558680000 15 3 [1;1;10];
 Te (-8995320734400) 15 3 [1;2;2;5];
 Te (-15839224315200) 15 3 [1;2;3;4];
 Te 7131503354976000 15 3 [1;2;9];
 Te (-2437943508000) 15 3 [1;3;3;3];
 Te 5515867781424000 15 3 [1;3;8];
 Te 4736840236128000 15 3 [1;4;7];
 Te 4404138298560000 15 3 [1;5;6];
 Te (-4355294681241504000) 15 3 [1;13];
 Te (-2268275724000) 15 3 [2;2;2;4];
 Te (-3146313456000) 15 3 [2;2;3;3];
 Te 2355833752272000 15 3 [2;2;8];
 Te 3718106638646400 15 3 [2;3;7];
 Te 3273860077488000 15 3 [2;4;6];
 Te 1571783725512000 15 3 [2;5;5];
 Te (-2680028816617152000) 15 3 [2;12];
 Te 1504035685152000 15 3 [3;3;6];
 Te 2735205913440000 15 3 [3;4;5];
 Te (-1964018776303584000) 15 3 [3;11];
 Te 431699027760000 15 3 [4;4;4];
 Te (-1593242597026080000) 15 3 [4;10];
 Te (-1389040319066400000) 15 3 [5;9];
 Te (-1284765874584192000) 15 3 [6;8];
 Te (-626347907273088000) 15 3 [7;7];
 Te 13513500 15 4 [1;1;1;1;1;2];
 Te (-24213489300) 15 4 [1;1;1;1;5];
 Te (-73697223600) 15 4 [1;1;1;2;4];
 Te (-34118884800) 15 4 [1;1;1;3;3];
 Te 28667517278400 15 4 [1;1;1;8];
 Te (-88123155120) 15 4 [1;1;2;2;3];
 Te 59732697024000 15 4 [1;1;2;7];
 Te 49527777499200 15 4 [1;1;3;6];
 Te 45674808379200 15 4 [1;1;4;5];
 Te (-32196394614384000) 15 4 [1;1;11];
 Te (-12630798180) 15 4 [1;2;2;2;2];
 Te 42561492573600 15 4 [1;2;2;6];
 Te 72584841700800 15 4 [1;2;3;5];
 Te 34599180844800 15 4 [1;2;4;4];
 Te (-41657574342384000) 15 4 [1;2;10];
 Te 31988622837600 15 4 [1;3;3;4];
 Te (-31939273141776000) 15 4 [1;3;9];
 Te (-27036455558112000) 15 4 [1;4;8];
 Te (-24609474201312000) 15 4 [1;5;7];
 Te (-11932133581368000) 15 4 [1;6;6];
 Te 29225904139688256000 15 4 [1;14];
 Te 10405991138400 15 4 [2;2;2;5];
 Te 27556735377600 15 4 [2;2;3;4];
 Te (-13678138840766400) 15 4 [2;2;9];
 Te 8504748252000 15 4 [2;3;3;3];
 Te (-21326672121955200) 15 4 [2;3;8];
 Te (-18411429285849600) 15 4 [2;4;7];
 Te (-17177295255120000) 15 4 [2;5;6];
 Te 18026705695654656000 15 4 [2;13];
 Te (-8477070701299200) 15 4 [3;3;7];
 Te (-15000716674944000) 15 4 [3;4;6];
 Te (-7215809432832000) 15 4 [3;5;5];
 Te 13177075268316960000 15 4 [3;12];
 Te (-6843128075784000) 15 4 [4;4;5];
 Te 10617839913608928000 15 4 [4;11];
 Te 9160676469584640000 15 4 [5;10];
 Te 8348235555756096000 15 4 [6;9];
 Te 7982172494360064000 15 4 [7;8];
 Te (-51351300) 16 0 [1;1;1;1;2];
 Te 27437810400 16 0 [1;1;1;5];
 Te 61271290080 16 0 [1;1;2;4];
 Te 28444759200 16 0 [1;1;3;3];
 Te (-17515831132800) 16 0 [1;1;8];
 Te 47872075680 16 0 [1;2;2;3];
 Te (-22927423559040) 16 0 [1;2;7];
 Te (-18386835667200) 16 0 [1;3;6];
 Te (-16586660563200) 16 0 [1;4;5];
 Te 10422197404819200 16 0 [1;11];
 Te 3364815168 16 0 [2;2;2;2];
 Te (-7685856097920) 16 0 [2;2;6];
 Te (-12753009360000) 16 0 [2;3;5];
 Te (-6010266225600) 16 0 [2;4;4];
 Te 6355292758214400 16 0 [2;10];
 Te (-5528603808000) 16 0 [3;3;4];
 Te 4735353534912000 16 0 [3;9];
 Te 3924984615552000 16 0 [4;8];
 Te 3535428421324800 16 0 [5;7];
 Te 1708370941939200 16 0 [6;6];
 Te (-3934458716348160000) 16 0 [14];
 Te 678377700 16 1 [1;1;1;1;3];
 Te 1143782640 16 1 [1;1;1;2;2];
 Te (-498745447200) 16 1 [1;1;1;6];
 Te (-1076651896320) 16 1 [1;1;2;5];
 Te (-950377428000) 16 1 [1;1;3;4];
 Te 390832733491200 16 1 [1;1;9];
 Te (-805037032800) 16 1 [1;2;2;4];
 Te (-744138252000) 16 1 [1;2;3;3];
 Te 508050173030400 16 1 [1;2;8];
 Te 399841935292800 16 1 [1;3;7];
 Te 351386632396800 16 1 [1;4;6];
 Te 168523562188800 16 1 [1;5;5];
 Te (-269178502713120000) 16 1 [1;12];
 Te (-210912530400) 16 1 [2;2;2;3];
 Te 168698399950080 16 1 [2;2;7];
 Te 272302170940800 16 1 [2;3;6];
 Te 247215839270400 16 1 [2;4;5];
 Te (-164727740136960000) 16 1 [2;11];
 Te 113522481072000 16 1 [3;3;5];
 Te 107451784440000 16 1 [3;4;4];
 Te (-121748180954400000) 16 1 [3;10];
 Te (-99872213208768000) 16 1 [4;9];
 Te (-88356287859840000) 16 1 [5;8];
 Te (-83307357124992000) 16 1 [6;7];
 Te 114099302774096640000 16 1 [15];
 Te 675675 16 2 [1;1;1;1;1;1];
 Te (-5121616500) 16 2 [1;1;1;1;4];
 Te (-15945930000) 16 2 [1;1;1;2;3];
 Te 4862589732000 16 2 [1;1;1;7];
 Te (-6764317560) 16 2 [1;1;2;2;2];
 Te 10242670838400 16 2 [1;1;2;6];
 Te 8726737219200 16 2 [1;1;3;5];
 Te 4166385022800 16 2 [1;1;4;4];
 Te (-4573964334139200) 16 2 [1;1;10];
 Te 7423711495200 16 2 [1;2;2;5];
 Te 13082671704960 16 2 [1;2;3;4];
 Te (-5913905177980800) 16 2 [1;2;9];
 Te 2011883702400 16 2 [1;3;3;3];
 Te (-4590807257836800) 16 2 [1;3;8];
 Te (-3957996387945600) 16 2 [1;4;7];
 Te (-3688699745203200) 16 2 [1;5;6];
 Te 3613225543787059200 16 2 [1;13];
 Te 1860948872640 16 2 [2;2;2;4];
 Te 2578868772480 16 2 [2;2;3;3];
 Te (-1947833278110720) 16 2 [2;2;8];
 Te (-3085598350074240) 16 2 [2;3;7];
 Te (-2727190228089600) 16 2 [2;4;6];
 Te (-1310999278680000) 16 2 [2;5;5];
 Te 2216672210482329600 16 2 [2;12];
 Te (-1252670102611200) 16 2 [3;3;6];
 Te (-2284300284739200) 16 2 [3;4;5];
 Te 1629556095674707200 16 2 [3;11];
 Te (-361055579976000) 16 2 [4;4;4];
 Te 1325654057695968000 16 2 [4;10];
 Te 1157363955715968000 16 2 [5;9];
 Te 1070893508651366400 16 2 [6;8];
 Te 522052964995161600 16 2 [7;7];
 Te (-14864850) 16 3 [1;1;1;1;1;2];
 Te 28343214900 16 3 [1;1;1;1;5];
 Te 84378294000 16 3 [1;1;1;2;4];
 Te 38779111800 16 3 [1;1;1;3;3];
 Te (-33559361035200) 16 3 [1;1;1;8];
 Te 99101522520 16 3 [1;1;2;2;3];
 Te (-69437638670400) 16 3 [1;1;2;7];
 Te (-57643012627200) 16 3 [1;1;3;6];
 Te (-53278952126400) 16 3 [1;1;4;5];
 Te 37297432670097600 16 3 [1;1;11];
 Te 14056202160 16 3 [1;2;2;2;2];
 Te (-49174355149920) 16 3 [1;2;2;6];
 Te (-83870238291840) 16 3 [1;2;3;5];
 Te (-40015743768000) 16 3 [1;2;4;4];
 Te 48028388728320000 16 3 [1;2;10];
 Te (-36914156136000) 16 3 [1;3;3;4];
 Te 36906979395686400 16 3 [1;3;9];
 Te 31359840813100800 16 3 [1;4;8];
 Te 28624012975958400 16 3 [1;5;7];
 Te 13893517090252800 16 3 [1;6;6];
 Te (-33548141811824640000) 16 3 [1;14];
 Te (-11951676696960) 16 3 [2;2;2;5];
 Te (-31615539040800) 16 3 [2;2;3;4];
 Te 15713795140243200 16 3 [2;2;9];
 Te (-9737642772000) 16 3 [2;3;3;3];
 Te 24560706509539200 16 3 [2;3;8];
 Te 21283698673036800 16 3 [2;4;7];
 Te 19900826023478400 16 3 [2;5;6];
 Te (-20621501986044960000) 16 3 [2;13];
 Te 9786787791580800 16 3 [3;3;7];
 Te 17374539771388800 16 3 [3;4;6];
 Te 8367274066132800 16 3 [3;5;5];
 Te (-15106114541437920000) 16 3 [3;12];
 Te 7943390759304000 16 3 [4;4;5];
 Te (-12207469486788576000) 16 3 [4;11];
 Te (-10550438469226656000) 16 3 [5;10];
 Te (-9621766001143296000) 16 3 [6;9];
 Te (-9200834775804672000) 16 3 [7;8];
 Te (-140540400) 17 0 [1;1;1;1;3];
 Te (-233513280) 17 0 [1;1;1;2;2];
 Te 108453945600 17 0 [1;1;1;6];
 Te 233175983040 17 0 [1;1;2;5];
 Te 206313307200 17 0 [1;1;3;4];
 Te (-85934270822400) 17 0 [1;1;9];
 Te 173154421440 17 0 [1;2;2;4];
 Te 160401384000 17 0 [1;2;3;3];
 Te (-111355218374400) 17 0 [1;2;8];
 Te (-88065987609600) 17 0 [1;3;7];
 Te (-77617738598400) 17 0 [1;4;6];
 Te (-37292495385600) 17 0 [1;5;5];
 Te 59583572329881600 17 0 [1;12];
 Te 44991460800 17 0 [2;2;2;3];
 Te (-36820685341440) 17 0 [2;2;7];
 Te (-59775248332800) 17 0 [2;3;6];
 Te (-54377459136000) 17 0 [2;4;5];
 Te 36331618241318400 17 0 [2;11];
 Te (-25043001984000) 17 0 [3;3;5];
 Te (-23709669984000) 17 0 [3;4;4];
 Te 26975256916608000 17 0 [3;10];
 Te 22164390376128000 17 0 [4;9];
 Te 19634730635520000 17 0 [5;8];
 Te 18512746027776000 17 0 [6;7];
 Te (-25355400616465920000) 17 0 [15];
 Te (-270270) 17 1 [1;1;1;1;1;1];
 Te 2270268000 17 1 [1;1;1;1;4];
 Te 6951344400 17 1 [1;1;1;2;3];
 Te (-2221212913920) 17 1 [1;1;1;7];
 Te 2914591680 17 1 [1;1;2;2;2];
 Te (-4656099127680) 17 1 [1;1;2;6];
 Te (-3973747377600) 17 1 [1;1;3;5];
 Te (-1897994498400) 17 1 [1;1;4;4];
 Te 2097954485827200 17 1 [1;1;10];
 Te (-3353017187520) 17 1 [1;2;2;5];
 Te (-5912988681600) 17 1 [1;2;3;4];
 Te 2701940908867200 17 1 [1;2;9];
 Te (-909497160000) 17 1 [1;3;3;3];
 Te 2104834219488000 17 1 [1;3;8];
 Te 1820281509446400 17 1 [1;4;7];
 Te 1700238213273600 17 1 [1;5;6];
 Te (-1659596783644800000) 17 1 [1;13];
 Te (-834403489920) 17 1 [2;2;2;4];
 Te (-1156076064000) 17 1 [2;2;3;3];
 Te 886375935244800 17 1 [2;2;8];
 Te 1409483044569600 17 1 [2;3;7];
 Te 1249432004620800 17 1 [2;4;6];
 Te 601274618380800 17 1 [2;5;5];
 Te (-1014377936539968000) 17 1 [2;12];
 Te 574349263488000 17 1 [3;3;6];
 Te 1049263383168000 17 1 [3;4;5];
 Te (-748138486455360000) 17 1 [3;11];
 Te 165967689888000 17 1 [4;4;4];
 Te (-609950215562688000) 17 1 [4;10];
 Te (-533269934188992000) 17 1 [5;9];
 Te (-493673227407360000) 17 1 [6;8];
 Te (-240665698361088000) 17 1 [7;7];
 Te 9729720 17 2 [1;1;1;1;1;2];
 Te (-20118898800) 17 2 [1;1;1;1;5];
 Te (-58821562800) 17 2 [1;1;1;2;4];
 Te (-26894181600) 17 2 [1;1;1;3;3];
 Te 24135283972800 17 2 [1;1;1;8];
 Te (-68041013040) 17 2 [1;1;2;2;3];
 Te 49634138473920 17 2 [1;1;2;7];
 Te 41236629033600 17 2 [1;1;3;6];
 Te 38146772664000 17 2 [1;1;4;5];
 Te (-26737389478800000) 17 2 [1;1;11];
 Te (-9556747200) 17 2 [1;2;2;2;2];
 Te 34921418051520 17 2 [1;2;2;6];
 Te 59542098295680 17 2 [1;2;3;5];
 Te 28420281489600 17 2 [1;2;4;4];
 Te (-34267303505635200) 17 2 [1;2;10];
 Te 26185759142400 17 2 [1;3;3;4];
 Te (-26390967511708800) 17 2 [1;3;9];
 Te (-22491784297382400) 17 2 [1;4;8];
 Te (-20579001085843200) 17 2 [1;5;7];
 Te (-9998870520038400) 17 2 [1;6;6];
 Te 23954862842951040000 17 2 [1;14];
 Te 8429085624960 17 2 [2;2;2;5];
 Te 22273901432640 17 2 [2;2;3;4];
 Te (-11164303387036800) 17 2 [2;2;9];
 Te 6850278864000 17 2 [2;3;3;3];
 Te (-17491147741267200) 17 2 [2;3;8];
 Te (-15204347001043200) 17 2 [2;4;7];
 Te (-14242288373913600) 17 2 [2;5;6];
 Te 14666302034742758400 17 2 [2;13];
 Te (-6987142331769600) 17 2 [3;3;7];
 Te (-12435721704806400) 17 2 [3;4;6];
 Te (-5993632013241600) 17 2 [3;5;5];
 Te 10766921879467353600 17 2 [3;12];
 Te (-5694058161792000) 17 2 [4;4;5];
 Te 8721571211825472000 17 2 [4;11];
 Te 7549531735217472000 17 2 [5;10];
 Te 6890621719101120000 17 2 [6;9];
 Te 6590537585888256000 17 2 [7;8];
 Te 45045 18 0 [1;1;1;1;1;1];
 Te (-422522100) 18 0 [1;1;1;1;4];
 Te (-1275674400) 18 0 [1;1;1;2;3];
 Te 428948039520 18 0 [1;1;1;7];
 Te (-529008480) 18 0 [1;1;2;2;2];
 Te 894935321280 18 0 [1;1;2;6];
 Te 764734370400 18 0 [1;1;3;5];
 Te 365067502800 18 0 [1;1;4;4];
 Te (-408648715675200) 18 0 [1;1;10];
 Te 640059900480 18 0 [1;2;2;5];
 Te 1129642113600 18 0 [1;2;3;4];
 Te (-524303735155200) 18 0 [1;2;9];
 Te 173976660000 18 0 [1;3;3;3];
 Te (-409884563088000) 18 0 [1;3;8];
 Te (-355288466332800) 18 0 [1;4;7];
 Te (-332527042108800) 18 0 [1;5;6];
 Te 324980276100480000 18 0 [1;13];
 Te 157993355520 18 0 [2;2;2;4];
 Te 219127194000 18 0 [2;2;3;3];
 Te (-171220109860800) 18 0 [2;2;8];
 Te (-273407207673600) 18 0 [2;3;7];
 Te (-242831178374400) 18 0 [2;4;6];
 Te (-116989189833600) 18 0 [2;5;5];
 Te 197856318986726400 18 0 [2;12];
 Te (-111841249608000) 18 0 [3;3;6];
 Te (-204537175920000) 18 0 [3;4;5];
 Te 146442257017056000 18 0 [3;11];
 Te (-32351241384000) 18 0 [4;4;4];
 Te 119574270912096000 18 0 [4;10];
 Te 104691592605600000 18 0 [5;9];
 Te 96963050280096000 18 0 [6;8];
 Te 47277292484822400 18 0 [7;7];
 Te (-3513510) 18 1 [1;1;1;1;1;2];
 Te 7954046100 18 1 [1;1;1;1;5];
 Te 22908085200 18 1 [1;1;1;2;4];
 Te 10440144000 18 1 [1;1;1;3;3];
 Te (-9756595648800) 18 1 [1;1;1;8];
 Te 26162136000 18 1 [1;1;2;2;3];
 Te (-19957130313120) 18 1 [1;1;2;7];
 Te (-16591832056800) 18 1 [1;1;3;6];
 Te (-15346598904000) 18 1 [1;1;4;5];
 Te 10834310073787200 18 1 [1;1;11];
 Te 3641077440 18 1 [1;2;2;2;2];
 Te (-13949123348160) 18 1 [1;2;2;6];
 Te (-23778562953600) 18 1 [1;2;3;5];
 Te (-11349023868000) 18 1 [1;2;4;4];
 Te 13824106824528000 18 1 [1;2;10];
 Te (-10455429348000) 18 1 [1;3;3;4];
 Te 10671968138832000 18 1 [1;3;9];
 Te 9116342883648000 18 1 [1;4;8];
 Te 8358209328268800 18 1 [1;5;7];
 Te 4064552449372800 18 1 [1;6;6];
 Te (-9711243339557760000) 18 1 [1;14];
 Te (-3342119901120) 18 1 [2;2;2;5];
 Te (-8826607389600) 18 1 [2;2;3;4];
 Te 4483653073099200 18 1 [2;2;9];
 Te (-2713201920000) 18 1 [2;3;3;3];
 Te 7042962902976000 18 1 [2;3;8];
 Te 6136521171580800 18 1 [2;4;7];
 Te 5756823908035200 18 1 [2;5;6];
 Te (-5921348802969600000) 18 1 [2;13];
 Te 2820972283272000 18 1 [3;3;7];
 Te 5029842321504000 18 1 [3;4;6];
 Te 2425780532448000 18 1 [3;5;5];
 Te (-4357453506325920000) 18 1 [3;12];
 Te 2305243748808000 18 1 [4;4;5];
 Te (-3536155488273408000) 18 1 [4;11];
 Te (-3065308697715264000) 18 1 [5;10];
 Te (-2799979373423232000) 18 1 [6;9];
 Te (-2678838428185920000) 18 1 [7;8];
 Te 540540 19 0 [1;1;1;1;1;2];
 Te (-1345944600) 19 0 [1;1;1;1;5];
 Te (-3827023200) 19 0 [1;1;1;2;4];
 Te (-1741311000) 19 0 [1;1;1;3;3];
 Te 1699133436000 19 0 [1;1;1;8];
 Te (-4324320000) 19 0 [1;1;2;2;3];
 Te 3458811676320 19 0 [1;1;2;7];
 Te 2877402528000 19 0 [1;1;3;6];
 Te 2659433212800 19 0 [1;1;4;5];
 Te (-1899447614064000) 19 0 [1;1;11];
 Te (-596756160) 19 0 [1;2;2;2;2];
 Te 2401917598080 19 0 [1;2;2;6];
 Te 4095079934400 19 0 [1;2;3;5];
 Te 1953393624000 19 0 [1;2;4;4];
 Te (-2413880594611200) 19 0 [1;2;10];
 Te 1801167732000 19 0 [1;3;3;4];
 Te (-1868294718576000) 19 0 [1;3;9];
 Te (-1598729212080000) 19 0 [1;4;8];
 Te (-1468389882960000) 19 0 [1;5;7];
 Te (-714518304192000) 19 0 [1;6;6];
 Te 1709615989841760000 19 0 [1;14];
 Te 571173482880 19 0 [2;2;2;5];
 Te 1508625518400 19 0 [2;2;3;4];
 Te (-779330890166400) 19 0 [2;2;9];
 Te 464014980000 19 0 [2;3;3;3];
 Te (-1227907899504000) 19 0 [2;3;8];
 Te (-1071562085193600) 19 0 [2;4;7];
 Te (-1006549652908800) 19 0 [2;5;6];
 Te 1038259939036320000 19 0 [2;13];
 Te (-493259460408000) 19 0 [3;3;7];
 Te (-880464416832000) 19 0 [3;4;6];
 Te (-424905009984000) 19 0 [3;5;5];
 Te 766132327056096000 19 0 [3;12];
 Te (-403717217904000) 19 0 [4;4;5];
 Te 622533584600928000 19 0 [4;11];
 Te 540365818984992000 19 0 [5;10];
 Te 493930348879968000 19 0 [6;9];
 Te 472736193209280000 19 0 [7;8]].
Definition wit0_7 : list term := [Te (-69189120) 13 0 [1;1;1;2];
 Te 16735118400 13 0 [1;1;5];
 Te 22572950400 13 0 [1;2;4];
 Te 10100376000 13 0 [1;3;3];
 Te (-5565399840000) 13 0 [1;8];
 Te 8172964800 13 0 [2;2;3];
 Te (-3339239904000) 13 0 [2;7];
 Te (-2568646080000) 13 0 [3;6];
 Te (-2288430144000) 13 0 [4;5];
 Te 1372731167808000 13 0 [11];
 Te 843242400 13 1 [1;1;1;3];
 Te 1024863840 13 1 [1;1;2;2];
 Te (-286832145600) 13 1 [1;1;6];
 Te (-368950982400) 13 1 [1;2;5];
 Te (-308756448000) 13 1 [1;3;4];
 Te 113534156736000 13 1 [1;9];
 Te (-124929604800) 13 1 [2;2;4];
 Te (-112030776000) 13 1 [2;3;3];
 Te 66784798080000 13 1 [2;8];
 Te 50088598560000 13 1 [3;7];
 Te 43153254144000 13 1 [4;6];
 Te 20595871296000 13 1 [5;5];
 Te (-31572816859584000) 13 1 [12];
 Te 5405400 13 2 [1;1;1;1;1];
 Te (-5881075200) 13 2 [1;1;1;4];
 Te (-12834581760) 13 2 [1;1;2;3];
 Te 2607175771200 13 2 [1;1;7];
 Te (-3476753280) 13 2 [1;2;2;2];
 Te 3250504857600 13 2 [1;2;6];
 Te 2599521724800 13 2 [1;3;5];
 Te 1214917704000 13 2 [1;4;4];
 Te (-1211031005184000) 13 2 [1;10];
 Te 1054312459200 13 2 [2;2;5];
 Te 1770030662400 13 2 [2;3;4];
 Te (-703466539776000) 13 2 [2;9];
 Te 264926376000 13 2 [3;3;3];
 Te (-517582185120000) 13 2 [3;8];
 Te (-434871781344000) 13 2 [4;7];
 Te (-401456030976000) 13 2 [5;6];
 Te 378873802315008000 13 2 [13];
 Te (-81081000) 13 3 [1;1;1;1;2];
 Te 29967537600 13 3 [1;1;1;5];
 Te 61470208800 13 3 [1;1;2;4];
 Te 27610783200 13 3 [1;1;3;3];
 Te (-16640545521600) 13 3 [1;1;8];
 Te 45119954880 13 3 [1;2;2;3];
 Te (-20343676953600) 13 3 [1;2;7];
 Te (-15752027491200) 13 3 [1;3;6];
 Te (-14070472416000) 13 3 [1;4;5];
 Te 8988120741600000 13 3 [1;11];
 Te 3074591520 13 3 [2;2;2;2];
 Te (-6418112500800) 13 3 [2;2;6];
 Te (-10308832934400) 13 3 [2;3;5];
 Te (-4823995176000) 13 3 [2;4;4];
 Te 5184726490944000 13 3 [2;10];
 Te (-4337323848000) 13 3 [3;3;4];
 Te 3758871051936000 13 3 [3;9];
 Te 3097701550944000 13 3 [4;8];
 Te 2788779049056000 13 3 [5;7];
 Te 1348539192000000 13 3 [6;6];
 Te (-3157281685958400000) 13 3 [14];
 Te 229729500 13 4 [1;1;1;1;3];
 Te 378378000 13 4 [1;1;1;2;2];
 Te (-122897174400) 13 4 [1;1;1;6];
 Te (-243156513600) 13 4 [1;1;2;5];
 Te (-204626822400) 13 4 [1;1;3;4];
 Te 83536651598400 13 4 [1;1;9];
 Te (-168531723360) 13 4 [1;2;2;4];
 Te (-151731740160) 13 4 [1;2;3;3];
 Te 100999163865600 13 4 [1;2;8];
 Te 76369739846400 13 4 [1;3;7];
 Te 66035220451200 13 4 [1;4;6];
 Te 31550238720000 13 4 [1;5;5];
 Te (-52131100301280000) 13 4 [1;12];
 Te (-41682120480) 13 4 [2;2;2;3];
 Te 31319968680000 13 4 [2;2;7];
 Te 48750567465600 13 4 [2;3;6];
 Te 43638961766400 13 4 [2;4;5];
 Te (-29991939737760000) 13 4 [2;11];
 Te 19641302366400 13 4 [3;3;5];
 Te 18400197816000 13 4 [3;4;4];
 Te (-21496913421984000) 13 4 [3;10];
 Te (-17447528498400000) 13 4 [4;9];
 Te (-15404684270976000) 13 4 [5;8];
 Te (-14528262228480000) 13 4 [6;7];
 Te 20522330958729600000 13 4 [15];
 Te 270270 13 5 [1;1;1;1;1;1];
 Te (-591891300) 13 5 [1;1;1;1;4];
 Te (-1783782000) 13 5 [1;1;1;2;3];
 Te 427809301920 13 5 [1;1;1;7];
 Te (-745945200) 13 5 [1;1;2;2;2];
 Te 829828359360 13 5 [1;1;2;6];
 Te 668777709600 13 5 [1;1;3;5];
 Te 313232119200 13 5 [1;1;4;4];
 Te (-350787151915200) 13 5 [1;1;10];
 Te 556358362560 13 5 [1;2;2;5];
 Te 940107168000 13 5 [1;2;3;4];
 Te (-422079923865600) 13 5 [1;2;9];
 Te 141340399200 13 5 [1;3;3;3];
 Te (-313563189139200) 13 5 [1;3;8];
 Te (-264628146182400) 13 5 [1;4;7];
 Te (-244749160656000) 13 5 [1;5;6];
 Te 251667380764800000 13 5 [1;13];
 Te 130352302080 13 5 [2;2;2;4];
 Te 176419283040 13 5 [2;2;3;3];
 Te (-129626724427200) 13 5 [2;2;8];
 Te (-197164602835200) 13 5 [2;3;7];
 Te (-170950402022400) 13 5 [2;4;6];
 Te (-81744437174400) 13 5 [2;5;5];
 Te 144888506354592000 13 5 [2;12];
 Te (-77042647281600) 13 5 [3;3;6];
 Te (-138159429408000) 13 5 [3;4;5];
 Te 102937635440640000 13 5 [3;11];
 Te (-21588951384000) 13 5 [4;4;4];
 Te 82531540387296000 13 5 [4;10];
 Te 71749134737280000 13 5 [5;9];
 Te 66357118507680000 13 5 [6;8];
 Te 32354152294464000 13 5 [7;7];
 Te (-2162160) 13 6 [1;1;1;1;1;2];
 Te 1389187800 13 6 [1;1;1;1;5];
 Te 4010806800 13 6 [1;1;1;2;4];
 Te 1810809000 13 6 [1;1;1;3;3];
 Te (-1308128421600) 13 6 [1;1;1;8];
 Te 4621617000 13 6 [1;1;2;2;3];
 Te (-2514458026080) 13 6 [1;1;2;7];
 Te (-1967003438400) 13 6 [1;1;3;6];
 Te (-1763327966400) 13 6 [1;1;4;5];
 Te 1280709811180800 13 6 [1;1;11];
 Te 654053400 13 6 [1;2;2;2;2];
 Te (-1655064290880) 13 6 [1;2;2;6];
 Te (-2681640561600) 13 6 [1;2;3;5];
 Te (-1257685228800) 13 6 [1;2;4;4];
 Te 1540725291705600 13 6 [1;2;10];
 Te (-1136906971200) 13 6 [1;3;3;4];
 Te 1129630610908800 13 6 [1;3;9];
 Te 935720404819200 13 6 [1;4;8];
 Te 844496106854400 13 6 [1;5;7];
 Te 408669256195200 13 6 [1;6;6];
 Te (-1051969651596864000) 13 6 [1;14];
 Te (-375800705280) 13 6 [2;2;2;5];
 Te (-956055260160) 13 6 [2;2;3;4];
 Te 471205280145600 13 6 [2;2;9];
 Te (-288155387520) 13 6 [2;3;3;3];
 Te 704467533369600 13 6 [2;3;8];
 Te 596394473875200 13 6 [2;4;7];
 Te 552359317910400 13 6 [2;5;6];
 Te (-607596962132160000) 13 6 [2;13];
 Te 269188530811200 13 6 [3;3;7];
 Te 467822061907200 13 6 [3;4;6];
 Te 223851668040000 13 6 [3;5;5];
 Te (-428780665272960000) 13 6 [3;12];
 Te 210025087272000 13 6 [4;4;5];
 Te (-340384306534272000) 13 6 [4;11];
 Te (-292225788638784000) 13 6 [5;10];
 Te (-266082108836544000) 13 6 [6;9];
 Te (-254436381239040000) 13 6 [7;8];
 Te (-883396800) 14 0 [1;1;1;3];
 Te (-1049883120) 14 0 [1;1;2;2];
 Te 295394299200 14 0 [1;1;6];
 Te 373621248000 14 0 [1;2;5];
 Te 313945632000 14 0 [1;3;4];
 Te (-115254371232000) 14 0 [1;9];
 Te 123372849600 14 0 [2;2;4];
 Te 112030776000 14 0 [2;3;3];
 Te (-66481230816000) 14 0 [2;8];
 Te (-50189787648000) 14 0 [3;7];
 Te (-43098767712000) 14 0 [4;6];
 Te (-20618161200000) 14 0 [5;5];
 Te 31572816859584000 14 0 [12];
 Te (-11711700) 14 1 [1;1;1;1;1];
 Te 12648636000 14 1 [1;1;1;4];
 Te 27586072800 14 1 [1;1;2;3];
 Te (-5546848507200) 14 1 [1;1;7];
 Te 7468718400 14 1 [1;2;2;2];
 Te (-6901095801600) 14 1 [1;2;6];
 Te (-5514805296000) 14 1 [1;3;5];
 Te (-2577510936000) 14 1 [1;4;4];
 Te 2549357883072000 14 1 [1;10];
 Te (-2231219390400) 14 1 [2;2;5];
 Te (-3743996256000) 14 1 [2;3;4];
 Te 1475944037568000 14 1 [2;9];
 Te (-560153880000) 14 1 [3;3;3];
 Te 1085252968800000 14 1 [3;8];
 Te 911612493792000 14 1 [4;7];
 Te 841488455808000 14 1 [5;6];
 Te (-789320421489600000) 14 1 [13];
 Te 272251980 14 2 [1;1;1;1;2];
 Te (-99848548800) 14 2 [1;1;1;5];
 Te (-207063885600) 14 2 [1;1;2;4];
 Te (-92765930400) 14 2 [1;1;3;3];
 Te 54986150419200 14 2 [1;1;8];
 Te (-153531275040) 14 2 [1;2;2;3];
 Te 67772299795200 14 2 [1;2;7];
 Te 52349007110400 14 2 [1;3;6];
 Te 46759737024000 14 2 [1;4;5];
 Te (-29448351957024000) 14 2 [1;11];
 Te (-10618367760) 14 2 [2;2;2;2];
 Te 21558724387200 14 2 [2;2;6];
 Te 34521046560000 14 2 [2;3;5];
 Te 16163443296000 14 2 [2;4;4];
 Te (-17100652304736000) 14 2 [2;10];
 Te 14490610992000 14 2 [3;3;4];
 Te (-12365205364512000) 14 2 [3;9];
 Te (-10189134027072000) 14 2 [4;8];
 Te (-9169467154848000) 14 2 [5;7];
 Te (-4434242052240000) 14 2 [6;6];
 Te 10261165479364800000 14 2 [14];
 Te (-1065764700) 14 3 [1;1;1;1;3];
 Te (-1794592800) 14 3 [1;1;1;2;2];
 Te 566334568800 14 3 [1;1;1;6];
 Te 1140193454400 14 3 [1;1;2;5];
 Te 958763520000 14 3 [1;1;3;4];
 Te (-381786429024000) 14 3 [1;1;9];
 Te 803767536000 14 3 [1;2;2;4];
 Te 723140589600 14 3 [1;2;3;3];
 Te (-468272742537600) 14 3 [1;2;8];
 Te (-353551300502400) 14 3 [1;3;7];
 Te (-305524883664000) 14 3 [1;4;6];
 Te (-145955529720000) 14 3 [1;5;5];
 Te 236338549390944000 14 3 [1;12];
 Te 202257712800 14 3 [2;2;2;3];
 Te (-147260479766400) 14 3 [2;2;7];
 Te (-228808765785600) 14 3 [2;3;6];
 Te (-204705525024000) 14 3 [2;4;5];
 Te 137665325685888000 14 3 [2;11];
 Te (-92031475536000) 14 3 [3;3;5];
 Te (-86184994896000) 14 3 [3;4;4];
 Te 98485720324992000 14 3 [3;10];
 Te 79874618503680000 14 3 [4;9];
 Te 70498032853248000 14 3 [5;8];
 Te 66477588008832000 14 3 [6;7];
 Te (-92350489314283200000) 14 3 [15];
 Te (-1576575) 14 4 [1;1;1;1;1;1];
 Te 3585582000 14 4 [1;1;1;1;4];
 Te 11085394320 14 4 [1;1;1;2;3];
 Te (-2564365003200) 14 4 [1;1;1;7];
 Te 4722157440 14 4 [1;1;2;2;2];
 Te (-5076448977600) 14 4 [1;1;2;6];
 Te (-4101132578400) 14 4 [1;1;3;5];
 Te (-1919173370400) 14 4 [1;1;4;4];
 Te 2081366783496000 14 4 [1;1;10];
 Te (-3470303865600) 14 4 [1;2;2;5];
 Te (-5877158601600) 14 4 [1;2;3;4];
 Te 2548396586736000 14 4 [1;2;9];
 Te (-886201430400) 14 4 [1;3;3;3];
 Te 1894924461830400 14 4 [1;3;8];
 Te 1597435289049600 14 4 [1;4;7];
 Te 1477053225648000 14 4 [1;5;6];
 Te (-1479804198897024000) 14 4 [1;13];
 Te (-827973226080) 14 4 [2;2;2;4];
 Te (-1124549917920) 14 4 [2;2;3;3];
 Te 795591031435200 14 4 [2;2;8];
 Te 1211137642915200 14 4 [2;3;7];
 Te 1048855253846400 14 4 [2;4;6];
 Te 501498957960000 14 4 [2;5;5];
 Te (-865016740171584000) 14 4 [2;12];
 Te 473564542651200 14 4 [3;3;6];
 Te 848408232672000 14 4 [3;4;5];
 Te (-614622318133824000) 14 4 [3;11];
 Te 132457597272000 14 4 [4;4;4];
 Te (-492175426526784000) 14 4 [4;10];
 Te (-427689846904320000) 14 4 [5;9];
 Te (-395445632662080000) 14 4 [6;8];
 Te (-192799422335520000) 14 4 [7;7];
 Te 16576560 14 5 [1;1;1;1;1;2];
 Te (-10608998400) 14 5 [1;1;1;1;5];
 Te (-31357085760) 14 5 [1;1;1;2;4];
 Te (-14308093800) 14 5 [1;1;1;3;3];
 Te 9813655051200 14 5 [1;1;1;8];
 Te (-36940503600) 14 5 [1;1;2;2;3];
 Te 19256919121440 14 5 [1;1;2;7];
 Te 15157022680800 14 5 [1;1;3;6];
 Te 13577737773600 14 5 [1;1;4;5];
 Te (-9477263733537600) 14 5 [1;1;11];
 Te (-5278373100) 14 5 [1;2;2;2;2];
 Te 12920601133440 14 5 [1;2;2;6];
 Te 21061118707200 14 5 [1;2;3;5];
 Te 9872666575200 14 5 [1;2;4;4];
 Te (-11610722659536000) 14 5 [1;2;10];
 Te 8981921520000 14 5 [1;3;3;4];
 Te (-8545671454320000) 14 5 [1;3;9];
 Te (-7070840496720000) 14 5 [1;4;8];
 Te (-6378320021673600) 14 5 [1;5;7];
 Te (-3086190513806400) 14 5 [1;6;6];
 Te 7698505177595232000 14 5 [1;14];
 Te 2985969523680 14 5 [2;2;2;5];
 Te 7643630966400 14 5 [2;2;3;4];
 Te (-3610998378187200) 14 5 [2;2;9];
 Te 2318796136800 14 5 [2;3;3;3];
 Te (-5418695900217600) 14 5 [2;3;8];
 Te (-4582287136627200) 14 5 [2;4;7];
 Te (-4242180492950400) 14 5 [2;5;6];
 Te 4518802215895968000 14 5 [2;13];
 Te (-2077781316811200) 14 5 [3;3;7];
 Te (-3607087419936000) 14 5 [3;4;6];
 Te (-1725501625848000) 14 5 [3;5;5];
 Te 3196894785372288000 14 5 [3;12];
 Te (-1617909517224000) 14 5 [4;4;5];
 Te 2534598442696320000 14 5 [4;11];
 Te 2174618059758144000 14 5 [5;10];
 Te 1979414594853696000 14 5 [6;9];
 Te 1892507537112192000 14 5 [7;8];
 Te 6306300 15 0 [1;1;1;1;1];
 Te (-6810804000) 15 0 [1;1;1;4];
 Te (-14854039200) 15 0 [1;1;2;3];
 Te 2986764580800 15 0 [1;1;7];
 Te (-4021617600) 15 0 [1;2;2;2];
 Te 3715974662400 15 0 [1;2;6];
 Te 2969510544000 15 0 [1;3;5];
 Te 1387890504000 15 0 [1;4;4];
 Te (-1372731167808000) 15 0 [1;10];
 Te 1201425825600 15 0 [2;2;5];
 Te 2015997984000 15 0 [2;3;4];
 Te (-794739097152000) 15 0 [2;9];
 Te 301621320000 15 0 [3;3;3];
 Te (-584366983200000) 15 0 [3;8];
 Te (-490868265888000) 15 0 [4;7];
 Te (-453109168512000) 15 0 [5;6];
 Te 425018688494400000 15 0 [13];
 Te (-302161860) 15 1 [1;1;1;1;2];
 Te 111502591200 15 1 [1;1;1;5];
 Te 232994361600 15 1 [1;1;2;4];
 Te 104571324000 15 1 [1;1;3;3];
 Te (-61497668232000) 15 1 [1;1;8];
 Te 173967393600 15 1 [1;2;2;3];
 Te (-76245977808000) 15 1 [1;2;7];
 Te (-58950427536000) 15 1 [1;3;6];
 Te (-52633893312000) 15 1 [1;4;5];
 Te 32945548027392000 15 1 [1;11];
 Te 12064852800 15 1 [2;2;2;2];
 Te (-24363608068800) 15 1 [2;2;6];
 Te (-39066771744000) 15 1 [2;3;5];
 Te (-18275657400000) 15 1 [2;4;4];
 Te 19218236349312000 15 1 [2;10];
 Te (-16414037640000) 15 1 [3;3;4];
 Te 13907934200160000 15 1 [3;9];
 Te 11453592870720000 15 1 [4;8];
 Te 10308233583648000 15 1 [5;7];
 Te 4984200853632000 15 1 [6;6];
 Te (-11475504589348800000) 15 1 [14];
 Te 1848646800 15 2 [1;1;1;1;3];
 Te 3145942800 15 2 [1;1;1;2;2];
 Te (-987177391200) 15 2 [1;1;1;6];
 Te (-2010225016800) 15 2 [1;1;2;5];
 Te (-1696214520000) 15 2 [1;1;3;4];
 Te 665900090856000 15 2 [1;1;9];
 Te (-1431241812000) 15 2 [1;2;2;4];
 Te (-1291884422400) 15 2 [1;2;3;3];
 Te 824013100310400 15 2 [1;2;8];
 Te 623633019609600 15 2 [1;3;7];
 Te 538761839616000 15 2 [1;4;6];
 Te 257353039944000 15 2 [1;5;5];
 Te (-411819350342400000) 15 2 [1;12];
 Te (-363307744800) 15 2 [2;2;2;3];
 Te 261115717262400 15 2 [2;2;7];
 Te 406612004198400 15 2 [2;3;6];
 Te 363669690384000 15 2 [2;4;5];
 Te (-241600685534208000) 15 2 [2;11];
 Te 163908809064000 15 2 [3;3;5];
 Te 153465576264000 15 2 [3;4;4];
 Te (-173144749665888000) 15 2 [3;10];
 Te (-140364949364640000) 15 2 [4;9];
 Te (-123862425759072000) 15 2 [5;8];
 Te (-116788888183968000) 15 2 [6;7];
 Te 160657064250883200000 15 2 [15];
 Te 3603600 15 3 [1;1;1;1;1;1];
 Te (-8688279600) 15 3 [1;1;1;1;4];
 Te (-27241053840) 15 3 [1;1;1;2;3];
 Te 6218264052000 15 3 [1;1;1;7];
 Te (-11688636960) 15 3 [1;1;2;2;2];
 Te 12460463215200 15 3 [1;1;2;6];
 Te 10121308797600 15 3 [1;1;3;5];
 Te 4741292556000 15 3 [1;1;4;4];
 Te (-5034924478584000) 15 3 [1;1;10];
 Te 8613721116000 15 3 [1;2;2;5];
 Te 14659704259200 15 3 [1;2;3;4];
 Te (-6226012801008000) 15 3 [1;2;9];
 Te 2219024808000 15 3 [1;3;3;3];
 Te (-4647108866400000) 15 3 [1;3;8];
 Te (-3918883432464000) 15 3 [1;4;7];
 Te (-3622666647600000) 15 3 [1;5;6];
 Te 3567728305132992000 15 3 [1;13];
 Te 2077619544000 15 3 [2;2;2;4];
 Te 2830597941600 15 3 [2;2;3;3];
 Te (-1961636481604800) 15 3 [2;2;8];
 Te (-2995811923104000) 15 3 [2;3;7];
 Te (-2595379458672000) 15 3 [2;4;6];
 Te (-1240615191816000) 15 3 [2;5;5];
 Te 2103024149081856000 15 3 [2;12];
 Te (-1175173095096000) 15 3 [3;3;6];
 Te (-2106091299312000) 15 3 [3;4;5];
 Te 1498336069662432000 15 3 [3;11];
 Te (-329014806120000) 15 3 [4;4;4];
 Te 1199875414177440000 15 3 [4;10];
 Te 1042276951235520000 15 3 [5;9];
 Te 963574405938144000 15 3 [6;8];
 Te 469760930454816000 15 3 [7;7];
 Te (-51351300) 15 4 [1;1;1;1;1;2];
 Te 33826993200 15 4 [1;1;1;1;5];
 Te 101234493360 15 4 [1;1;1;2;4];
 Te 46502656200 15 4 [1;1;1;3;3];
 Te (-31087039183200) 15 4 [1;1;1;8];
 Te 120378258000 15 4 [1;1;2;2;3];
 Te (-61678057240800) 15 4 [1;1;2;7];
 Te (-48889378137600) 15 4 [1;1;3;6];
 Te (-43891675027200) 15 4 [1;1;4;5];
 Te 29812177322928000 15 4 [1;1;11];
 Te 17281604340 15 4 [1;2;2;2;2];
 Te (-41836044650400) 15 4 [1;2;2;6];
 Te (-68618655705600) 15 4 [1;2;3;5];
 Te (-32227686691200) 15 4 [1;2;4;4];
 Te 36878008959792000 15 4 [1;2;10];
 Te (-29435553576000) 15 4 [1;3;3;4];
 Te 27278250775776000 15 4 [1;3;9];
 Te 22597107348816000 15 4 [1;4;8];
 Te 20379996052416000 15 4 [1;5;7];
 Te 9860041815624000 15 4 [1;6;6];
 Te (-24058486447003008000) 15 4 [1;14];
 Te (-9773892928800) 15 4 [2;2;2;5];
 Te (-25154439710400) 15 4 [2;2;3;4];
 Te 11577923903145600 15 4 [2;2;9];
 Te (-7657178443200) 15 4 [2;3;3;3];
 Te 17449018313126400 15 4 [2;3;8];
 Te 14771174418000000 15 4 [2;4;7];
 Te 13672552813920000 15 4 [2;5;6];
 Te (-14243458597175808000) 15 4 [2;13];
 Te 6718517994988800 15 4 [3;3;7];
 Te 11675730162096000 15 4 [3;4;6];
 Te 5584832036784000 15 4 [3;5;5];
 Te (-10113596878825440000) 15 4 [3;12];
 Te 5242920594912000 15 4 [4;4;5];
 Te (-8023216306289184000) 15 4 [4;11];
 Te (-6881293097078400000) 15 4 [5;10];
 Te (-6262170090688512000) 15 4 [6;9];
 Te (-5986629370770048000) 15 4 [7;8];
 Te 110990880 16 0 [1;1;1;1;2];
 Te (-41643201600) 16 0 [1;1;1;5];
 Te (-87437750400) 16 0 [1;1;2;4];
 Te (-39443976000) 16 0 [1;1;3;3];
 Te 23172301152000 16 0 [1;1;8];
 Te (-65624644800) 16 0 [1;2;2;3];
 Te 28838890080000 16 0 [1;2;7];
 Te 22370572224000 16 0 [1;3;6];
 Te 19955242944000 16 0 [1;4;5];
 Te (-12495373450560000) 16 0 [1;11];
 Te (-4518296640) 16 0 [2;2;2;2];
 Te 9219104294400 16 0 [2;2;6];
 Te 14862766464000 16 0 [2;3;5];
 Te 6931334592000 16 0 [2;4;4];
 Te (-7301119617792000) 16 0 [2;10];
 Te 6263974080000 16 0 [3;3;4];
 Te (-5303553615360000) 16 0 [3;9];
 Te (-4361094017280000) 16 0 [4;8];
 Te (-3928253801472000) 16 0 [5;7];
 Te (-1898189935488000) 16 0 [6;6];
 Te 4371620795942400000 16 0 [14];
 Te (-1419818400) 16 1 [1;1;1;1;3];
 Te (-2422700280) 16 1 [1;1;1;2;2];
 Te 768453285600 16 1 [1;1;1;6];
 Te 1575825451200 16 1 [1;1;2;5];
 Te 1337512176000 16 1 [1;1;3;4];
 Te (-522085099536000) 16 1 [1;1;9];
 Te 1127934007200 16 1 [1;2;2;4];
 Te 1023612876000 16 1 [1;2;3;3];
 Te (-649178594064000) 16 1 [1;2;8];
 Te (-493566641568000) 16 1 [1;3;7];
 Te (-426383573616000) 16 1 [1;4;6];
 Te (-203651707896000) 16 1 [1;5;5];
 Te 324228542365728000 16 1 [1;12];
 Te 287239867200 16 1 [2;2;2;3];
 Te (-206365026067200) 16 1 [2;2;7];
 Te (-322793190720000) 16 1 [2;3;6];
 Te (-288669116736000) 16 1 [2;4;5];
 Te 190809632325312000 16 1 [2;11];
 Te (-130689599040000) 16 1 [3;3;5];
 Te (-122352310080000) 16 1 [3;4;4];
 Te 137273116780800000 16 1 [3;10];
 Te 111263473601280000 16 1 [4;9];
 Te 98173653177600000 16 1 [5;8];
 Te 92563730138880000 16 1 [6;7];
 Te (-126777003082329600000) 16 1 [15];
 Te (-4054050) 16 2 [1;1;1;1;1;1];
 Te 10497286800 16 2 [1;1;1;1;4];
 Te 33123982320 16 2 [1;1;1;2;3];
 Te (-7581073500000) 16 2 [1;1;1;7];
 Te 14213885400 16 2 [1;1;2;2;2];
 Te (-15294536056800) 16 2 [1;1;2;6];
 Te (-12507187492800) 16 2 [1;1;3;5];
 Te (-5871021156000) 16 2 [1;1;4;4];
 Te 6160088110176000 16 2 [1;1;10];
 Te (-10635297472800) 16 2 [1;2;2;5];
 Te (-18209760940800) 16 2 [1;2;3;4];
 Te 7655409858096000 16 2 [1;2;9];
 Te (-2767456692000) 16 2 [1;3;3;3];
 Te 5742834905808000 16 2 [1;3;8];
 Te 4848899367312000 16 2 [1;4;7];
 Te 4481667537984000 16 2 [1;5;6];
 Te (-4369596897425760000) 16 2 [1;13];
 Te (-2580090084000) 16 2 [2;2;2;4];
 Te (-3525930064800) 16 2 [2;2;3;3];
 Te 2422800690710400 16 2 [2;2;8];
 Te 3716049905568000 16 2 [2;3;7];
 Te 3223413189360000 16 2 [2;4;6];
 Te 1540441643832000 16 2 [2;5;5];
 Te (-2585574352801440000) 16 2 [2;12];
 Te 1464032029824000 16 2 [3;3;6];
 Te 2626733176704000 16 2 [3;4;5];
 Te (-1849264987489920000) 16 2 [3;11];
 Te 410904748800000 16 2 [4;4;4];
 Te (-1482136809753600000) 16 2 [4;10];
 Te (-1287137342050560000) 16 2 [5;9];
 Te (-1189881676279296000) 16 2 [6;8];
 Te (-580058849994624000) 16 2 [7;7];
 Te 82882800 16 3 [1;1;1;1;1;2];
 Te (-57354897600) 16 3 [1;1;1;1;5];
 Te (-172590818400) 16 3 [1;1;1;2;4];
 Te (-79612275600) 16 3 [1;1;1;3;3];
 Te 52815644481600 16 3 [1;1;1;8];
 Te (-205604582040) 16 3 [1;1;2;2;3];
 Te 105349451407200 16 3 [1;1;2;7];
 Te 84084305104800 16 3 [1;1;3;6];
 Te 75758194512000 16 3 [1;1;4;5];
 Te (-50578606718640000) 16 3 [1;1;11];
 Te (-29518580520) 16 3 [1;2;2;2;2];
 Te 71860598409600 16 3 [1;2;2;6];
 Te 118577913854400 16 3 [1;2;3;5];
 Te 55845241452000 16 3 [1;2;4;4];
 Te (-62848896718608000) 16 3 [1;2;10];
 Te 51134589792000 16 3 [1;3;3;4];
 Te (-46725478031232000) 16 3 [1;3;9];
 Te (-38796773311296000) 16 3 [1;4;8];
 Te (-34995990517488000) 16 3 [1;5;7];
 Te (-16930255718376000) 16 3 [1;6;6];
 Te 40710718662213600000 16 3 [1;14];
 Te 16889561488800 16 3 [2;2;2;5];
 Te 43676184895200 16 3 [2;2;3;4];
 Te (-19825067310048000) 16 3 [2;2;9];
 Te 13322673936000 16 3 [2;3;3;3];
 Te (-30009445449984000) 16 3 [2;3;8];
 Te (-25457380380432000) 16 3 [2;4;7];
 Te (-23567452324416000) 16 3 [2;5;6];
 Te 24197325885244512000 16 3 [2;13];
 Te (-11603103640128000) 16 3 [3;3;7];
 Te (-20205736767216000) 16 3 [3;4;6];
 Te (-9666855217656000) 16 3 [3;5;5];
 Te 17247715956158688000 16 3 [3;12];
 Te (-9092090367360000) 16 3 [4;4;5];
 Te 13704432825283200000 16 3 [4;11];
 Te 11753468756789760000 16 3 [5;10];
 Te 10694383286146560000 16 3 [6;9];
 Te 10223149750894080000 16 3 [7;8];
 Te 407206800 17 0 [1;1;1;1;3];
 Te 692972280 17 0 [1;1;1;2;2];
 Te (-224756532000) 17 0 [1;1;1;6];
 Te (-462706564320) 17 0 [1;1;2;5];
 Te (-395502307200) 17 0 [1;1;3;4];
 Te 154532602224000 17 0 [1;1;9];
 Te (-331965073440) 17 0 [1;2;2;4];
 Te (-303196608000) 17 0 [1;2;3;3];
 Te 192562834464000 17 0 [1;2;8];
 Te 147223377100800 17 0 [1;3;7];
 Te 127202207932800 17 0 [1;4;6];
 Te 60749647358400 17 0 [1;5;5];
 Te (-96742349095392000) 17 0 [1;12];
 Te (-84537367200) 17 0 [2;2;2;3];
 Te 61241659839360 17 0 [2;2;7];
 Te 96324228000000 17 0 [2;3;6];
 Te 86143048992000 17 0 [2;4;5];
 Te (-56968343464032000) 17 0 [2;11];
 Te 39206879712000 17 0 [3;3;5];
 Te 36705693024000 17 0 [3;4;4];
 Te (-41181935034240000) 17 0 [3;10];
 Te (-33379042080384000) 17 0 [4;9];
 Te (-29452095953280000) 17 0 [5;8];
 Te (-27769119041664000) 17 0 [6;7];
 Te 38033100924698880000 17 0 [15];
 Te 2252250 17 1 [1;1;1;1;1;1];
 Te (-6313507200) 17 1 [1;1;1;1;4];
 Te (-19947470400) 17 1 [1;1;1;2;3];
 Te 4628557533600 17 1 [1;1;1;7];
 Te (-8521844760) 17 1 [1;1;2;2;2];
 Te 9368708469120 17 1 [1;1;2;6];
 Te 7715862554400 17 1 [1;1;3;5];
 Te 3630461234400 17 1 [1;1;4;4];
 Te (-3791352749184000) 17 1 [1;1;10];
 Te 6532183738080 17 1 [1;2;2;5];
 Te 11254172529600 17 1 [1;2;3;4];
 Te (-4721128684272000) 17 1 [1;2;9];
 Te 1717063920000 17 1 [1;3;3;3];
 Te (-3560742817632000) 17 1 [1;3;8];
 Te (-3011437853424000) 17 1 [1;4;7];
 Te (-2783384892288000) 17 1 [1;5;6];
 Te 2701904519714400000 17 1 [1;13];
 Te 1587656790720 17 1 [2;2;2;4];
 Te 2177650332000 17 1 [2;2;3;3];
 Te (-1496313400982400) 17 1 [2;2;8];
 Te (-2306301693696000) 17 1 [2;3;7];
 Te (-2003449758710400) 17 1 [2;4;6];
 Te (-957536383003200) 17 1 [2;5;5];
 Te 1600498946958912000 17 1 [2;12];
 Te (-912896816832000) 17 1 [3;3;6];
 Te (-1640314035360000) 17 1 [3;4;5];
 Te 1149662353039200000 17 1 [3;11];
 Te (-256939851168000) 17 1 [4;4;4];
 Te 922475344766976000 17 1 [4;10];
 Te 801097009929216000 17 1 [5;9];
 Te 740509841111040000 17 1 [6;8];
 Te 360998547541632000 17 1 [7;7];
 Te (-73873800) 17 2 [1;1;1;1;1;2];
 Te 54390936600 17 2 [1;1;1;1;5];
 Te 163830466800 17 2 [1;1;1;2;4];
 Te 75769036200 17 2 [1;1;1;3;3];
 Te (-50506003548000) 17 2 [1;1;1;8];
 Te 194690307240 17 2 [1;1;2;2;3];
 Te (-100950216887520) 17 2 [1;1;2;7];
 Te (-81091183773600) 17 2 [1;1;3;6];
 Te (-73348359084000) 17 2 [1;1;4;5];
 Te 48522233639880000 17 2 [1;1;11];
 Te 27850628520 17 2 [1;2;2;2;2];
 Te (-69020843411520) 17 2 [1;2;2;6];
 Te (-114551288691840) 17 2 [1;2;3;5];
 Te (-54091751313600) 17 2 [1;2;4;4];
 Te 60386696370000000 17 2 [1;2;10];
 Te (-49623341882400) 17 2 [1;3;3;4];
 Te 45113687643024000 17 2 [1;3;9];
 Te 37558026614908800 17 2 [1;4;8];
 Te 33896022060700800 17 2 [1;5;7];
 Te 16397607256430400 17 2 [1;6;6];
 Te (-39091599848901600000) 17 2 [1;14];
 Te (-16262721034560) 17 2 [2;2;2;5];
 Te (-42241881464640) 17 2 [2;2;3;4];
 Te 19080862043443200 17 2 [2;2;9];
 Te (-12908512188000) 17 2 [2;3;3;3];
 Te 29010203205984000 17 2 [2;3;8];
 Te 24668018315740800 17 2 [2;4;7];
 Te 22847686557696000 17 2 [2;5;6];
 Te (-23262284770556832000) 17 2 [2;13];
 Te 11263110639580800 17 2 [3;3;7];
 Te 19658664189964800 17 2 [3;4;6];
 Te 9409681487606400 17 2 [3;5;5];
 Te (-16644840585845472000) 17 2 [3;12];
 Te 8865959566464000 17 2 [4;4;5];
 Te (-13250287597266720000) 17 2 [4;11];
 Te (-11367081057556224000) 17 2 [5;10];
 Te (-10341893121880320000) 17 2 [6;9];
 Te (-9885806378832384000) 17 2 [7;8];
 Te (-495495) 18 0 [1;1;1;1;1;1];
 Te 1510809300 18 0 [1;1;1;1;4];
 Te 4762929600 18 0 [1;1;1;2;3];
 Te (-1129214005920) 18 0 [1;1;1;7];
 Te 2020384080 18 0 [1;1;2;2;2];
 Te (-2288015009280) 18 0 [1;1;2;6];
 Te (-1897678692000) 18 0 [1;1;3;5];
 Te (-894804346800) 18 0 [1;1;4;4];
 Te 935644513003200 18 0 [1;1;10];
 Te (-1596700123200) 18 0 [1;2;2;5];
 Te (-2767144161600) 18 0 [1;2;3;4];
 Te 1165458553459200 18 0 [1;2;9];
 Te (-423790380000) 18 0 [1;3;3;3];
 Te 883695981168000 18 0 [1;3;8];
 Te 748638127036800 18 0 [1;4;7];
 Te 692100490435200 18 0 [1;5;6];
 Te (-671934307524480000) 18 0 [1;13];
 Te (-387575435520) 18 0 [2;2;2;4];
 Te (-534205854000) 18 0 [2;2;3;3];
 Te 369180992980800 18 0 [2;2;8];
 Te 572112206265600 18 0 [2;3;7];
 Te 497497169030400 18 0 [2;4;6];
 Te 237961528358400 18 0 [2;5;5];
 Te (-397817492430758400) 18 0 [2;12];
 Te 227525909688000 18 0 [3;3;6];
 Te 409436388144000 18 0 [3;4;5];
 Te (-287059206129696000) 18 0 [3;11];
 Te 64178952264000 18 0 [4;4;4];
 Te (-230566038839136000) 18 0 [4;10];
 Te (-200299261754592000) 18 0 [5;9];
 Te (-185111277807456000) 18 0 [6;8];
 Te (-90256649289206400) 18 0 [7;7];
 Te 34594560 18 1 [1;1;1;1;1;2];
 Te (-27316188900) 18 1 [1;1;1;1;5];
 Te (-82105863840) 18 1 [1;1;1;2;4];
 Te (-38037027600) 18 1 [1;1;1;3;3];
 Te 25696125655200 18 1 [1;1;1;8];
 Te (-97108165440) 18 1 [1;1;2;2;3];
 Te 51370832953440 18 1 [1;1;2;7];
 Te 41507958492000 18 1 [1;1;3;6];
 Te 37683559368000 18 1 [1;1;4;5];
 Te (-24859633475476800) 18 1 [1;1;11];
 Te (-13804712064) 18 1 [1;2;2;2;2];
 Te 35134719459840 18 1 [1;2;2;6];
 Te 58633875518400 18 1 [1;2;3;5];
 Te 27743968324800 18 1 [1;2;4;4];
 Te (-30935225972851200) 18 1 [1;2;10];
 Te 25499620692000 18 1 [1;3;3;4];
 Te (-23217801214608000) 18 1 [1;3;9];
 Te (-19377936081504000) 18 1 [1;4;8];
 Te (-17502763729651200) 18 1 [1;5;7];
 Te (-8467290865756800) 18 1 [1;6;6];
 Te 20109455661335040000 18 1 [1;14];
 Te 8278279289280 18 1 [2;2;2;5];
 Te 21593945973600 18 1 [2;2;3;4];
 Te (-9772452541051200) 18 1 [2;2;9];
 Te 6613429680000 18 1 [2;3;3;3];
 Te (-14924580967296000) 18 1 [2;3;8];
 Te (-12718163022364800) 18 1 [2;4;7];
 Te (-11788929616464000) 18 1 [2;5;6];
 Te 11961240233342400000 18 1 [2;13];
 Te (-5818397857272000) 18 1 [3;3;7];
 Te (-10176648850368000) 18 1 [3;4;6];
 Te (-4874735135088000) 18 1 [3;5;5];
 Te 8591449203136800000 18 1 [3;12];
 Te (-4598886428136000) 18 1 [4;4;5];
 Te 6851301258529728000 18 1 [4;11];
 Te 5880780322889472000 18 1 [5;10];
 Te 5350183602027264000 18 1 [6;9];
 Te 5114146090173120000 18 1 [7;8];
 Te (-6666660) 19 0 [1;1;1;1;1;2];
 Te 5672967300 19 0 [1;1;1;1;5];
 Te 16978001040 19 0 [1;1;1;2;4];
 Te 7874895600 19 0 [1;1;1;3;3];
 Te (-5424297278400) 19 0 [1;1;1;8];
 Te 19963068840 19 0 [1;1;2;2;3];
 Te (-10834540516800) 19 0 [1;1;2;7];
 Te (-8801764171200) 19 0 [1;1;3;6];
 Te (-8016192475200) 19 0 [1;1;4;5];
 Te 5300560883217600 19 0 [1;1;11];
 Te 2815379424 19 0 [1;2;2;2;2];
 Te (-7403992596000) 19 0 [1;2;2;6];
 Te (-12421373328000) 19 0 [1;2;3;5];
 Te (-5884773148800) 19 0 [1;2;4;4];
 Te 6589612437408000 19 0 [1;2;10];
 Te (-5420377872000) 19 0 [1;3;3;4];
 Te 4967560437840000 19 0 [1;3;9];
 Te 4154844710016000 19 0 [1;4;8];
 Te 3756703270320000 19 0 [1;5;7];
 Te 1817485051536000 19 0 [1;6;6];
 Te (-4316975535993120000) 19 0 [1;14];
 Te (-1741425285600) 19 0 [2;2;2;5];
 Te (-4561422465600) 19 0 [2;2;3;4];
 Te 2078621186241600 19 0 [2;2;9];
 Te (-1401079680000) 19 0 [2;3;3;3];
 Te 3189176486496000 19 0 [2;3;8];
 Te 2722370985734400 19 0 [2;4;7];
 Te 2526083614454400 19 0 [2;5;6];
 Te (-2564279420582880000) 19 0 [2;13];
 Te 1248529994712000 19 0 [3;3;7];
 Te 2187366893712000 19 0 [3;4;6];
 Te 1048780848024000 19 0 [3;5;5];
 Te (-1849033684802304000) 19 0 [3;12];
 Te 990032091048000 19 0 [4;4;5];
 Te (-1476601159505472000) 19 0 [4;11];
 Te (-1268403599054592000) 19 0 [5;10];
 Te (-1153961169064704000) 19 0 [6;9];
 Te (-1103051117488320000) 19 0 [7;8]].
Definition wit0_8 : list term := [Te (-900900) 15 0 [1;1;1;1;1];
 Te 972972000 15 0 [1;1;1;4];
 Te 2122005600 15 0 [1;1;2;3];
 Te (-426680654400) 15 0 [1;1;7];
 Te 574516800 15 0 [1;2;2;2];
 Te (-530853523200) 15 0 [1;2;6];
 Te (-424215792000) 15 0 [1;3;5];
 Te (-198270072000) 15 0 [1;4;4];
 Te 196104452544000 15 0 [1;10];
 Te (-171632260800) 15 0 [2;2;5];
 Te (-287999712000) 15 0 [2;3;4];
 Te 113534156736000 15 0 [2;9];
 Te (-43088760000) 15 0 [3;3;3];
 Te 83480997600000 15 0 [3;8];
 Te 70124037984000 15 0 [4;7];
 Te 64729881216000 15 0 [5;6];
 Te (-60716955499200000) 15 0 [13];
 Te 48108060 15 1 [1;1;1;1;2];
 Te (-17124307200) 15 1 [1;1;1;5];
 Te (-34897262400) 15 1 [1;1;2;4];
 Te (-15660216000) 15 1 [1;1;3;3];
 Te 9182909736000 15 1 [1;1;8];
 Te (-25436268000) 15 1 [1;2;2;3];
 Te 11130799680000 15 1 [1;2;7];
 Te 8604964368000 15 1 [1;3;6];
 Te 7682586912000 15 1 [1;4;5];
 Te (-4804559087328000) 15 1 [1;11];
 Te (-1723550400) 15 1 [2;2;2;2];
 Te 3480515438400 15 1 [2;2;6];
 Te 5580967392000 15 1 [2;3;5];
 Te 2610808200000 15 1 [2;4;4];
 Te (-2745462335616000) 15 1 [2;10];
 Te 2344862520000 15 1 [3;3;4];
 Te (-1986847742880000) 15 1 [3;9];
 Te (-1636227552960000) 15 1 [4;8];
 Te (-1472604797664000) 15 1 [5;7];
 Te (-712028693376000) 15 1 [6;6];
 Te 1639357798478400000 15 1 [14];
 Te (-324324000) 15 2 [1;1;1;1;3];
 Te (-527567040) 15 2 [1;1;1;2;2];
 Te 161513352000 15 2 [1;1;1;6];
 Te 314724009600 15 2 [1;1;2;5];
 Te 264370392000 15 2 [1;1;3;4];
 Te (-103238167032000) 15 2 [1;1;9];
 Te 214999012800 15 2 [1;2;2;4];
 Te 193278571200 15 2 [1;2;3;3];
 Te (-122884028467200) 15 2 [1;2;8];
 Te (-92668188412800) 15 2 [1;3;7];
 Te (-80048352384000) 15 2 [1;4;6];
 Te (-38235853656000) 15 2 [1;5;5];
 Te 61086536967456000 15 2 [1;12];
 Te 52484889600 15 2 [2;2;2;3];
 Te (-37540762459200) 15 2 [2;2;7];
 Te (-58270903891200) 15 2 [2;3;6];
 Te (-52116272208000) 15 2 [2;4;5];
 Te 34612435874016000 15 2 [2;11];
 Te (-23415544152000) 15 2 [3;3;5];
 Te (-21923653752000) 15 2 [3;4;4];
 Te 24734964237984000 15 2 [3;10];
 Te 20052135623520000 15 2 [4;9];
 Te 17694632251296000 15 2 [5;8];
 Te 16684126883424000 15 2 [6;7];
 Te (-22951009178697600000) 15 2 [15];
 Te (-900900) 15 3 [1;1;1;1;1;1];
 Te 1661259600 15 3 [1;1;1;1;4];
 Te 4873508640 15 3 [1;1;1;2;3];
 Te (-1074550276800) 15 3 [1;1;1;7];
 Te 1991349360 15 3 [1;1;2;2;2];
 Te (-2032733102400) 15 3 [1;1;2;6];
 Te (-1632776745600) 15 3 [1;1;3;5];
 Te (-764107344000) 15 3 [1;1;4;4];
 Te 805777140168000 15 3 [1;1;10];
 Te (-1332193262400) 15 3 [1;2;2;5];
 Te (-2244340612800) 15 3 [1;2;3;4];
 Te 947787592752000 15 3 [1;2;9];
 Te (-336648312000) 15 3 [1;3;3;3];
 Te 701240379840000 15 3 [1;3;8];
 Te 590902760448000 15 3 [1;4;7];
 Te 546199237584000 15 3 [1;5;6];
 Te (-536737886612928000) 15 3 [1;13];
 Te (-305726335200) 15 3 [2;2;2;4];
 Te (-412957116000) 15 3 [2;2;3;3];
 Te 285004125806400 15 3 [2;2;8];
 Te 431789406048000 15 3 [2;3;7];
 Te 373850869392000 15 3 [2;4;6];
 Te 178701875352000 15 3 [2;5;5];
 Te (-302687222501664000) 15 3 [2;12];
 Te 168065345448000 15 3 [3;3;6];
 Te 301033644912000 15 3 [3;4;5];
 Te (-214146062178048000) 15 3 [3;11];
 Te 47002115160000 15 3 [4;4;4];
 Te (-171410773453920000) 15 3 [4;10];
 Te (-148896707319360000) 15 3 [5;9];
 Te (-137653486562592000) 15 3 [6;8];
 Te (-67108704350688000) 15 3 [7;7];
 Te 13513500 15 4 [1;1;1;1;1;2];
 Te (-6972966000) 15 4 [1;1;1;1;5];
 Te (-19277818560) 15 4 [1;1;1;2;4];
 Te (-8675667000) 15 4 [1;1;1;3;3];
 Te 5629615992000 15 4 [1;1;1;8];
 Te (-21409708320) 15 4 [1;1;2;2;3];
 Te 10450497657600 15 4 [1;1;2;7];
 Te 8129829708000 15 4 [1;1;3;6];
 Te 7276468399200 15 4 [1;1;4;5];
 Te (-4900891099104000) 15 4 [1;1;11];
 Te (-2936753820) 15 4 [1;2;2;2;2];
 Te 6667193332800 15 4 [1;2;2;6];
 Te 10751044075200 15 4 [1;2;3;5];
 Te 5036918515200 15 4 [1;2;4;4];
 Te (-5725126815408000) 15 4 [1;2;10];
 Te 4537663416000 15 4 [1;3;3;4];
 Te (-4173493340016000) 15 4 [1;3;9];
 Te (-3449820117744000) 15 4 [1;4;8];
 Te (-3110626510992000) 15 4 [1;5;7];
 Te (-1504901630232000) 15 4 [1;6;6];
 Te 3662446755711744000 15 4 [1;14];
 Te 1471578451200 15 4 [2;2;2;5];
 Te 3729429475200 15 4 [2;2;3;4];
 Te (-1704236739004800) 15 4 [2;2;9];
 Te 1120808145600 15 4 [2;3;3;3];
 Te (-2534457400675200) 15 4 [2;3;8];
 Te (-2141468561232000) 15 4 [2;4;7];
 Te (-1981897261344000) 15 4 [2;5;6];
 Te 2061842214047616000 15 4 [2;13];
 Te (-963366042038400) 15 4 [3;3;7];
 Te (-1671227301744000) 15 4 [3;4;6];
 Te (-799304281776000) 15 4 [3;5;5];
 Te 1447054755322176000 15 4 [3;12];
 Te (-749152115712000) 15 4 [4;4;5];
 Te 1146271810267584000 15 4 [4;11];
 Te 983041871011200000 15 4 [5;10];
 Te 894595727241216000 15 4 [6;9];
 Te 855232767252864000 15 4 [7;8];
 Te (-50270220) 16 0 [1;1;1;1;2];
 Te 17708090400 16 0 [1;1;1;5];
 Te 35610775200 16 0 [1;1;2;4];
 Te 16054038000 16 0 [1;1;3;3];
 Te (-9385287912000) 16 0 [1;1;8];
 Te 25630862400 16 0 [1;2;2;3];
 Te (-11231988768000) 16 0 [1;2;7];
 Te (-8710045344000) 16 0 [1;3;6];
 Te (-7769269872000) 16 0 [1;4;5];
 Te 4857356439936000 16 0 [1;11];
 Te 1694361240 16 0 [2;2;2;2];
 Te (-3457164110400) 16 0 [2;2;6];
 Te (-5573537424000) 16 0 [2;3;5];
 Te (-2599250472000) 16 0 [2;4;4];
 Te 2737919856672000 16 0 [2;10];
 Te (-2348990280000) 16 0 [3;3;4];
 Te 1988832605760000 16 0 [3;9];
 Te 1635410256480000 16 0 [4;8];
 Te 1473095175552000 16 0 [5;7];
 Te 711821225808000 16 0 [6;6];
 Te (-1639357798478400000) 16 0 [14];
 Te 693049500 16 1 [1;1;1;1;3];
 Te 1128184200 16 1 [1;1;1;2;2];
 Te (-342486144000) 16 1 [1;1;1;6];
 Te (-666680414400) 16 1 [1;1;2;5];
 Te (-559783224000) 16 1 [1;1;3;4];
 Te 217177080120000 16 1 [1;1;9];
 Te (-454767112800) 16 1 [1;2;2;4];
 Te (-408648240000) 16 1 [1;2;3;3];
 Te 258032174400000 16 1 [1;2;8];
 Te 194485427136000 16 1 [1;3;7];
 Te 167981669856000 16 1 [1;4;6];
 Te 80232509448000 16 1 [1;5;5];
 Te (-127505606548320000) 16 1 [1;12];
 Te (-110779812000) 16 1 [2;2;2;3];
 Te 78639099739200 16 1 [2;2;7];
 Te 122010688800000 16 1 [2;3;6];
 Te 109109080080000 16 1 [2;4;5];
 Te (-72068386309920000) 16 1 [2;11];
 Te 49008599640000 16 1 [3;3;5];
 Te 45882116280000 16 1 [3;4;4];
 Te (-51477418792800000) 16 1 [3;10];
 Te (-41723802600480000) 16 1 [4;9];
 Te (-36815119941600000) 16 1 [5;8];
 Te (-34711398802080000) 16 1 [6;7];
 Te 47541376155873600000 16 1 [15];
 Te 2927925 16 2 [1;1;1;1;1;1];
 Te (-5462156700) 16 2 [1;1;1;1;4];
 Te (-16173265680) 16 2 [1;1;1;2;3];
 Te 3515477565600 16 2 [1;1;1;7];
 Te (-6681537720) 16 2 [1;1;2;2;2];
 Te 6699106814400 16 2 [1;1;2;6];
 Te 5372362195200 16 2 [1;1;3;5];
 Te 2514592080000 16 2 [1;1;4;4];
 Te (-2620746784656000) 16 2 [1;1;10];
 Te 4421184768000 16 2 [1;2;2;5];
 Te 7436248934400 16 2 [1;2;3;4];
 Te (-3100737223584000) 16 2 [1;2;9];
 Te 1113496956000 16 2 [1;3;3;3];
 Te (-2290263223248000) 16 2 [1;3;8];
 Te (-1929672016272000) 16 2 [1;4;7];
 Te (-1783400359104000) 16 2 [1;5;6];
 Te 1735290588167136000 16 2 [1;13];
 Te 1022093186400 16 2 [2;2;2;4];
 Te 1377366962400 16 2 [2;2;3;3];
 Te (-937749635222400) 16 2 [2;2;8];
 Te (-1417943230704000) 16 2 [2;3;7];
 Te (-1227656089296000) 16 2 [2;4;6];
 Te (-586677703248000) 16 2 [2;5;5];
 Te 983403489676608000 16 2 [2;12];
 Te (-550938495744000) 16 2 [3;3;6];
 Te (-986741263872000) 16 2 [3;4;5];
 Te 694503918684576000 16 2 [3;11];
 Te (-154089280800000) 16 2 [4;4;4];
 Te 555801303657600000 16 2 [4;10];
 Te 482676503268960000 16 2 [5;9];
 Te 446205628604736000 16 2 [6;8];
 Te 217522068747984000 16 2 [7;7];
 Te (-60990930) 16 3 [1;1;1;1;1;2];
 Te 31494563100 16 3 [1;1;1;1;5];
 Te 88429255200 16 3 [1;1;1;2;4];
 Te 39791466000 16 3 [1;1;1;3;3];
 Te (-25322569272000) 16 3 [1;1;1;8];
 Te 99708780600 16 3 [1;1;2;2;3];
 Te (-47609141580000) 16 3 [1;1;2;7];
 Te (-37006017048000) 16 3 [1;1;3;6];
 Te (-33111534456000) 16 3 [1;1;4;5];
 Te 21931014609504000 16 3 [1;1;11];
 Te 13888017000 16 3 [1;2;2;2;2];
 Te (-30747666549600) 16 3 [1;2;2;6];
 Te (-49532447764800) 16 3 [1;2;3;5];
 Te (-23200084908000) 16 3 [1;2;4;4];
 Te 25898689344528000 16 3 [1;2;10];
 Te (-20887114248000) 16 3 [1;3;3;4];
 Te 18857092494240000 16 3 [1;3;9];
 Te 15579780312096000 16 3 [1;4;8];
 Te 14045185522368000 16 3 [1;5;7];
 Te 6794553421656000 16 3 [1;6;6];
 Te (-16302502551535200000) 16 3 [1;14];
 Te (-6868403942400) 16 3 [2;2;2;5];
 Te (-17387954812800) 16 3 [2;2;3;4];
 Te 7790446696032000 16 3 [2;2;9];
 Te (-5221384740000) 16 3 [2;3;3;3];
 Te 11569707349200000 16 3 [2;3;8];
 Te 9770744391408000 16 3 [2;4;7];
 Te 9040933661760000 16 3 [2;5;6];
 Te (-9265407409177920000) 16 3 [2;13];
 Te 4391867175696000 16 3 [3;3;7];
 Te 7615420708896000 16 3 [3;4;6];
 Te 3641806245168000 16 3 [3;5;5];
 Te (-6493546397257920000) 16 3 [3;12];
 Te 3412394425440000 16 3 [4;4;5];
 Te (-5140878223440960000) 16 3 [4;11];
 Te (-4407550783796160000) 16 3 [5;10];
 Te (-4010393732304960000) 16 3 [6;9];
 Te (-3833681156585280000) 16 3 [7;8];
 Te (-369626400) 17 0 [1;1;1;1;3];
 Te (-601698240) 17 0 [1;1;1;2;2];
 Te 182659276800 17 0 [1;1;1;6];
 Te 355562887680 17 0 [1;1;2;5];
 Te 298551052800 17 0 [1;1;3;4];
 Te (-115827776064000) 17 0 [1;1;9];
 Te 242542460160 17 0 [1;2;2;4];
 Te 217945728000 17 0 [1;2;3;3];
 Te (-137617159680000) 17 0 [1;2;8];
 Te (-103725561139200) 17 0 [1;3;7];
 Te (-89590223923200) 17 0 [1;4;6];
 Te (-42790671705600) 17 0 [1;5;5];
 Te 68002990159104000 17 0 [1;12];
 Te 59082566400 17 0 [2;2;2;3];
 Te (-41940853194240) 17 0 [2;2;7];
 Te (-65072367360000) 17 0 [2;3;6];
 Te (-58191509376000) 17 0 [2;4;5];
 Te 38436472698624000 17 0 [2;11];
 Te (-26137919808000) 17 0 [3;3;5];
 Te (-24470462016000) 17 0 [3;4;4];
 Te 27454623356160000 17 0 [3;10];
 Te 22252694720256000 17 0 [4;9];
 Te 19634730635520000 17 0 [5;8];
 Te 18512746027776000 17 0 [6;7];
 Te (-25355400616465920000) 17 0 [15];
 Te (-3153150) 17 1 [1;1;1;1;1;1];
 Te 5992786800 17 1 [1;1;1;1;4];
 Te 17879518800 17 1 [1;1;1;2;3];
 Te (-3867952888800) 17 1 [1;1;1;7];
 Te 7426092960 17 1 [1;1;2;2;2];
 Te (-7413112586880) 17 1 [1;1;2;6];
 Te (-5949529185600) 17 1 [1;1;3;5];
 Te (-2783802621600) 17 1 [1;1;4;4];
 Te 2887093329120000 17 1 [1;1;10];
 Te (-4916972380320) 17 1 [1;2;2;5];
 Te (-8275970102400) 17 1 [1;2;3;4];
 Te 3431827919520000 17 1 [1;2;9];
 Te (-1240539300000) 17 1 [1;3;3;3];
 Te 2536152707088000 17 1 [1;3;8];
 Te 2136185971920000 17 1 [1;4;7];
 Te 1974261377088000 17 1 [1;5;6];
 Te (-1912584098224800000) 17 1 [1;13];
 Te (-1141205345280) 17 1 [2;2;2;4];
 Te (-1540075680000) 17 1 [2;2;3;3];
 Te 1041964276953600 17 1 [2;2;8];
 Te 1576525991040000 17 1 [2;3;7];
 Te 1364383846425600 17 1 [2;4;6];
 Te 652095599500800 17 1 [2;5;5];
 Te (-1088047842545664000) 17 1 [2;12];
 Te 612878954688000 17 1 [3;3;6];
 Te 1097356740480000 17 1 [3;4;5];
 Te (-768729453972480000) 17 1 [3;11];
 Te 171293234112000 17 1 [4;4;4];
 Te (-614983563177984000) 17 1 [4;10];
 Te (-534064673286144000) 17 1 [5;9];
 Te (-493673227407360000) 17 1 [6;8];
 Te (-240665698361088000) 17 1 [7;7];
 Te 102342240 17 2 [1;1;1;1;1;2];
 Te (-53549496000) 17 2 [1;1;1;1;5];
 Te (-152072434800) 17 2 [1;1;1;2;4];
 Te (-68623869600) 17 2 [1;1;1;3;3];
 Te 43196778424800 17 2 [1;1;1;8];
 Te (-173224228320) 17 2 [1;1;2;2;3];
 Te 81950227238880 17 2 [1;1;2;7];
 Te 63827352388800 17 2 [1;1;3;6];
 Te 57102213168000 17 2 [1;1;4;5];
 Te (-37450503090000000) 17 2 [1;1;11];
 Te (-24289087680) 17 2 [1;2;2;2;2];
 Te 53353153133280 17 2 [1;2;2;6];
 Te 86107321460160 17 2 [1;2;3;5];
 Te 40326532646400 17 2 [1;2;4;4];
 Te (-44555275660896000) 17 2 [1;2;10];
 Te 36378579837600 17 2 [1;3;3;4];
 Te (-32488426322352000) 17 2 [1;3;9];
 Te (-26834948127187200) 17 2 [1;4;8];
 Te (-24188857367875200) 17 2 [1;5;7];
 Te (-11701331779737600) 17 2 [1;6;6];
 Te 27838724096383200000 17 2 [1;14];
 Te 12003737185440 17 2 [2;2;2;5];
 Te 30442592568960 17 2 [2;2;3;4];
 Te (-13491197060140800) 17 2 [2;2;9];
 Te 9158863428000 17 2 [2;3;3;3];
 Te (-20062507505040000) 17 2 [2;3;8];
 Te (-16938140294275200) 17 2 [2;4;7];
 Te (-15671278598976000) 17 2 [2;5;6];
 Te 15921200071000224000 17 2 [2;13];
 Te (-7625681282419200) 17 2 [3;3;7];
 Te (-13219273959091200) 17 2 [3;4;6];
 Te (-6321192884697600) 17 2 [3;5;5];
 Te 11170230296569344000 17 2 [3;12];
 Te (-5922081861696000) 17 2 [4;4;5];
 Te 8840388720683520000 17 2 [4;11];
 Te 7578054038370816000 17 2 [5;10];
 Te 6894595414586880000 17 2 [6;9];
 Te 6590537585888256000 17 2 [7;8];
 Te 1126125 18 0 [1;1;1;1;1;1];
 Te (-2191889700) 18 0 [1;1;1;1;4];
 Te (-6582541680) 18 0 [1;1;1;2;3];
 Te 1427890464000 18 0 [1;1;1;7];
 Te (-2737510776) 18 0 [1;1;2;2;2];
 Te 2748230765280 18 0 [1;1;2;6];
 Te 2211364864800 18 0 [1;1;3;5];
 Te 1033593397200 18 0 [1;1;4;4];
 Te (-1072917629784000) 18 0 [1;1;10];
 Te 1828929080160 18 0 [1;2;2;5];
 Te 3085500600000 18 0 [1;2;3;4];
 Te (-1279508774544000) 18 0 [1;2;9];
 Te 464052888000 18 0 [1;3;3;3];
 Te (-947698079328000) 18 0 [1;3;8];
 Te (-797724953625600) 18 0 [1;4;7];
 Te (-737411407286400) 18 0 [1;5;6];
 Te 714436176373920000 18 0 [1;13];
 Te 424587290400 18 0 [2;2;2;4];
 Te 575988051600 18 0 [2;2;3;3];
 Te (-389125362225600) 18 0 [2;2;8];
 Te (-590508382464000) 18 0 [2;3;7];
 Te (-510426799344000) 18 0 [2;4;6];
 Te (-244146976718400) 18 0 [2;5;5];
 Te 407289337488633600 18 0 [2;12];
 Te (-230094555768000) 18 0 [3;3;6];
 Te (-411724818288000) 18 0 [3;4;5];
 Te 288431937297504000 18 0 [3;11];
 Te (-64178952264000) 18 0 [4;4;4];
 Te 230566038839136000 18 0 [4;10];
 Te 200299261754592000 18 0 [5;9];
 Te 185111277807456000 18 0 [6;8];
 Te 90256649289206400 18 0 [7;7];
 Te (-75765690) 18 1 [1;1;1;1;1;2];
 Te 40548608100 18 1 [1;1;1;1;5];
 Te 116099343360 18 1 [1;1;1;2;4];
 Te 52634696400 18 1 [1;1;1;3;3];
 Te (-33004507536000) 18 1 [1;1;1;8];
 Te 133117859160 18 1 [1;1;2;2;3];
 Te (-62997459164640) 18 1 [1;1;2;7];
 Te (-49251453451200) 18 1 [1;1;3;6];
 Te (-44061856675200) 18 1 [1;1;4;5];
 Te 28778956950744000 18 1 [1;1;11];
 Te 18684212976 18 1 [1;2;2;2;2];
 Te (-41217156620640) 18 1 [1;2;2;6];
 Te (-66758368622400) 18 1 [1;2;3;5];
 Te (-31265731879200) 18 1 [1;2;4;4];
 Te 34398732303936000 18 1 [1;2;10];
 Te (-28304600688000) 18 1 [1;3;3;4];
 Te 25160188028976000 18 1 [1;3;9];
 Te 20780307868320000 18 1 [1;4;8];
 Te 18729999778089600 18 1 [1;5;7];
 Te 9060620447894400 18 1 [1;6;6];
 Te (-21475587160067040000) 18 1 [1;14];
 Te (-9308072854080) 18 1 [2;2;2;5];
 Te (-23689143878400) 18 1 [2;2;3;4];
 Te 10453657481467200 18 1 [2;2;9];
 Te (-7152039180000) 18 1 [2;3;3;3];
 Te 15591973597200000 18 1 [2;3;8];
 Te 13162281929596800 18 1 [2;4;7];
 Te 12177308903760000 18 1 [2;5;6];
 Te (-12325541966337600000) 18 1 [2;13];
 Te 5943771137304000 18 1 [3;3;7];
 Te 10302430778640000 18 1 [3;4;6];
 Te 4926258248184000 18 1 [3;5;5];
 Te (-8670381245285760000) 18 1 [3;12];
 Te 4614905439144000 18 1 [4;4;5];
 Te (-6860910376704384000) 18 1 [4;11];
 Te (-5880780322889472000) 18 1 [5;10];
 Te (-5350183602027264000) 18 1 [6;9];
 Te (-5114146090173120000) 18 1 [7;8];
 Te 20900880 19 0 [1;1;1;1;1;2];
 Te (-11521610100) 19 0 [1;1;1;1;5];
 Te (-33178345200) 19 0 [1;1;1;2;4];
 Te (-15127398000) 19 0 [1;1;1;3;3];
 Te 9503341848000 19 0 [1;1;1;8];
 Te (-38193784200) 19 0 [1;1;2;2;3];
 Te 18210662870400 19 0 [1;1;2;7];
 Te 14304634344000 19 0 [1;1;3;6];
 Te 12798532656000 19 0 [1;1;4;5];
 Te (-8363980608984000) 19 0 [1;1;11];
 Te (-5346712800) 19 0 [1;2;2;2;2];
 Te 11947901565600 19 0 [1;2;2;6];
 Te 19438919136000 19 0 [1;2;3;5];
 Te 9105150600000 19 0 [1;2;4;4];
 Te (-10023954516576000) 19 0 [1;2;10];
 Te 8278419240000 19 0 [1;3;3;4];
 Te (-7360863990480000) 19 0 [1;3;9];
 Te (-6079868514720000) 19 0 [1;4;8];
 Te (-5479891168752000) 19 0 [1;5;7];
 Te (-2650951428048000) 19 0 [1;6;6];
 Te 6284204894167200000 19 0 [1;14];
 Te 2702332432800 19 0 [2;2;2;5];
 Te 6908101200000 19 0 [2;2;3;4];
 Te (-3051230462280000) 19 0 [2;2;9];
 Te 2094669720000 19 0 [2;3;3;3];
 Te (-4568687323200000) 19 0 [2;3;8];
 Te (-3856822089120000) 19 0 [2;4;7];
 Te (-3568234702032000) 19 0 [2;5;6];
 Te 3612658852202400000 19 0 [2;13];
 Te (-1748167981560000) 19 0 [3;3;7];
 Te (-3030126699600000) 19 0 [3;4;6];
 Te (-1448899484760000) 19 0 [3;5;5];
 Te 2550112130966400000 19 0 [3;12];
 Te (-1357325129160000) 19 0 [4;4;5];
 Te 2017914816677760000 19 0 [4;11];
 Te 1729641271438080000 19 0 [5;10];
 Te 1573583412360960000 19 0 [6;9];
 Te 1504160614756800000 19 0 [7;8]].
Definition wit0_9 : list term := [Te 46203300 17 0 [1;1;1;1;3];
 Te 75212280 17 0 [1;1;1;2;2];
 Te (-22832409600) 17 0 [1;1;1;6];
 Te (-44445360960) 17 0 [1;1;2;5];
 Te (-37318881600) 17 0 [1;1;3;4];
 Te 14478472008000 17 0 [1;1;9];
 Te (-30317807520) 17 0 [1;2;2;4];
 Te (-27243216000) 17 0 [1;2;3;3];
 Te 17202144960000 17 0 [1;2;8];
 Te 12965695142400 17 0 [1;3;7];
 Te 11198777990400 17 0 [1;4;6];
 Te 5348833963200 17 0 [1;5;5];
 Te (-8500373769888000) 17 0 [1;12];
 Te (-7385320800) 17 0 [2;2;2;3];
 Te 5242606649280 17 0 [2;2;7];
 Te 8134045920000 17 0 [2;3;6];
 Te 7273938672000 17 0 [2;4;5];
 Te (-4804559087328000) 17 0 [2;11];
 Te 3267239976000 17 0 [3;3;5];
 Te 3058807752000 17 0 [3;4;4];
 Te (-3431827919520000) 17 0 [3;10];
 Te (-2781586840032000) 17 0 [4;9];
 Te (-2454341329440000) 17 0 [5;8];
 Te (-2314093253472000) 17 0 [6;7];
 Te 3169425077058240000 17 0 [15];
 Te 450450 17 1 [1;1;1;1;1;1];
 Te (-809909100) 17 1 [1;1;1;1;4];
 Te (-2367565200) 17 1 [1;1;1;2;3];
 Te 510161652000 17 1 [1;1;1;7];
 Te (-964168920) 17 1 [1;1;2;2;2];
 Te 959817418560 17 1 [1;1;2;6];
 Te 770204635200 17 1 [1;1;3;5];
 Te 360367207200 17 1 [1;1;4;4];
 Te (-373143194424000) 17 1 [1;1;10];
 Te 625348563840 17 1 [1;2;2;5];
 Te 1052496244800 17 1 [1;2;3;4];
 Te (-436074374736000) 17 1 [1;2;9];
 Te 157760460000 17 1 [1;3;3;3];
 Te (-322236650736000) 17 1 [1;3;8];
 Te (-271405998864000) 17 1 [1;4;7];
 Te (-250828289712000) 17 1 [1;5;6];
 Te 242867821996800000 17 1 [1;13];
 Te 142650668160 17 1 [2;2;2;4];
 Te 192509460000 17 1 [2;2;3;3];
 Te (-130245534619200) 17 1 [2;2;8];
 Te (-197065748880000) 17 1 [2;3;7];
 Te (-170547980803200) 17 1 [2;4;6];
 Te (-81511949937600) 17 1 [2;5;5];
 Te 136005980318208000 17 1 [2;12];
 Te (-76609869336000) 17 1 [3;3;6];
 Te (-137169592560000) 17 1 [3;4;5];
 Te 96091181746560000 17 1 [3;11];
 Te (-21411654264000) 17 1 [4;4;4];
 Te 76872945397248000 17 1 [4;10];
 Te 66758084160768000 17 1 [5;9];
 Te 61709153425920000 17 1 [6;8];
 Te 30083212295136000 17 1 [7;7];
 Te (-15855840) 17 2 [1;1;1;1;1;2];
 Te 7763956200 17 2 [1;1;1;1;5];
 Te 21250944000 17 2 [1;1;1;2;4];
 Te 9556747200 17 2 [1;1;1;3;3];
 Te (-5973529161600) 17 2 [1;1;1;8];
 Te 23375420640 17 2 [1;1;2;2;3];
 Te (-10966120925760) 17 2 [1;1;2;7];
 Te (-8516229321600) 17 2 [1;1;3;6];
 Te (-7617938328000) 17 2 [1;1;4;5];
 Te 4981597829208000 17 2 [1;1;11];
 Te 3179765160 17 2 [1;2;2;2;2];
 Te (-6919854701760) 17 2 [1;2;2;6];
 Te (-11138739131520) 17 2 [1;2;3;5];
 Te (-5216383972800) 17 2 [1;2;4;4];
 Te 5753257381872000 17 2 [1;2;10];
 Te (-4693876387200) 17 2 [1;3;3;4];
 Te 4185231274224000 17 2 [1;3;9];
 Te 3456632737958400 17 2 [1;4;8];
 Te 3115644970838400 17 2 [1;5;7];
 Te 1507168265803200 17 2 [1;6;6];
 Te (-3582300374452800000) 17 2 [1;14];
 Te (-1511194164480) 17 2 [2;2;2;5];
 Te (-3823324053120) 17 2 [2;2;3;4];
 Te 1693495517313600 17 2 [2;2;9];
 Te (-1147550976000) 17 2 [2;3;3;3];
 Te 2513031000480000 17 2 [2;3;8];
 Te 2121650289158400 17 2 [2;4;7];
 Te 1962955442448000 17 2 [2;5;6];
 Te (-1993944818593728000) 17 2 [2;13];
 Te 953210160302400 17 2 [3;3;7];
 Te 1652409244886400 17 2 [3;4;6];
 Te 790149110587200 17 2 [3;5;5];
 Te (-1396278787071168000) 17 2 [3;12];
 Te 740260232712000 17 2 [4;4;5];
 Te (-1105048590085440000) 17 2 [4;11];
 Te (-947256754796352000) 17 2 [5;10];
 Te (-861824426823360000) 17 2 [6;9];
 Te (-823817198236032000) 17 2 [7;8];
 Te (-475475) 18 0 [1;1;1;1;1;1];
 Te 838737900 18 0 [1;1;1;1;4];
 Te 2429958960 18 0 [1;1;1;2;3];
 Te (-523372449600) 18 0 [1;1;1;7];
 Te 976338792 18 0 [1;1;2;2;2];
 Te (-975060646560) 18 0 [1;1;2;6];
 Te (-784256709600) 18 0 [1;1;3;5];
 Te (-366561140400) 18 0 [1;1;4;4];
 Te 379428593544000 18 0 [1;1;10];
 Te (-628713277920) 18 0 [1;2;2;5];
 Te (-1060500168000) 18 0 [1;2;3;4];
 Te 439117831152000 18 0 [1;2;9];
 Te (-159471936000) 18 0 [1;3;3;3];
 Te 325175026176000 18 0 [1;3;8];
 Te 273699877651200 18 0 [1;4;7];
 Te 252996011452800 18 0 [1;5;6];
 Te (-244891720513440000) 18 0 [1;13];
 Te (-141529096800) 18 0 [2;2;2;4];
 Te (-191996017200) 18 0 [2;2;3;3];
 Te 129708454075200 18 0 [2;2;8];
 Te 196836127488000 18 0 [2;3;7];
 Te 170142266448000 18 0 [2;4;6];
 Te 81382325572800 18 0 [2;5;5];
 Te (-135763112496211200) 18 0 [2;12];
 Te 76698185256000 18 0 [3;3;6];
 Te 137241606096000 18 0 [3;4;5];
 Te (-96143979099168000) 18 0 [3;11];
 Te 21392984088000 18 0 [4;4;4];
 Te (-76855346279712000) 18 0 [4;10];
 Te (-66766420584864000) 18 0 [5;9];
 Te (-61703759269152000) 18 0 [6;8];
 Te (-30085549763068800) 18 0 [7;7];
 Te 33693660 18 1 [1;1;1;1;1;2];
 Te (-16402686300) 18 1 [1;1;1;1;5];
 Te (-44879955120) 18 1 [1;1;1;2;4];
 Te (-20176813800) 18 1 [1;1;1;3;3];
 Te 12543230700000 18 1 [1;1;1;8];
 Te (-49330143720) 18 1 [1;1;2;2;3];
 Te 23002134835680 18 1 [1;1;2;7];
 Te 17857149710400 18 1 [1;1;3;6];
 Te 15972532430400 18 1 [1;1;4;5];
 Te (-10396678684392000) 18 1 [1;1;11];
 Te (-6705213372) 18 1 [1;2;2;2;2];
 Te 14494791991680 18 1 [1;2;2;6];
 Te 23323943260800 18 1 [1;2;3;5];
 Te 10922493254400 18 1 [1;2;4;4];
 Te (-11988770281488000) 18 1 [1;2;10];
 Te 9825906636000 18 1 [1;3;3;4];
 Te (-8717980903632000) 18 1 [1;3;9];
 Te (-7199428476240000) 18 1 [1;4;8];
 Te (-6488794635523200) 18 1 [1;5;7];
 Te (-3138866738884800) 18 1 [1;6;6];
 Te 7431755353102080000 18 1 [1;14];
 Te 3159901704960 18 1 [2;2;2;5];
 Te 7992381196800 18 1 [2;2;3;4];
 Te (-3522397212734400) 18 1 [2;2;9];
 Te 2398375980000 18 1 [2;3;3;3];
 Te (-5225151531600000) 18 1 [2;3;8];
 Te (-4410801989193600) 18 1 [2;4;7];
 Te (-4080679594992000) 18 1 [2;5;6];
 Te 4128752973945600000 18 1 [2;13];
 Te (-1981257045768000) 18 1 [3;3;7];
 Te (-3434143592880000) 18 1 [3;4;6];
 Te (-1642086082728000) 18 1 [3;5;5];
 Te 2890127081761920000 18 1 [3;12];
 Te (-1538301813048000) 18 1 [4;4;5];
 Te 2286970125568128000 18 1 [4;11];
 Te 1960260107629824000 18 1 [5;10];
 Te 1783394534009088000 18 1 [6;9];
 Te 1704715363391040000 18 1 [7;8];
 Te (-17837820) 19 0 [1;1;1;1;1;2];
 Te 8683775100 19 0 [1;1;1;1;5];
 Te 23759976240 19 0 [1;1;1;2;4];
 Te 10681842600 19 0 [1;1;1;3;3];
 Te (-6640533900000) 19 0 [1;1;1;8];
 Te 26115958440 19 0 [1;1;2;2;3];
 Te (-12177600795360) 19 0 [1;1;2;7];
 Te (-9453785140800) 19 0 [1;1;3;6];
 Te (-8456046580800) 19 0 [1;1;4;5];
 Te 5504124009384000 19 0 [1;1;11];
 Te 3549818844 19 0 [1;2;2;2;2];
 Te (-7673713407360) 19 0 [1;2;2;6];
 Te (-12347969961600) 19 0 [1;2;3;5];
 Te (-5782496428800) 19 0 [1;2;4;4];
 Te 6346996031376000 19 0 [1;2;10];
 Te (-5201950572000) 19 0 [1;3;3;4];
 Te 4615401654864000 19 0 [1;3;9];
 Te 3811462134480000 19 0 [1;4;8];
 Te 3435244218806400 19 0 [1;5;7];
 Te 1661752979409600 19 0 [1;6;6];
 Te (-3934458716348160000) 19 0 [1;14];
 Te (-1672889137920) 19 0 [2;2;2;5];
 Te (-4231260633600) 19 0 [2;2;3;4];
 Te 1864798524388800 19 0 [2;2;9];
 Te (-1269728460000) 19 0 [2;3;3;3];
 Te 2766256693200000 19 0 [2;3;8];
 Te 2335130464867200 19 0 [2;4;7];
 Te 2160359785584000 19 0 [2;5;6];
 Te (-2185810397971200000) 19 0 [2;13];
 Te 1048900788936000 19 0 [3;3;7];
 Te 1818076019760000 19 0 [3;4;6];
 Te 869339690856000 19 0 [3;5;5];
 Te (-1530067278579840000) 19 0 [3;12];
 Te 814395077496000 19 0 [4;4;5];
 Te (-1210748890006656000) 19 0 [4;11];
 Te (-1037784762862848000) 19 0 [5;10];
 Te (-944150047416576000) 19 0 [6;9];
 Te (-902496368854080000) 19 0 [7;8]].
Definition wit0_10 : list term := [Te 1981980 19 0 [1;1;1;1;1;2];
 Te (-964863900) 19 0 [1;1;1;1;5];
 Te (-2639997360) 19 0 [1;1;1;2;4];
 Te (-1186871400) 19 0 [1;1;1;3;3];
 Te 737837100000 19 0 [1;1;1;8];
 Te (-2901773160) 19 0 [1;1;2;2;3];
 Te 1353066755040 19 0 [1;1;2;7];
 Te 1050420571200 19 0 [1;1;3;6];
 Te 939560731200 19 0 [1;1;4;5];
 Te (-611569334376000) 19 0 [1;1;11];
 Te (-394424316) 19 0 [1;2;2;2;2];
 Te 852634823040 19 0 [1;2;2;6];
 Te 1371996662400 19 0 [1;2;3;5];
 Te 642499603200 19 0 [1;2;4;4];
 Te (-705221781264000) 19 0 [1;2;10];
 Te 577994508000 19 0 [1;3;3;4];
 Te (-512822406096000) 19 0 [1;3;9];
 Te (-423495792720000) 19 0 [1;4;8];
 Te (-381693802089600) 19 0 [1;5;7];
 Te (-184639219934400) 19 0 [1;6;6];
 Te 437162079594240000 19 0 [1;14];
 Te 185876570880 19 0 [2;2;2;5];
 Te 470140070400 19 0 [2;2;3;4];
 Te (-207199836043200) 19 0 [2;2;9];
 Te 141080940000 19 0 [2;3;3;3];
 Te (-307361854800000) 19 0 [2;3;8];
 Te (-259458940540800) 19 0 [2;4;7];
 Te (-240039976176000) 19 0 [2;5;6];
 Te 242867821996800000 19 0 [2;13];
 Te (-116544532104000) 19 0 [3;3;7];
 Te (-202008446640000) 19 0 [3;4;6];
 Te (-96593298984000) 19 0 [3;5;5];
 Te 170007475397760000 19 0 [3;12];
 Te (-90488341944000) 19 0 [4;4;5];
 Te 134527654445184000 19 0 [4;11];
 Te 115309418095872000 19 0 [5;10];
 Te 104905560824064000 19 0 [6;9];
 Te 100277374317120000 19 0 [7;8]].
Definition wit0 : list (list term) := [wit0_0; wit0_1; wit0_2; wit0_3; wit0_4; wit0_5; wit0_6; wit0_7; wit0_8; wit0_9; wit0_10].
Definition wit1_0 : list term := [].
Definition wit1_1 : list term := [Te 2075673600 1 0 []].
Definition wit1_2 : list term := [Te (-1037836800) 3 1 [1];
 Te 1037836800 3 2 [2];
 Te (-1037836800) 3 3 [3];
 Te 1037836800 3 4 [4];
 Te (-1037836800) 3 5 [5];
 Te 1037836800 3 6 [6];
 Te (-1037836800) 3 7 [7];
 Te 1037836800 3 8 [8];
 Te (-1037836800) 3 9 [9];
 Te 1037836800 3 10 [10];
 Te (-1037836800) 3 11 [11];
 Te 1037836800 3 12 [12];
 Te (-1037836800) 3 13 [13];
 Te 1037836800 3 14 [14];
 Te (-1037836800) 3 15 [15];
 Te 1037836800 4 0 [1];
 Te (-3113510400) 4 1 [2];
 Te 6227020800 4 2 [3];
 Te (-10378368000) 4 3 [4];
 Te 15567552000 4 4 [5];
 Te (-21794572800) 4 5 [6];
 Te 29059430400 4 6 [7];
 Te (-37362124800) 4 7 [8];
 Te 46702656000 4 8 [9];
 Te (-57081024000) 4 9 [10];
 Te 68497228800 4 10 [11];
 Te (-80951270400) 4 11 [12];
 Te 94443148800 4 12 [13];
 Te (-108972864000) 4 13 [14];
 Te 124540416000 4 14 [15];
 Te 2075673600 5 0 [2];
 Te (-10378368000) 5 1 [3];
 Te 31135104000 5 2 [4];
 Te (-72648576000) 5 3 [5];
 Te 145297152000 5 4 [6];
 Te (-261534873600) 5 5 [7];
 Te 435891456000 5 6 [8];
 Te (-684972288000) 5 7 [9];
 Te 1027458432000 5 8 [10];
 Te (-1484106624000) 5 9 [11];
 Te 2077749273600 5 10 [12];
 Te (-2833294464000) 5 11 [13];
 Te 3777725952000 5 12 [14];
 Te (-4940103168000) 5 13 [15];
 Te 5189184000 6 0 [3];
 Te (-36324288000) 6 1 [4];
 Te 145297152000 6 2 [5];
 Te (-435891456000) 6 3 [6];
 Te 1089728640000 6 4 [7];
 Te (-2397403008000) 6 5 [8];
 Te 4794806016000 6 6 [9];
 Te (-8904639744000) 6 7 [10];
 Te 15583119552000 6 8 [11];
 Te (-25971865920000) 6 9 [12];
 Te 41554985472000 6 10 [13];
 Te (-64221341184000) 6 11 [14];
 Te 96332011776000 6 12 [15];
 Te 14529715200 7 0 [4];
 Te (-130767436800) 7 1 [5];
 Te 653837184000 7 2 [6];
 Te (-2397403008000) 7 3 [7];
 Te 7192209024000 7 4 [8];
 Te (-18699743462400) 7 5 [9];
 Te 43632734745600 7 6 [10];
 Te (-93498717312000) 7 7 [11];
 Te 186997434624000 7 8 [12];
 Te (-353217376512000) 7 9 [13];
 Te 635791277721600 7 10 [14];
 Te (-1098184934246400) 7 11 [15];
 Te 43589145600 8 0 [5];
 Te (-479480601600) 8 1 [6];
 Te 2876883609600 8 2 [7];
 Te (-12466495641600) 8 3 [8];
 Te 43632734745600 8 4 [9];
 Te (-130898204236800) 8 5 [10];
 Te 349061877964800 8 6 [11];
 Te (-847721703628800) 8 7 [12];
 Te 1907373833164800 8 8 [13];
 Te (-4026678092236800) 8 9 [14];
 Te 8053356184473600 8 10 [15];
 Te 136994457600 9 0 [6];
 Te (-1780927948800) 9 1 [7];
 Te 12466495641600 9 2 [8];
 Te (-62332478208000) 9 3 [9];
 Te 249329912832000 9 4 [10];
 Te (-847721703628800) 9 5 [11];
 Te 2543165110886400 9 6 [12];
 Te (-6902876729548800) 9 7 [13];
 Te 17257191823872000 9 8 [14];
 Te (-40266780922368000) 9 9 [15];
 Te 445231987200 10 0 [7];
 Te (-6678479808000) 10 1 [8];
 Te 53427838464000 10 2 [9];
 Te (-302757751296000) 10 3 [10];
 Te 1362409880832000 10 4 [11];
 Te (-5177157547161600) 10 5 [12];
 Te 17257191823872000 10 6 [13];
 Te (-51771575471616000) 10 7 [14];
 Te 142371832546944000 10 8 [15];
 Te 1484106624000 11 0 [8];
 Te (-25229812608000) 11 1 [9];
 Te 227068313472000 11 2 [10];
 Te (-1438099318656000) 11 3 [11];
 Te 7190496593280000 11 4 [12];
 Te (-30200085691776000) 11 5 [13];
 Te 110733647536512000 11 6 [14];
 Te (-363839127619968000) 11 7 [15];
 Te 5045962521600 12 0 [9];
 Te (-95873287910400) 12 1 [10];
 Te 958732879104000 12 2 [11];
 Te (-6711130153728000) 12 3 [12];
 Te 36911215845504000 12 4 [13];
 Te (-169791592889318400) 12 5 [14];
 Te 679166371557273600 12 6 [15];
 Te 17431506892800 13 0 [10];
 Te (-366061644748800) 13 1 [11];
 Te 4026678092236800 13 2 [12];
 Te (-30871198707148800) 13 3 [13];
 Te 185227192242892800 13 4 [14];
 Te (-926135961214464000) 13 5 [15];
 Te 61010274124800 14 0 [11];
 Te (-1403236304870400) 14 1 [12];
 Te 16838835658444800 14 2 [13];
 Te (-140323630487040000) 14 3 [14];
 Te 912103598165760000 14 4 [15];
 Te 215882508441600 15 0 [12];
 Te (-5397062711040000) 15 1 [13];
 Te 70161815243520000 15 2 [14];
 Te (-631456337191680000) 15 3 [15];
 Te 771008958720000 16 0 [13];
 Te (-20817241885440000) 16 1 [14];
 Te 291441386396160000 16 2 [15];
 Te 2775632251392000 17 0 [14];
 Te (-80493335290368000) 17 1 [15];
 Te 10061666911296000 18 0 [15]].
Definition wit1_3 : list term := [Te (-1037836800) 5 0 [2];
 Te 5189184000 5 1 [3];
 Te 259459200 5 2 [1;1];
 Te (-15567552000) 5 2 [4];
 Te (-518918400) 5 3 [1;2];
 Te 36324288000 5 3 [5];
 Te 518918400 5 4 [1;3];
 Te 259459200 5 4 [2;2];
 Te (-72648576000) 5 4 [6];
 Te (-518918400) 5 5 [1;4];
 Te (-518918400) 5 5 [2;3];
 Te 130767436800 5 5 [7];
 Te 518918400 5 6 [1;5];
 Te 518918400 5 6 [2;4];
 Te 259459200 5 6 [3;3];
 Te (-217945728000) 5 6 [8];
 Te (-518918400) 5 7 [1;6];
 Te (-518918400) 5 7 [2;5];
 Te (-518918400) 5 7 [3;4];
 Te 342486144000 5 7 [9];
 Te 518918400 5 8 [1;7];
 Te 518918400 5 8 [2;6];
 Te 518918400 5 8 [3;5];
 Te 259459200 5 8 [4;4];
 Te (-513729216000) 5 8 [10];
 Te (-518918400) 5 9 [1;8];
 Te (-518918400) 5 9 [2;7];
 Te (-518918400) 5 9 [3;6];
 Te (-518918400) 5 9 [4;5];
 Te 742053312000 5 9 [11];
 Te 518918400 5 10 [1;9];
 Te 518918400 5 10 [2;8];
 Te 518918400 5 10 [3;7];
 Te 518918400 5 10 [4;6];
 Te 259459200 5 10 [5;5];
 Te (-1038874636800) 5 10 [12];
 Te (-518918400) 5 11 [1;10];
 Te (-518918400) 5 11 [2;9];
 Te (-518918400) 5 11 [3;8];
 Te (-518918400) 5 11 [4;7];
 Te (-518918400) 5 11 [5;6];
 Te 1416647232000 5 11 [13];
 Te 518918400 5 12 [1;11];
 Te 518918400 5 12 [2;10];
 Te 518918400 5 12 [3;9];
 Te 518918400 5 12 [4;8];
 Te 518918400 5 12 [5;7];
 Te 259459200 5 12 [6;6];
 Te (-1888862976000) 5 12 [14];
 Te (-518918400) 5 13 [1;12];
 Te (-518918400) 5 13 [2;11];
 Te (-518918400) 5 13 [3;10];
 Te (-518918400) 5 13 [4;9];
 Te (-518918400) 5 13 [5;8];
 Te (-518918400) 5 13 [6;7];
 Te 2470051584000 5 13 [15];
 Te 518918400 5 14 [1;13];
 Te 518918400 5 14 [2;12];
 Te 518918400 5 14 [3;11];
 Te 518918400 5 14 [4;10];
 Te 518918400 5 14 [5;9];
 Te 518918400 5 14 [6;8];
 Te 259459200 5 14 [7;7];
 Te (-5189184000) 6 0 [3];
 Te (-518918400) 6 1 [1;1];
 Te 36324288000 6 1 [4];
 Te 2075673600 6 2 [1;2];
 Te (-145297152000) 6 2 [5];
 Te (-3632428800) 6 3 [1;3];
 Te (-1556755200) 6 3 [2;2];
 Te 435891456000 6 3 [6];
 Te 5708102400 6 4 [1;4];
 Te 4670265600 6 4 [2;3];
 Te (-1089728640000) 6 4 [7];
 Te (-8302694400) 6 5 [1;5];
 Te (-6745939200) 6 5 [2;4];
 Te (-3113510400) 6 5 [3;3];
 Te 2397403008000 6 5 [8];
 Te 11416204800 6 6 [1;6];
 Te 9340531200 6 6 [2;5];
 Te 8302694400 6 6 [3;4];
 Te (-4794806016000) 6 6 [9];
 Te (-15048633600) 6 7 [1;7];
 Te (-12454041600) 6 7 [2;6];
 Te (-10897286400) 6 7 [3;5];
 Te (-5189184000) 6 7 [4;4];
 Te 8904639744000 6 7 [10];
 Te 19199980800 6 8 [1;8];
 Te 16086470400 6 8 [2;7];
 Te 14010796800 6 8 [3;6];
 Te 12972960000 6 8 [4;5];
 Te (-15583119552000) 6 8 [11];
 Te (-23870246400) 6 9 [1;9];
 Te (-20237817600) 6 9 [2;8];
 Te (-17643225600) 6 9 [3;7];
 Te (-16086470400) 6 9 [4;6];
 Te (-7783776000) 6 9 [5;5];
 Te 25971865920000 6 9 [12];
 Te 29059430400 6 10 [1;10];
 Te 24908083200 6 10 [2;9];
 Te 21794572800 6 10 [3;8];
 Te 19718899200 6 10 [4;7];
 Te 18681062400 6 10 [5;6];
 Te (-41554985472000) 6 10 [13];
 Te (-34767532800) 6 11 [1;11];
 Te (-30097267200) 6 11 [2;10];
 Te (-26464838400) 6 11 [3;9];
 Te (-23870246400) 6 11 [4;8];
 Te (-22313491200) 6 11 [5;7];
 Te (-10897286400) 6 11 [6;6];
 Te 64221341184000 6 11 [14];
 Te 40994553600 6 12 [1;12];
 Te 35805369600 6 12 [2;11];
 Te 31654022400 6 12 [3;10];
 Te 28540512000 6 12 [4;9];
 Te 26464838400 6 12 [5;8];
 Te 25427001600 6 12 [6;7];
 Te (-96332011776000) 6 12 [15];
 Te (-47740492800) 6 13 [1;13];
 Te (-42032390400) 6 13 [2;12];
 Te (-37362124800) 6 13 [3;11];
 Te (-33729696000) 6 13 [4;10];
 Te (-31135104000) 6 13 [5;9];
 Te (-29578348800) 6 13 [6;8];
 Te (-14529715200) 6 13 [7;7];
 Te 259459200 7 0 [1;1];
 Te (-21794572800) 7 0 [4];
 Te (-2594592000) 7 1 [1;2];
 Te 196151155200 7 1 [5];
 Te 8302694400 7 2 [1;3];
 Te 3372969600 7 2 [2;2];
 Te (-980755776000) 7 2 [6];
 Te (-20756736000) 7 3 [1;4];
 Te (-15567552000) 7 3 [2;3];
 Te 3596104512000 7 3 [7];
 Te 44108064000 7 4 [1;5];
 Te 32172940800 7 4 [2;4];
 Te 14529715200 7 4 [3;3];
 Te (-10788313536000) 7 4 [8];
 Te (-83545862400) 7 5 [1;6];
 Te (-60713452800) 7 5 [2;5];
 Te (-51891840000) 7 5 [3;4];
 Te 28049615193600 7 5 [9];
 Te 145297152000 7 6 [1;7];
 Te 106378272000 7 6 [2;6];
 Te 88216128000 7 6 [3;5];
 Te 41513472000 7 6 [4;4];
 Te (-65449102118400) 7 6 [10];
 Te (-236626790400) 7 7 [1;8];
 Te (-175394419200) 7 7 [2;7];
 Te (-143221478400) 7 7 [3;6];
 Te (-129729600000) 7 7 [4;5];
 Te 140248075968000 7 7 [11];
 Te 365837472000 7 8 [1;9];
 Te 275026752000 7 8 [2;8];
 Te 223134912000 7 8 [3;7];
 Te 197188992000 7 8 [4;6];
 Te 94702608000 7 8 [5;5];
 Te (-280496151936000) 7 8 [12];
 Te (-542269728000) 7 9 [1;10];
 Te (-413577964800) 7 9 [2;9];
 Te (-335221286400) 7 9 [3;8];
 Te (-291632140800) 7 9 [4;7];
 Te (-272432160000) 7 9 [5;6];
 Te 529826064768000 7 9 [13];
 Te 776301926400 7 10 [1;11];
 Te 600388588800 7 10 [2;10];
 Te 487783296000 7 10 [3;9];
 Te 420323904000 7 10 [4;8];
 Te 385037452800 7 10 [5;7];
 Te 187070083200 7 10 [6;6];
 Te (-953686916582400) 7 10 [14];
 Te (-1079350272000) 7 11 [1;12];
 Te (-845836992000) 7 11 [2;11];
 Te (-690161472000) 7 11 [3;10];
 Te (-591566976000) 7 11 [4;9];
 Te (-534485952000) 7 11 [5;8];
 Te (-508540032000) 7 11 [6;7];
 Te 1647277401369600 7 11 [15];
 Te 1463868806400 7 12 [1;13];
 Te 1161339379200 7 12 [2;12];
 Te 952734182400 7 12 [3;11];
 Te 814701888000 7 12 [4;10];
 Te 729080352000 7 12 [5;9];
 Te 682896614400 7 12 [6;8];
 Te 334183449600 7 12 [7;7];
 Te 1037836800 8 0 [1;2];
 Te (-87178291200) 8 0 [5];
 Te (-7783776000) 8 1 [1;3];
 Te (-3113510400) 8 1 [2;2];
 Te 958961203200 8 1 [6];
 Te 33729696000 8 2 [1;4];
 Te 24389164800 8 2 [2;3];
 Te (-5753767219200) 8 2 [7];
 Te (-108972864000) 8 3 [1;5];
 Te (-75243168000) 8 3 [2;4];
 Te (-33729696000) 8 3 [3;3];
 Te 24932991283200 8 3 [8];
 Te 290594304000 8 4 [1;6];
 Te 197188992000 8 4 [2;5];
 Te 166053888000 8 4 [3;4];
 Te (-87265469491200) 8 4 [9];
 Te (-675631756800) 8 5 [1;7];
 Te (-457686028800) 8 5 [2;6];
 Te (-371026656000) 8 5 [3;5];
 Te (-173837664000) 8 5 [4;4];
 Te 261796408473600 8 5 [10];
 Te 1416647232000 8 6 [1;8];
 Te 966226060800 8 6 [2;7];
 Te 765404640000 8 6 [3;6];
 Te 687566880000 8 6 [4;5];
 Te (-698123755929600) 8 6 [11];
 Te (-2739889152000) 8 7 [1;9];
 Te (-1889900812800) 8 7 [2;8];
 Te (-1477360684800) 8 7 [3;7];
 Te (-1289512224000) 8 7 [4;6];
 Te (-617512896000) 8 7 [5;5];
 Te 1695443407257600 8 7 [12];
 Te 4966049088000 8 8 [1;10];
 Te 3471564096000 8 8 [2;9];
 Te 2695781088000 8 8 [3;8];
 Te 2306592288000 8 8 [4;7];
 Te 2143132992000 8 8 [5;6];
 Te (-3814747666329600) 8 8 [13];
 Te (-8533613088000) 8 9 [1;11];
 Te (-6050588544000) 8 9 [2;10];
 Te (-4688427744000) 8 9 [3;9];
 Te (-3956752800000) 8 9 [4;8];
 Te (-3596104512000) 8 9 [5;7];
 Te (-1743565824000) 8 9 [6;6];
 Te 8053356184473600 8 9 [14];
 Te 14024807596800 8 10 [1;12];
 Te 10086216940800 8 10 [2;11];
 Te 7822694880000 8 10 [3;10];
 Te 6540966432000 8 10 [4;9];
 Te 5848210368000 8 10 [5;8];
 Te 5543086348800 8 10 [6;7];
 Te (-16106712368947200) 8 10 [15];
 Te (-22194139968000) 8 11 [1;13];
 Te (-16183508140800) 8 11 [2;12];
 Te (-12588960384000) 8 11 [3;11];
 Te (-10463989536000) 8 11 [4;10];
 Te (-9241936704000) 8 11 [5;9];
 Te (-8608856256000) 8 11 [6;8];
 Te (-4206352550400) 8 11 [7;7];
 Te 2594592000 9 0 [1;3];
 Te 1037836800 9 0 [2;2];
 Te (-342486144000) 9 0 [6];
 Te (-25427001600) 9 1 [1;4];
 Te (-18162144000) 9 1 [2;3];
 Te 4452319872000 9 1 [7];
 Te 138032294400 9 2 [1;5];
 Te 92886393600 9 2 [2;4];
 Te 41513472000 9 2 [3;3];
 Te (-31166239104000) 9 2 [8];
 Te (-544864320000) 9 3 [1;6];
 Te (-355978022400) 9 3 [2;5];
 Te (-297859161600) 9 3 [3;4];
 Te 155831195520000 9 3 [9];
 Te 1743565824000 9 4 [1;7];
 Te 1126052928000 9 4 [2;6];
 Te 903436934400 9 4 [3;5];
 Te 422399577600 9 4 [4;4];
 Te (-623324782080000) 9 4 [10];
 Te (-4794806016000) 9 5 [1;8];
 Te (-3094829337600) 9 5 [2;7];
 Te (-2415565152000) 9 5 [3;6];
 Te (-2161295136000) 9 5 [4;5];
 Te 2119304259072000 9 5 [11];
 Te 11747274739200 9 6 [1;9];
 Te 7628100480000 9 6 [2;8];
 Te 5848210368000 9 6 [3;7];
 Te 5074503033600 9 6 [4;6];
 Te 2426462438400 9 6 [5;5];
 Te (-6357912777216000) 9 6 [12];
 Te (-26268687244800) 9 7 [1;10];
 Te (-17227053043200) 9 7 [2;9];
 Te (-13061176128000) 9 7 [3;8];
 Te (-11086172697600) 9 7 [4;7];
 Te (-10272508646400) 9 7 [5;6];
 Te 17257191823872000 9 7 [13];
 Te 54540918432000 9 8 [1;11];
 Te 36200785420800 9 8 [2;10];
 Te 27275907859200 9 8 [3;9];
 Te 22782593433600 9 8 [4;8];
 Te 20624930726400 9 8 [5;7];
 Te 9989179200000 9 8 [6;6];
 Te (-43142979559680000) 9 8 [14];
 Te (-106484650272000) 9 9 [1;12];
 Te (-71608144608000) 9 9 [2;11];
 Te (-53810281324800) 9 9 [3;10];
 Te (-44423047468800) 9 9 [4;9];
 Te (-39513560486400) 9 9 [5;8];
 Te (-37377692352000) 9 9 [6;7];
 Te 100666952305920000 9 9 [15];
 Te 197386180992000 9 10 [1;13];
 Te 134534265465600 9 10 [2;12];
 Te 101090493504000 9 10 [3;11];
 Te 82757625350400 9 10 [4;10];
 Te 72619516569600 9 10 [5;9];
 Te 67454202816000 9 10 [6;8];
 Te 32931599500800 9 10 [7;7];
 Te 7264857600 10 0 [1;4];
 Te 5189184000 10 0 [2;3];
 Te (-1335695961600) 10 0 [7];
 Te (-87178291200) 10 1 [1;5];
 Te (-58118860800) 10 1 [2;4];
 Te (-25945920000) 10 1 [3;3];
 Te 20035439424000 10 1 [8];
 Te 566658892800 10 2 [1;6];
 Te 363242880000 10 2 [2;5];
 Te 303048345600 10 2 [3;4];
 Te (-160283515392000) 10 2 [9];
 Te (-2637143308800) 10 3 [1;7];
 Te (-1656387532800) 10 3 [2;6];
 Te (-1322204083200) 10 3 [3;5];
 Te (-617512896000) 10 3 [4;4];
 Te 908273253888000 10 3 [10];
 Te 9829352332800 10 4 [1;8];
 Te 6124274956800 10 4 [2;7];
 Te 4743952012800 10 4 [3;6];
 Te 4235411980800 10 4 [4;5];
 Te (-4087229642496000) 10 4 [11];
 Te (-31166239104000) 10 5 [1;9];
 Te (-19418964364800) 10 5 [2;8];
 Te (-14733131212800) 10 5 [3;7];
 Te (-12742560230400) 10 5 [4;6];
 Te (-6087950668800) 10 5 [5;5];
 Te 15531472641484800 10 5 [12];
 Te 87265469491200 10 6 [1;10];
 Te 54660788582400 10 6 [2;9];
 Te 40886618572800 10 6 [3;8];
 Te 34551662745600 10 6 [4;7];
 Te 31965373440000 10 6 [5;6];
 Te (-51771575471616000) 10 6 [13];
 Te (-221280297638400) 10 7 [1;11];
 Te (-139802843980800) 10 7 [2;10];
 Te (-103602058560000) 10 7 [3;9];
 Te (-86044973414400) 10 7 [4;8];
 Te (-77719446604800) 10 7 [5;7];
 Te (-37617432652800) 10 7 [6;6];
 Te 155314726414848000 10 7 [14];
 Te 517359569126400 10 8 [1;12];
 Te 330362134502400 10 8 [2;11];
 Te 243439151155200 10 8 [3;10];
 Te 199551108556800 10 8 [4;9];
 Te 176971931136000 10 8 [5;8];
 Te 167207962521600 10 8 [6;7];
 Te (-427115497640832000) 10 8 [15];
 Te (-1130295604838400) 10 9 [1;13];
 Te (-730328869670400) 10 9 [2;12];
 Te (-536652955238400) 10 9 [3;11];
 Te (-435562461734400) 10 9 [4;10];
 Te (-380794775961600) 10 9 [5;9];
 Te (-353115668505600) 10 9 [6;8];
 Te (-172307892556800) 10 9 [7;7];
 Te 21794572800 11 0 [1;5];
 Te 14529715200 11 0 [2;4];
 Te 6486480000 11 0 [3;3];
 Te (-5194373184000) 11 0 [8];
 Te (-308237529600) 11 1 [1;6];
 Te (-196151155200) 11 1 [2;5];
 Te (-163459296000) 11 1 [3;4];
 Te 88304344128000 11 1 [9];
 Te 2328905779200 11 2 [1;7];
 Te 1441555315200 11 2 [2;6];
 Te 1147847500800 11 2 [3;5];
 Te 535783248000 11 2 [4;4];
 Te (-794739097152000) 11 2 [10];
 Te (-12466495641600) 11 3 [1;8];
 Te (-7603192396800) 11 3 [2;7];
 Te (-5865853593600) 11 3 [3;6];
 Te (-5230697472000) 11 3 [4;5];
 Te 5033347615296000 11 3 [11];
 Te 52982606476800 11 4 [1;9];
 Te 32125200307200 11 4 [2;8];
 Te 24232451443200 11 4 [3;7];
 Te 20918638540800 11 4 [4;6];
 Te 9989179200000 11 4 [5;5];
 Te (-25166738076480000) 11 4 [12];
 Te (-190114058534400) 11 5 [1;10];
 Te (-115315084684800) 11 5 [2;9];
 Te (-85587287385600) 11 5 [3;8];
 Te (-72136922457600) 11 5 [4;7];
 Te (-66672711705600) 11 5 [5;6];
 Te 105700299921216000 11 5 [13];
 Te 598391790796800 11 6 [1;11];
 Te 364644997516800 11 6 [2;10];
 Te 267550175692800 11 6 [3;9];
 Te 221454654220800 11 6 [4;8];
 Te 199744146201600 11 6 [5;7];
 Te 96640249305600 11 6 [6;6];
 Te (-387567766377792000) 11 6 [14];
 Te (-1695443407257600) 11 7 [1;12];
 Te (-1040952386073600) 11 7 [2;11];
 Te (-757784842214400) 11 7 [3;10];
 Te (-618529976064000) 11 7 [4;9];
 Te (-547523257881600) 11 7 [5;8];
 Te (-516923677670400) 11 7 [6;7];
 Te 1273436946669888000 11 7 [15];
 Te 4405125281356800 11 8 [1;13];
 Te 2730162545510400 11 8 [2;12];
 Te 1977497871148800 11 8 [3;11];
 Te 1596670403328000 11 8 [4;10];
 Te 1392673201920000 11 8 [5;9];
 Te 1290045672115200 11 8 [6;8];
 Te 629293381516800 11 8 [7;7];
 Te 68497228800 12 0 [1;6];
 Te 43589145600 12 0 [2;5];
 Te 36324288000 12 0 [3;4];
 Te (-20183850086400) 12 0 [9];
 Te (-1113079968000) 12 1 [1;7];
 Te (-684972288000) 12 1 [2;6];
 Te (-544864320000) 12 1 [3;5];
 Te (-254270016000) 12 1 [4;4];
 Te 383493151641600 12 1 [10];
 Te 9572487724800 12 2 [1;8];
 Te 5770891526400 12 2 [2;7];
 Te 4442979340800 12 2 [3;6];
 Te 3959347392000 12 2 [4;5];
 Te (-3834931516416000) 12 2 [11];
 Te (-57880158336000) 12 3 [1;9];
 Te (-34505479008000) 12 3 [2;8];
 Te (-25943325408000) 12 3 [3;7];
 Te (-22370572224000) 12 3 [4;6];
 Te (-10679340672000) 12 3 [5;5];
 Te 26844520614912000 12 3 [12];
 Te 276043832064000 12 4 [1;10];
 Te 163845371289600 12 4 [2;9];
 Te 121051727596800 12 4 [3;8];
 Te 101863163001600 12 4 [4;7];
 Te 94090284288000 12 4 [5;6];
 Te (-147644863382016000) 12 4 [13];
 Te (-1105065792230400) 12 5 [1;11];
 Te (-656271949132800) 12 5 [2;10];
 Te (-478624386240000) 12 5 [3;9];
 Te (-395314631712000) 12 5 [4;8];
 Te (-356233849171200) 12 5 [5;7];
 Te (-172307892556800) 12 5 [6;6];
 Te 679166371557273600 12 5 [14];
 Te 3860161329024000 12 6 [1;12];
 Te 2301849373824000 12 6 [2;11];
 Te 1662941472192000 12 6 [3;10];
 Te 1353676484160000 12 6 [4;9];
 Te 1196810046432000 12 6 [5;8];
 Te 1129355843616000 12 6 [6;7];
 Te (-2716665486229094400) 12 6 [15];
 Te (-12080034276710400) 12 7 [1;13];
 Te (-7251048143539200) 12 7 [2;12];
 Te (-5203426234406400) 12 7 [3;11];
 Te (-4187406839616000) 12 7 [4;10];
 Te (-3646792461312000) 12 7 [5;9];
 Te (-3375594808185600) 12 7 [6;8];
 Te (-1646279521286400) 12 7 [7;7];
 Te 222615993600 13 0 [1;7];
 Te 136994457600 13 0 [2;6];
 Te 108972864000 13 0 [3;5];
 Te 50854003200 13 0 [4;4];
 Te (-78441781017600) 13 0 [10];
 Te (-4081293216000) 13 1 [1;8];
 Te (-2448775929600) 13 1 [2;7];
 Te (-1883673792000) 13 1 [3;6];
 Te (-1678182105600) 13 1 [4;5];
 Te 1647277401369600 13 1 [11];
 Te 39328825536000 13 2 [1;9];
 Te 23226268665600 13 2 [2;8];
 Te 17432544729600 13 2 [3;7];
 Te 15022687680000 13 2 [4;6];
 Te 7170414451200 13 2 [5;5];
 Te (-18120051415065600) 13 2 [12];
 Te (-264913032384000) 13 3 [1;10];
 Te (-155089142208000) 13 3 [2;9];
 Te (-114276210048000) 13 3 [3;8];
 Te (-96067363392000) 13 3 [4;7];
 Te (-88703911296000) 13 3 [5;6];
 Te 138920394182169600 13 3 [13];
 Te 1400254599744000 13 4 [1;11];
 Te 817000696512000 13 4 [2;10];
 Te 593642649600000 13 4 [3;9];
 Te 489641023872000 13 4 [4;8];
 Te 440974261728000 13 4 [5;7];
 Te 213259894848000 13 4 [6;6];
 Te (-833522365093017600) 13 4 [14];
 Te (-6183827070220800) 13 5 [1;12];
 Te (-3610386184204800) 13 5 [2;11];
 Te (-2595702485376000) 13 5 [3;10];
 Te (-2109212334028800) 13 5 [4;9];
 Te (-1863267325920000) 13 5 [5;8];
 Te (-1757656015315200) 13 5 [6;7];
 Te 4167611825465088000 13 5 [15];
 Te 23728638757824000 13 6 [1;13];
 Te 13904149728268800 13 6 [2;12];
 Te 9917542514880000 13 6 [3;11];
 Te 7963419323059200 13 6 [4;10];
 Te 6928026628723200 13 6 [5;9];
 Te 6409599644448000 13 6 [6;8];
 Te 3125494301529600 13 6 [7;7];
 Te 742053312000 14 0 [1;8];
 Te 445231987200 14 0 [2;7];
 Te 342486144000 14 0 [3;6];
 Te 305124019200 14 0 [4;5];
 Te (-305051370624000) 14 0 [11];
 Te (-15137887564800) 14 1 [1;9];
 Te (-8904639744000) 14 1 [2;8];
 Te (-6678479808000) 14 1 [3;7];
 Te (-5753767219200) 14 1 [4;6];
 Te (-2746116172800) 14 1 [5;5];
 Te 7016181524352000 14 1 [12];
 Te 161470800691200 14 2 [1;10];
 Te 93795538636800 14 2 [2;9];
 Te 69010958016000 14 2 [3;8];
 Te 57982904179200 14 2 [4;7];
 Te 53527470796800 14 2 [5;6];
 Te (-84194178292224000) 14 2 [13];
 Te (-1198416098880000) 14 3 [1;11];
 Te (-691296865459200) 14 3 [2;10];
 Te (-501182806924800) 14 3 [3;9];
 Te (-413026873459200) 14 3 [4;8];
 Te (-371837206540800) 14 3 [5;7];
 Te (-179805225600000) 14 3 [6;6];
 Te 701618152435200000 14 3 [14];
 Te 6950813373504000 14 4 [1;12];
 Te 3998925298368000 14 4 [2;11];
 Te 2866255122931200 14 4 [3;10];
 Te 2326337133120000 14 4 [4;9];
 Te 2053957902796800 14 4 [5;8];
 Te 1937101630464000 14 4 [6;7];
 Te (-4560517990828800000) 14 4 [15];
 Te (-33555650768640000) 14 5 [1;13];
 Te (-19318467513945600) 14 5 [2;12];
 Te (-13725018058752000) 14 5 [3;11];
 Te (-11004205384972800) 14 5 [4;10];
 Te (-9566551298304000) 14 5 [5;9];
 Te (-8847615801024000) 14 5 [6;8];
 Te (-4313886972595200) 14 5 [7;7];
 Te 2522981260800 15 0 [1;9];
 Te 1484106624000 15 0 [2;8];
 Te 1113079968000 15 0 [3;7];
 Te 958961203200 15 0 [4;6];
 Te 457686028800 15 0 [5;5];
 Te (-1187353796428800) 15 0 [12];
 Te (-56652397401600) 15 1 [1;10];
 Te (-32798756390400) 15 1 [2;9];
 Te (-24116732640000) 15 1 [3;8];
 Te (-20258055417600) 15 1 [4;7];
 Te (-18699743462400) 15 1 [5;6];
 Te 29683844910720000 15 1 [13];
 Te 662397261926400 15 2 [1;11];
 Te 379593998784000 15 2 [2;10];
 Te 274856546764800 15 2 [3;9];
 Te 226400465491200 15 2 [4;8];
 Te 203779255680000 15 2 [5;7];
 Te 98533263628800 15 2 [6;6];
 Te (-385889983839360000) 15 2 [14];
 Te (-5368904122982400) 15 3 [1;12];
 Te (-3059229459686400) 15 3 [2;11];
 Te (-2188571562777600) 15 3 [3;10];
 Te (-1774991522304000) 15 3 [4;9];
 Te (-1566622952294400) 15 3 [5;8];
 Te (-1477279733529600) 15 3 [6;7];
 Te 3473009854554240000 15 3 [15];
 Te 33891207276326400 15 4 [1;13];
 Te 19270530869990400 15 4 [2;12];
 Te 13655750755046400 15 4 [3;11];
 Te 10937676932582400 15 4 [4;10];
 Te 9504070409433600 15 4 [5;9];
 Te 8787760639257600 15 4 [6;8];
 Te 4284398915596800 15 4 [7;7];
 Te 8715753446400 16 0 [1;10];
 Te 5045962521600 16 0 [2;9];
 Te 3710266560000 16 0 [3;8];
 Te 3116623910400 16 0 [4;7];
 Te 2876883609600 16 0 [5;6];
 Te (-4626053752320000) 16 0 [13];
 Te (-213535959436800) 16 1 [1;11];
 Te (-122020548249600) 16 1 [2;10];
 Te (-88304344128000) 16 1 [3;9];
 Te (-72721224576000) 16 1 [4;8];
 Te (-65449102118400) 16 1 [5;7];
 Te (-31645719705600) 16 1 [6;6];
 Te 124903451312640000 16 1 [14];
 Te 2714957198553600 16 2 [1;12];
 Te 1538330483289600 16 2 [2;11];
 Te 1099331743910400 16 2 [3;10];
 Te 891206027712000 16 2 [4;9];
 Te 786428100057600 16 2 [5;8];
 Te 741516750374400 16 2 [6;7];
 Te (-1748648318376960000) 16 2 [15];
 Te (-23855017182796800) 16 3 [1;13];
 Te (-13452765444518400) 16 3 [2;12];
 Te (-9517602763468800) 16 3 [3;11];
 Te (-7618256597952000) 16 3 [4;10];
 Te (-6617631436416000) 16 3 [5;9];
 Te (-6117932736115200) 16 3 [6;8];
 Te (-2982609082252800) 16 3 [7;7];
 Te 30505137062400 17 0 [1;11];
 Te 17431506892800 17 0 [2;10];
 Te 12614906304000 17 0 [3;9];
 Te 10388746368000 17 0 [4;8];
 Te 9349871731200 17 0 [5;7];
 Te 4520817100800 17 0 [6;6];
 Te (-18041609634048000) 17 0 [14];
 Te (-809559406656000) 17 1 [1;12];
 Te (-457577055936000) 17 1 [2;11];
 Te (-326840754240000) 17 1 [3;10];
 Te (-264913032384000) 17 1 [4;9];
 Te (-233746793280000) 17 1 [5;8];
 Te (-220389833664000) 17 1 [6;7];
 Te 523206679387392000 17 1 [15];
 Te 11117949184742400 17 2 [1;13];
 Te 6239473803763200 17 2 [2;12];
 Te 4410171243878400 17 2 [3;11];
 Te 3528733336128000 17 2 [4;10];
 Te 3064680178560000 17 2 [5;9];
 Te 2833011134553600 17 2 [6;8];
 Te 1381109624294400 17 2 [7;7];
 Te 107941254220800 18 0 [1;12];
 Te 61010274124800 18 0 [2;11];
 Te 43578767232000 18 0 [3;10];
 Te 35321737651200 18 0 [4;9];
 Te 31166239104000 18 0 [5;8];
 Te 29385311155200 18 0 [6;7];
 Te (-70431668379072000) 18 0 [15];
 Te (-3084035834880000) 18 1 [1;13];
 Te (-1727060067532800) 18 1 [2;12];
 Te (-1220205482496000) 18 1 [3;11];
 Te (-976164385996800) 18 1 [4;10];
 Te (-847721703628800) 18 1 [5;9];
 Te (-783608297472000) 18 1 [6;8];
 Te (-382009045017600) 18 1 [7;7];
 Te 385504479360000 19 0 [1;13];
 Te 215882508441600 19 0 [2;12];
 Te 152525685312000 19 0 [3;11];
 Te 122020548249600 19 0 [4;10];
 Te 105965212953600 19 0 [5;9];
 Te 97951037184000 19 0 [6;8];
 Te 47751130627200 19 0 [7;7]].
Definition wit1_4 : list term := [Te (-86486400) 7 0 [1;1];
 Te 7264857600 7 0 [4];
 Te 1037836800 7 1 [1;2];
 Te (-65383718400) 7 1 [5];
 Te (-3632428800) 7 2 [1;3];
 Te (-1297296000) 7 2 [2;2];
 Te 326918592000 7 2 [6];
 Te (-43243200) 7 3 [1;1;1];
 Te 9513504000 7 3 [1;4];
 Te 6227020800 7 3 [2;3];
 Te (-1198701504000) 7 3 [7];
 Te 129729600 7 4 [1;1;2];
 Te (-20756736000) 7 4 [1;5];
 Te (-13491878400) 7 4 [2;4];
 Te (-5708102400) 7 4 [3;3];
 Te 3596104512000 7 4 [8];
 Te (-129729600) 7 5 [1;1;3];
 Te (-129729600) 7 5 [1;2;2];
 Te 39956716800 7 5 [1;6];
 Te 26464838400 7 5 [2;5];
 Te 20756736000 7 5 [3;4];
 Te (-9349871731200) 7 5 [9];
 Te 129729600 7 6 [1;1;4];
 Te 259459200 7 6 [1;2;3];
 Te (-70226956800) 7 6 [1;7];
 Te 43243200 7 6 [2;2;2];
 Te (-47740492800) 7 6 [2;6];
 Te (-36324288000) 7 6 [3;5];
 Te (-16432416000) 7 6 [4;4];
 Te 21816367372800 7 6 [10];
 Te (-129729600) 7 7 [1;1;5];
 Te (-259459200) 7 7 [1;2;4];
 Te (-129729600) 7 7 [1;3;3];
 Te 115199884800 7 7 [1;8];
 Te (-129729600) 7 7 [2;2;3];
 Te 80432352000 7 7 [2;7];
 Te 60713452800 7 7 [3;6];
 Te 51891840000 7 7 [4;5];
 Te (-46749358656000) 7 7 [11];
 Te 129729600 7 8 [1;1;6];
 Te 259459200 7 8 [1;2;5];
 Te 259459200 7 8 [1;3;4];
 Te (-179026848000) 7 8 [1;9];
 Te 129729600 7 8 [2;2;4];
 Te 129729600 7 8 [2;3;3];
 Te (-128172844800) 7 8 [2;8];
 Te (-97037740800) 7 8 [3;7];
 Te (-80432352000) 7 8 [4;6];
 Te (-37621584000) 7 8 [5;5];
 Te 93498717312000 7 8 [12];
 Te (-129729600) 7 9 [1;1;7];
 Te (-259459200) 7 9 [1;2;6];
 Te (-259459200) 7 9 [1;3;5];
 Te (-129729600) 7 9 [1;4;4];
 Te 266378112000 7 9 [1;10];
 Te (-129729600) 7 9 [2;2;5];
 Te (-259459200) 7 9 [2;3;4];
 Te 195113318400 7 9 [2;9];
 Te (-43243200) 7 9 [3;3;3];
 Te 148929580800 7 9 [3;8];
 Te 121599878400 7 9 [4;7];
 Te 108972864000 7 9 [5;6];
 Te (-176608688256000) 7 9 [13];
 Te 129729600 7 10 [1;1;8];
 Te 259459200 7 10 [1;2;7];
 Te 259459200 7 10 [1;3;6];
 Te 259459200 7 10 [1;4;5];
 Te (-382442860800) 7 10 [1;11];
 Te 129729600 7 10 [2;2;6];
 Te 259459200 7 10 [2;3;5];
 Te 129729600 7 10 [2;4;4];
 Te (-285924038400) 7 10 [2;10];
 Te 129729600 7 10 [3;3;4];
 Te (-220540320000) 7 10 [3;9];
 Te (-179026848000) 7 10 [4;8];
 Te (-156194438400) 7 10 [5;7];
 Te (-74464790400) 7 10 [6;6];
 Te 317895638860800 7 10 [14];
 Te (-129729600) 7 11 [1;1;9];
 Te (-259459200) 7 11 [1;2;8];
 Te (-259459200) 7 11 [1;3;7];
 Te (-259459200) 7 11 [1;4;6];
 Te (-129729600) 7 11 [1;5;5];
 Te 532929196800 7 11 [1;12];
 Te (-129729600) 7 11 [2;2;7];
 Te (-259459200) 7 11 [2;3;6];
 Te (-259459200) 7 11 [2;4;5];
 Te 405794188800 7 11 [2;11];
 Te (-129729600) 7 11 [3;3;5];
 Te (-129729600) 7 11 [3;4;4];
 Te 316540224000 7 11 [3;10];
 Te 256864608000 7 11 [4;9];
 Te 220540320000 7 11 [5;8];
 Te 203416012800 7 11 [6;7];
 Te (-549092467123200) 7 11 [15];
 Te 129729600 7 12 [1;1;10];
 Te 259459200 7 12 [1;2;9];
 Te 259459200 7 12 [1;3;8];
 Te 259459200 7 12 [1;4;7];
 Te 259459200 7 12 [1;5;6];
 Te (-724064140800) 7 12 [1;13];
 Te 129729600 7 12 [2;2;8];
 Te 259459200 7 12 [2;3;7];
 Te 259459200 7 12 [2;4;6];
 Te 129729600 7 12 [2;5;5];
 Te (-560431872000) 7 12 [2;12];
 Te 129729600 7 12 [3;3;6];
 Te 259459200 7 12 [3;4;5];
 Te (-442118476800) 7 12 [3;11];
 Te 43243200 7 12 [4;4;4];
 Te (-359783424000) 7 12 [4;10];
 Te (-306161856000) 7 12 [5;9];
 Te (-276064588800) 7 12 [6;8];
 Te (-133189056000) 7 12 [7;7];
 Te (-1037836800) 8 0 [1;2];
 Te 65383718400 8 0 [5];
 Te 7783776000 8 1 [1;3];
 Te 3113510400 8 1 [2;2];
 Te (-719220902400) 8 1 [6];
 Te 129729600 8 2 [1;1;1];
 Te (-33729696000) 8 2 [1;4];
 Te (-24389164800) 8 2 [2;3];
 Te 4315325414400 8 2 [7];
 Te (-648648000) 8 3 [1;1;2];
 Te 108972864000 8 3 [1;5];
 Te 75243168000 8 3 [2;4];
 Te 33729696000 8 3 [3;3];
 Te (-18699743462400) 8 3 [8];
 Te 1037836800 8 4 [1;1;3];
 Te 908107200 8 4 [1;2;2];
 Te (-290594304000) 8 4 [1;6];
 Te (-197188992000) 8 4 [2;5];
 Te (-166053888000) 8 4 [3;4];
 Te 65449102118400 8 4 [9];
 Te (-1556755200) 8 5 [1;1;4];
 Te (-2594592000) 8 5 [1;2;3];
 Te 675631756800 8 5 [1;7];
 Te (-389188800) 8 5 [2;2;2];
 Te 457686028800 8 5 [2;6];
 Te 371026656000 8 5 [3;5];
 Te 173837664000 8 5 [4;4];
 Te (-196347306355200) 8 5 [10];
 Te 2205403200 8 6 [1;1;5];
 Te 3632428800 8 6 [1;2;4];
 Te 1686484800 8 6 [1;3;3];
 Te (-1416647232000) 8 6 [1;8];
 Te 1556755200 8 6 [2;2;3];
 Te (-966226060800) 8 6 [2;7];
 Te (-765404640000) 8 6 [3;6];
 Te (-687566880000) 8 6 [4;5];
 Te 523592816947200 8 6 [11];
 Te (-2983780800) 8 7 [1;1;6];
 Te (-4929724800) 8 7 [1;2;5];
 Te (-4410806400) 8 7 [1;3;4];
 Te 2739889152000 8 7 [1;9];
 Te (-2075673600) 8 7 [2;2;4];
 Te (-1945944000) 8 7 [2;3;3];
 Te 1889900812800 8 7 [2;8];
 Te 1477360684800 8 7 [3;7];
 Te 1289512224000 8 7 [4;6];
 Te 617512896000 8 7 [5;5];
 Te (-1271582555443200) 8 7 [12];
 Te 3891888000 8 8 [1;1;7];
 Te 6486480000 8 8 [1;2;6];
 Te 5708102400 8 8 [1;3;5];
 Te 2724321600 8 8 [1;4;4];
 Te (-4966049088000) 8 8 [1;10];
 Te 2724321600 8 8 [2;2;5];
 Te 4929724800 8 8 [2;3;4];
 Te (-3471564096000) 8 8 [2;9];
 Te 778377600 8 8 [3;3;3];
 Te (-2695781088000) 8 8 [3;8];
 Te (-2306592288000) 8 8 [4;7];
 Te (-2143132992000) 8 8 [5;6];
 Te 2861060749747200 8 8 [13];
 Te (-4929724800) 8 9 [1;1;8];
 Te (-8302694400) 8 9 [1;2;7];
 Te (-7264857600) 8 9 [1;3;6];
 Te (-6745939200) 8 9 [1;4;5];
 Te 8533613088000 8 9 [1;11];
 Te (-3502699200) 8 9 [2;2;6];
 Te (-6227020800) 8 9 [2;3;5];
 Te (-2983780800) 8 9 [2;4;4];
 Te 6050588544000 8 9 [2;10];
 Te (-2854051200) 8 9 [3;3;4];
 Te 4688427744000 8 9 [3;9];
 Te 3956752800000 8 9 [4;8];
 Te 3596104512000 8 9 [5;7];
 Te 1743565824000 8 9 [6;6];
 Te (-6040017138355200) 8 9 [14];
 Te 6097291200 8 10 [1;1;9];
 Te 10378368000 8 10 [1;2;8];
 Te 9081072000 8 10 [1;3;7];
 Te 8302694400 8 10 [1;4;6];
 Te 4021617600 8 10 [1;5;5];
 Te (-14024807596800) 8 10 [1;12];
 Te 4410806400 8 10 [2;2;7];
 Te 7783776000 8 10 [2;3;6];
 Te 7264857600 8 10 [2;4;5];
 Te (-10086216940800) 8 10 [2;11];
 Te 3502699200 8 10 [3;3;5];
 Te 3372969600 8 10 [3;4;4];
 Te (-7822694880000) 8 10 [3;10];
 Te (-6540966432000) 8 10 [4;9];
 Te (-5848210368000) 8 10 [5;8];
 Te (-5543086348800) 8 10 [6;7];
 Te 12080034276710400 8 10 [15];
 Te (-7394587200) 8 11 [1;1;10];
 Te (-12713500800) 8 11 [1;2;9];
 Te (-11156745600) 8 11 [1;3;8];
 Te (-10118908800) 8 11 [1;4;7];
 Te (-9599990400) 8 11 [1;5;6];
 Te 22194139968000 8 11 [1;13];
 Te (-5448643200) 8 11 [2;2;8];
 Te (-9599990400) 8 11 [2;3;7];
 Te (-8821612800) 8 11 [2;4;6];
 Te (-4281076800) 8 11 [2;5;5];
 Te 16183508140800 8 11 [2;12];
 Te (-4281076800) 8 11 [3;3;6];
 Te (-8043235200) 8 11 [3;4;5];
 Te 12588960384000 8 11 [3;11];
 Te (-1297296000) 8 11 [4;4;4];
 Te 10463989536000 8 11 [4;10];
 Te 9241936704000 8 11 [5;9];
 Te 8608856256000 8 11 [6;8];
 Te 4206352550400 8 11 [7;7];
 Te (-4151347200) 9 0 [1;3];
 Te (-1868106240) 9 0 [2;2];
 Te 410983372800 9 0 [6];
 Te (-129729600) 9 1 [1;1;1];
 Te 39956716800 9 1 [1;4];
 Te 31135104000 9 1 [2;3];
 Te (-5342783846400) 9 1 [7];
 Te 1167566400 9 2 [1;1;2];
 Te (-214313299200) 9 2 [1;5];
 Te (-154118764800) 9 2 [2;4];
 Te (-71610739200) 9 2 [3;3];
 Te 37399486924800 9 2 [8];
 Te (-2983780800) 9 3 [1;1;3];
 Te (-2464862400) 9 3 [1;2;2];
 Te 839091052800 9 3 [1;6];
 Te 577556179200 9 3 [2;5];
 Te 506983276800 9 3 [3;4];
 Te (-186997434624000) 9 3 [9];
 Te 6616209600 9 4 [1;1;4];
 Te 10118908800 9 4 [1;2;3];
 Te (-2669835168000) 9 4 [1;7];
 Te 1427025600 9 4 [2;2;2];
 Te (-1798052256000) 9 4 [2;6];
 Te (-1511609299200) 9 4 [3;5];
 Te (-721815494400) 9 4 [4;4];
 Te 747989738496000 9 4 [10];
 Te (-13102689600) 9 5 [1;1;5];
 Te (-19459440000) 9 5 [1;2;4];
 Te (-8821612800) 9 5 [1;3;3];
 Te 7312079174400 9 5 [1;8];
 Te (-7654046400) 9 5 [2;2;3];
 Te 4884163764480 9 5 [2;7];
 Te 3977509536000 9 5 [3;6];
 Te 3668753088000 9 5 [4;5];
 Te (-2543165110886400) 9 5 [11];
 Te 23740516800 9 6 [1;1;6];
 Te 35026992000 9 6 [1;2;5];
 Te 30097267200 9 6 [1;3;4];
 Te (-17860652409600) 9 6 [1;9];
 Te 13362148800 9 6 [2;2;4];
 Te 12194582400 9 6 [2;3;3];
 Te (-11932528608000) 9 6 [2;8];
 Te (-9498801312000) 9 6 [3;7];
 Te (-8521677964800) 9 6 [4;6];
 Te (-4130071545600) 9 6 [5;5];
 Te 7629495332659200 9 6 [12];
 Te (-40086446400) 9 7 [1;1;7];
 Te (-59416156800) 9 7 [1;2;6];
 Te (-49556707200) 9 7 [1;3;5];
 Te (-23351328000) 9 7 [1;4;4];
 Te 39848262854400 9 7 [1;10];
 Te (-22443220800) 9 7 [2;2;5];
 Te (-38918880000) 9 7 [2;3;4];
 Te 26765292153600 9 7 [2;9];
 Te (-5967561600) 9 7 [3;3;3];
 Te 20974162809600 9 7 [3;8];
 Te 18401884300800 9 7 [4;7];
 Te 17413863667200 9 7 [5;6];
 Te (-20708630188646400) 9 7 [13];
 Te 63956692800 9 8 [1;1;8];
 Te 95740444800 9 8 [1;2;7];
 Te 78616137600 9 8 [1;3;6];
 Te 71351280000 9 8 [1;4;5];
 Te (-82590533625600) 9 8 [1;11];
 Te 36194558400 9 8 [2;2;6];
 Te 60972912000 9 8 [2;3;5];
 Te 28799971200 9 8 [2;4;4];
 Te (-55945111622400) 9 8 [2;10];
 Te 26724297600 9 8 [3;3;4];
 Te (-43391437689600) 9 8 [3;9];
 Te (-37399486924800) 9 8 [4;8];
 Te (-34704224755200) 9 8 [5;7];
 Te (-16967074924800) 9 8 [6;6];
 Te 51771575471616000 9 8 [14];
 Te (-97426929600) 9 9 [1;1;9];
 Te (-147632284800) 9 9 [1;2;8];
 Te (-120389068800) 9 9 [1;3;7];
 Te (-106637731200) 9 9 [1;4;6];
 Te (-51243192000) 9 9 [1;5;5];
 Te 161025568704000 9 9 [1;12];
 Te (-56172916800) 9 9 [2;2;7];
 Te (-93145852800) 9 9 [2;3;6];
 Te (-84843158400) 9 9 [2;4;5];
 Te 110194916832000 9 9 [2;11];
 Te (-39697257600) 9 9 [3;3;5];
 Te (-37621584000) 9 9 [3;4;4];
 Te 84942271814400 9 9 [3;10];
 Te 72196079155200 9 9 [4;9];
 Te 65906788147200 9 9 [5;8];
 Te 63313233984000 9 9 [6;7];
 Te (-120800342767104000) 9 9 [15];
 Te 142832289600 9 10 [1;1;10];
 Te 219243024000 9 10 [1;2;9];
 Te 178507929600 9 10 [1;3;8];
 Te 155675520000 9 10 [1;4;7];
 Te 145556611200 9 10 [1;5;6];
 Te (-298157020761600) 9 10 [1;13];
 Te 84194510400 9 10 [2;2;8];
 Te 138551212800 9 10 [2;3;7];
 Te 123243120000 9 10 [2;4;6];
 Te 59286427200 9 10 [2;5;5];
 Te (-206320502868480) 9 10 [2;12];
 Te 58118860800 9 10 [3;3;6];
 Te 106378272000 9 10 [3;4;5];
 Te (-158553960364800) 9 10 [3;11];
 Te 16864848000 9 10 [4;4;4];
 Te (-133312212633600) 9 10 [4;10];
 Te (-120044506982400) 9 10 [5;9];
 Te (-113636902579200) 9 10 [6;8];
 Te (-55866028458240) 9 10 [7;7];
 Te 43243200 10 0 [1;1;1];
 Te (-15740524800) 10 0 [1;4];
 Te (-12972960000) 10 0 [2;3];
 Te 2226159936000 10 0 [7];
 Te (-908107200) 10 1 [1;1;2];
 Te 185253868800 10 1 [1;5];
 Te 138032294400 10 1 [2;4];
 Te 64864800000 10 1 [3;3];
 Te (-33392399040000) 10 1 [8];
 Te 4021617600 10 2 [1;1;3];
 Te 3243240000 10 2 [1;2;2];
 Te (-1187804217600) 10 2 [1;6];
 Te (-831826195200) 10 2 [2;5];
 Te (-743091148800) 10 2 [3;4];
 Te 267139192320000 10 2 [9];
 Te (-13621608000) 10 3 [1;1;4];
 Te (-19978358400) 10 3 [1;2;3];
 Te 5474070201600 10 3 [1;7];
 Te (-2724321600) 10 3 [2;2;2];
 Te 3694180089600 10 3 [2;6];
 Te 3163845484800 10 3 [3;5];
 Te 1519566048000 10 3 [4;4];
 Te (-1513788756480000) 10 3 [10];
 Te 38270232000 10 4 [1;1;5];
 Te 53708054400 10 4 [1;2;4];
 Te 24129705600 10 4 [1;3;3];
 Te (-20258055417600) 10 4 [1;8];
 Te 20108088000 10 4 [2;2;3];
 Te (-13392764985600) 10 4 [2;7];
 Te (-11086172697600) 10 4 [3;6];
 Te (-10323362649600) 10 4 [4;5];
 Te 6812049404160000 10 4 [11];
 Te (-93535041600) 10 5 [1;1;6];
 Te (-128951222400) 10 5 [1;2;5];
 Te (-108972864000) 10 5 [1;3;4];
 Te 63890790163200 10 5 [1;9];
 Te (-46313467200) 10 5 [2;2;4];
 Te (-41772931200) 10 5 [2;3;3];
 Te 41834682489600 10 5 [2;8];
 Te 33716204121600 10 5 [3;7];
 Te 30595947782400 10 5 [4;6];
 Te 14882060793600 10 5 [5;5];
 Te (-25885787735808000) 10 5 [12];
 Te 205232227200 10 6 [1;1;7];
 Te 282032150400 10 6 [1;2;6];
 Te 229621392000 10 6 [1;3;5];
 Te 107675568000 10 6 [1;4;4];
 Te (-178167000211200) 10 6 [1;10];
 Te 99502603200 10 6 [2;2;5];
 Te 169167398400 10 6 [2;3;4];
 Te (-116393916038400) 10 6 [2;9];
 Te 25556731200 10 6 [3;3;3];
 Te (-91907713497600) 10 6 [3;8];
 Te (-81596458944000) 10 6 [4;7];
 Te (-77690387174400) 10 6 [5;6];
 Te 86285959119360000 10 6 [13];
 Te (-413318505600) 10 7 [1;1;8];
 Te (-570810240000) 10 7 [1;2;7];
 Te (-454313059200) 10 7 [1;3;6];
 Te (-408648240000) 10 7 [1;4;5];
 Te 450352155052800 10 7 [1;11];
 Te (-200432232000) 10 7 [2;2;6];
 Te (-328734806400) 10 7 [2;3;5];
 Te (-154378224000) 10 7 [2;4;4];
 Te 294966191520000 10 7 [2;10];
 Te (-140756616000) 10 7 [3;3;4];
 Te 229397219251200 10 7 [3;9];
 Te 199921616294400 10 7 [4;8];
 Te 186964742764800 10 7 [5;7];
 Te 91635281337600 10 7 [6;6];
 Te (-258857877358080000) 10 7 [14];
 Te 776431656000 10 8 [1;1;9];
 Te 1082463782400 10 8 [1;2;8];
 Te 850247798400 10 8 [1;3;7];
 Te 743350608000 10 8 [1;4;6];
 Te 356107752000 10 8 [1;5;5];
 Te (-1050302257804800) 10 8 [1;12];
 Te 381145564800 10 8 [2;2;7];
 Te 611545334400 10 8 [2;3;6];
 Te 551350800000 10 8 [2;4;5];
 Te (-691890508108800) 10 8 [2;11];
 Te 252972720000 10 8 [3;3;5];
 Te 238053816000 10 8 [3;4;4];
 Te (-532240592083200) 10 8 [3;10];
 Te (-456694375737600) 10 8 [4;9];
 Te (-420537179462400) 10 8 [5;8];
 Te (-405738664531200) 10 8 [6;7];
 Te 711859162734720000 10 8 [15];
 Te (-1377079704000) 10 9 [1;1;10];
 Te (-1942571030400) 10 9 [1;2;9];
 Te (-1515501187200) 10 9 [1;3;8];
 Te (-1299112214400) 10 9 [1;4;7];
 Te (-1207782576000) 10 9 [1;5;6];
 Te 2290025991052800 10 9 [1;13];
 Te (-688864176000) 10 9 [2;2;8];
 Te (-1091025936000) 10 9 [2;3;7];
 Te (-956626070400) 10 9 [2;4;6];
 Te (-458594136000) 10 9 [2;5;5];
 Te 1520393030956800 10 9 [2;12];
 Te (-441859017600) 10 9 [3;3;6];
 Te (-799134336000) 10 9 [3;4;5];
 Te 1160868201292800 10 9 [3;11];
 Te (-125621496000) 10 9 [4;4;4];
 Te 983327189644800 10 9 [4;10];
 Te 893337744499200 10 9 [5;9];
 Te 850456922515200 10 9 [6;8];
 Te 418862629785600 10 9 [7;7];
 Te 259459200 11 0 [1;1;2];
 Te (-59156697600) 11 0 [1;5];
 Te (-45664819200) 11 0 [2;4];
 Te (-21312720000) 11 0 [3;3];
 Te 11130799680000 11 0 [8];
 Te (-2594592000) 11 1 [1;1;3];
 Te (-2075673600) 11 1 [1;2;2];
 Te 821966745600 11 1 [1;6];
 Te 588453465600 11 1 [2;5];
 Te 526702176000 11 1 [3;4];
 Te (-189223594560000) 11 1 [9];
 Te 14789174400 11 2 [1;1;4];
 Te 21275654400 11 2 [1;2;3];
 Te (-6130501977600) 11 2 [1;7];
 Te 2854051200 11 2 [2;2;2];
 Te (-4178330956800) 11 2 [2;6];
 Te (-3603369369600) 11 2 [3;5];
 Te (-1729295568000) 11 2 [4;4];
 Te 1703012351040000 11 2 [10];
 Te (-61751289600) 11 3 [1;1;5];
 Te (-84064780800) 11 3 [1;2;4];
 Te (-37621584000) 11 3 [1;3;3];
 Te 32501935065600 11 3 [1;8];
 Te (-30616185600) 11 3 [2;2;3];
 Te 21473881228800 11 3 [2;7];
 Te 17930706393600 11 3 [3;6];
 Te 16709172480000 11 3 [4;5];
 Te (-10785744889920000) 11 3 [11];
 Te 208864656000 11 4 [1;1;6];
 Te 276583507200 11 4 [1;2;5];
 Te 231956524800 11 4 [1;3;4];
 Te (-137131452057600) 11 4 [1;9];
 Te 95740444800 11 4 [2;2;4];
 Te 85880995200 11 4 [2;3;3];
 Te (-88943651596800) 11 4 [2;8];
 Te (-72277030425600) 11 4 [3;7];
 Te (-65762528832000) 11 4 [4;6];
 Te (-31980940992000) 11 4 [5;5];
 Te 53928724449600000 11 4 [12];
 Te (-604799395200) 11 5 [1;1;7];
 Te (-791869478400) 11 5 [1;2;6];
 Te (-637231795200) 11 5 [1;3;5];
 Te (-298118620800) 11 5 [1;4;4];
 Te 489309953932800 11 5 [1;10];
 Te (-267242976000) 11 5 [2;2;5];
 Te (-449902252800) 11 5 [2;3;4];
 Te 314333782963200 11 5 [2;9];
 Te (-67459392000) 11 5 [3;3;3];
 Te 249809393433600 11 5 [3;8];
 Te 222703171891200 11 5 [4;7];
 Te 212120350041600 11 5 [5;6];
 Te (-226500642688320000) 11 5 [13];
 Te 1552863312000 11 6 [1;1;8];
 Te 2030527699200 11 6 [1;2;7];
 Te 1590484896000 11 6 [1;3;6];
 Te 1424431008000 11 6 [1;4;5];
 Te (-1533378963916800) 11 6 [1;11];
 Te 677966889600 11 6 [2;2;6];
 Te 1096474579200 11 6 [2;3;5];
 Te 513469756800 11 6 [2;4;4];
 Te (-981736531776000) 11 6 [2;10];
 Te 463653590400 11 6 [3;3;4];
 Te (-766449741657600) 11 6 [3;9];
 Te (-671272842240000) 11 6 [4;8];
 Te (-628583501145600) 11 6 [5;7];
 Te (-308063173017600) 11 6 [6;6];
 Te 830502356523840000 11 6 [14];
 Te (-3621790972800) 11 7 [1;1;9];
 Te (-4759000646400) 11 7 [1;2;8];
 Te (-3662785526400) 11 7 [1;3;7];
 Te (-3182007628800) 11 7 [1;4;6];
 Te (-1521987667200) 11 7 [1;5;5];
 Te 4329435843532800 11 7 [1;12];
 Te (-1586074089600) 11 7 [2;2;7];
 Te (-2499111014400) 11 7 [2;3;6];
 Te (-2241727488000) 11 7 [2;4;5];
 Te 2774685744230400 11 7 [2;11];
 Te (-1016561145600) 11 7 [3;3;5];
 Te (-953253100800) 11 7 [3;4;4];
 Te 2136350283724800 11 7 [3;10];
 Te 1842404211648000 11 7 [4;9];
 Te 1700347186137600 11 7 [5;8];
 Te 1640869796966400 11 7 [6;7];
 Te (-2728793457149760000) 11 7 [15];
 Te 7808684083200 11 8 [1;1;10];
 Te 10349308569600 11 8 [1;2;9];
 Te 7878478608000 11 8 [1;3;8];
 Te 6696382492800 11 8 [1;4;7];
 Te 6207820819200 11 8 [1;5;6];
 Te (-11217174685516800) 11 8 [1;13];
 Te 3461964105600 11 8 [2;2;8];
 Te 5363281123200 11 8 [2;3;7];
 Te 4668708844800 11 8 [2;4;6];
 Te 2234203171200 11 8 [2;5;5];
 Te (-7218100976486400) 11 8 [2;12];
 Te 2127565440000 11 8 [3;3;6];
 Te 3824428608000 11 8 [3;4;5];
 Te (-5499282889900800) 11 8 [3;11];
 Te 598572374400 11 8 [4;4;4];
 Te (-4679730671616000) 11 8 [4;10];
 Te (-4264217141184000) 11 8 [5;9];
 Te (-4062502142899200) 11 8 [6;8];
 Te (-2000810280268800) 11 8 [7;7];
 Te 648648000 12 0 [1;1;3];
 Te 518918400 12 0 [1;2;2];
 Te (-222615993600) 12 0 [1;6];
 Te (-163459296000) 12 0 [2;5];
 Te (-145297152000) 12 0 [3;4];
 Te 52982606476800 12 0 [9];
 Te (-8172964800) 12 1 [1;1;4];
 Te (-11675664000) 12 1 [1;2;3];
 Te 3561855897600 12 1 [1;7];
 Te (-1556755200) 12 1 [2;2;2];
 Te 2465900236800 12 1 [2;6];
 Te 2124970848000 12 1 [3;5];
 Te 1017080064000 12 1 [4;4];
 Te (-1006669523059200) 12 1 [10];
 Te 56302646400 12 2 [1;1;5];
 Te 75502627200 12 2 [1;2;4];
 Te 33729696000 12 2 [1;3;3];
 Te (-30275775129600) 12 2 [1;8];
 Te 27113486400 12 2 [2;2;3];
 Te (-20138185267200) 12 2 [2;7];
 Te (-16864329081600) 12 2 [3;6];
 Te (-15673930272000) 12 2 [4;5];
 Te 10066695230592000 12 2 [11];
 Te (-277880803200) 12 3 [1;1;6];
 Te (-359610451200) 12 3 [1;2;5];
 Te (-300453753600) 12 3 [1;3;4];
 Te 181432034784000 12 3 [1;9];
 Te (-121816094400) 12 3 [2;2;4];
 Te (-108972864000) 12 3 [2;3;3];
 Te 117541244620800 12 3 [2;8];
 Te 95947493241600 12 3 [3;7];
 Te 87170507424000 12 3 [4;6];
 Te 42335957664000 12 3 [5;5];
 Te (-70466866614144000) 12 3 [12];
 Te 1095177283200 12 4 [1;1;7];
 Te 1391220230400 12 4 [1;2;6];
 Te 1112820508800 12 4 [1;3;5];
 Te 519956236800 12 4 [1;4;4];
 Te (-859297735296000) 12 4 [1;10];
 Te 456388732800 12 4 [2;2;5];
 Te 764366803200 12 4 [2;3;4];
 Te (-547635344256000) 12 4 [2;9];
 Te 114162048000 12 4 [3;3;3];
 Te (-437234935737600) 12 4 [3;8];
 Te (-389763242668800) 12 4 [4;7];
 Te (-370632278016000) 12 4 [5;6];
 Te 387567766377792000 12 4 [13];
 Te (-3656039587200) 12 5 [1;1;8];
 Te (-4609552147200) 12 5 [1;2;7];
 Te (-3579758582400) 12 5 [1;3;6];
 Te (-3198353558400) 12 5 [1;4;5];
 Te 3421162589644800 12 5 [1;11];
 Te (-1487479593600) 12 5 [2;2;6];
 Te (-2387284099200) 12 5 [2;3;5];
 Te (-1116193478400) 12 5 [2;4;4];
 Te 2160488217888000 12 5 [2;10];
 Te (-1002550348800) 12 5 [3;3;4];
 Te 1692994631328000 12 5 [3;9];
 Te 1484420569632000 12 5 [4;8];
 Te 1388149271308800 12 5 [5;7];
 Te 679761828345600 12 5 [6;6];
 Te (-1782811725337843200) 12 5 [14];
 Te 10728378460800 12 6 [1;1;9];
 Te 13523532422400 12 6 [1;2;8];
 Te 10290670790400 12 6 [1;3;7];
 Te 8908531632000 12 6 [1;4;6];
 Te 4257206553600 12 6 [1;5;5];
 Te (-11898379625932800) 12 6 [1;12];
 Te 4335303772800 12 6 [2;2;7];
 Te 6760728374400 12 6 [2;3;6];
 Te 6047215574400 12 6 [2;4;5];
 Te (-7485240168806400) 12 6 [2;11];
 Te 2723543222400 12 6 [3;3;5];
 Te 2548927180800 12 6 [3;4;4];
 Te (-5775771953952000) 12 6 [3;10];
 Te (-4990622468832000) 12 6 [4;9];
 Te (-4602406640832000) 12 6 [5;8];
 Te (-4436288406950400) 12 6 [6;7];
 Te 7131246901351372800 12 6 [15];
 Te (-28383539184000) 12 7 [1;1;10];
 Te (-35943920812800) 12 7 [1;2;9];
 Te (-26973897350400) 12 7 [1;3;8];
 Te (-22818917721600) 12 7 [1;4;7];
 Te (-21118941043200) 12 7 [1;5;6];
 Te 37102962421324800 12 7 [1;13];
 Te (-11520766857600) 12 7 [2;2;8];
 Te (-17616241843200) 12 7 [2;3;7];
 Te (-15272546889600) 12 7 [2;4;6];
 Te (-7301181888000) 12 7 [2;5;5];
 Te 23342622624921600 12 7 [2;12];
 Te (-6901874179200) 12 7 [3;3;6];
 Te (-12363749798400) 12 7 [3;4;5];
 Te 17788798816588800 12 7 [3;11];
 Te (-1930376448000) 12 7 [4;4;4];
 Te 15172393043808000 12 7 [4;10];
 Te 13824453202560000 12 7 [5;9];
 Te 13155680509171200 12 7 [6;8];
 Te 6475573891987200 12 7 [7;7];
 Te 1816214400 13 0 [1;1;4];
 Te 2594592000 13 0 [1;2;3];
 Te (-840993753600) 13 0 [1;7];
 Te 345945600 13 0 [2;2;2];
 Te (-593642649600) 13 0 [2;6];
 Te (-508540032000) 13 0 [3;5];
 Te (-242969126400) 13 0 [4;4];
 Te 244041096499200 13 0 [10];
 Te (-27243216000) 13 1 [1;1;5];
 Te (-36324288000) 13 1 [1;2;4];
 Te (-16216200000) 13 1 [1;3;3];
 Te 15212092896000 13 1 [1;8];
 Te (-12972960000) 13 1 [2;2;3];
 Te 10240335705600 13 1 [2;7];
 Te 8562153600000 13 1 [3;6];
 Te 7933224499200 13 1 [4;5];
 Te (-5124863026483200) 13 1 [11];
 Te 218724105600 13 2 [1;1;6];
 Te 279697017600 13 2 [1;2;5];
 Te 233253820800 13 2 [1;3;4];
 Te (-145071422496000) 13 2 [1;9];
 Te 93664771200 13 2 [2;2;4];
 Te 83675592000 13 2 [2;3;3];
 Te (-94463386617600) 13 2 [2;8];
 Te (-77196376857600) 13 2 [3;7];
 Te (-69929443584000) 13 2 [4;6];
 Te (-33919620134400) 13 2 [5;5];
 Te 56373493291315200 13 2 [12];
 Te (-1241512272000) 13 3 [1;1;7];
 Te (-1548971424000) 13 3 [1;2;6];
 Te (-1235025792000) 13 3 [1;3;5];
 Te (-576648072000) 13 3 [1;4;4];
 Te 969245301024000 13 3 [1;10];
 Te (-499458960000) 13 3 [2;2;5];
 Te (-834161328000) 13 3 [2;3;4];
 Te 617017328928000 13 3 [2;9];
 Te (-124324200000) 13 3 [3;3;3];
 Te 493836479136000 13 3 [3;8];
 Te 439295560704000 13 3 [4;7];
 Te 416930177664000 13 3 [5;6];
 Te (-432196781900083200) 13 3 [13];
 Te 5573961993600 13 4 [1;1;8];
 Te 6863733676800 13 4 [1;2;7];
 Te 5304902803200 13 4 [1;3;6];
 Te 4733054726400 13 4 [1;4;5];
 Te (-5090114693664000) 13 4 [1;11];
 Te 2165705942400 13 4 [2;2;6];
 Te 3460666809600 13 4 [2;3;5];
 Te 1616560545600 13 4 [2;4;4];
 Te (-3193426428192000) 13 4 [2;10];
 Te 1447652606400 13 4 [3;3;4];
 Te (-2509253274528000) 13 4 [3;9];
 Te (-2197705045536000) 13 4 [4;8];
 Te (-2050916003136000) 13 4 [5;7];
 Te (-1003458456000000) 13 4 [6;6];
 Te 2593180691400499200 13 4 [14];
 Te (-21037211395200) 13 5 [1;1;9];
 Te (-25772082336000) 13 5 [1;2;8];
 Te (-19482791328000) 13 5 [1;3;7];
 Te (-16830599385600) 13 5 [1;4;6];
 Te (-8038564934400) 13 5 [1;5;5];
 Te 22362444405100800 13 5 [1;12];
 Te (-8041418985600) 13 5 [2;2;7];
 Te (-12464419968000) 13 5 [2;3;6];
 Te (-11129761843200) 13 5 [2;4;5];
 Te 13910457181420800 13 5 [2;11];
 Te (-4992643656000) 13 5 [3;3;5];
 Te (-4667022360000) 13 5 [3;4;4];
 Te 10757917890720000 13 5 [3;10];
 Te 9293698295481600 13 5 [4;9];
 Te 8554761607392000 13 5 [5;8];
 Te 8234839592179200 13 5 [6;7];
 Te (-12965903457002496000) 13 5 [15];
 Te 69344882006400 13 6 [1;1;10];
 Te 84987936633600 13 6 [1;2;9];
 Te 63236952979200 13 6 [1;3;8];
 Te 53344292601600 13 6 [1;4;7];
 Te 49319042572800 13 6 [1;5;6];
 Te (-85447067850144000) 13 6 [1;13];
 Te 26409573590400 13 6 [2;2;8];
 Te 40064132908800 13 6 [2;3;7];
 Te 34647662649600 13 6 [2;4;6];
 Te 16552978041600 13 6 [2;5;5];
 Te (-52940977285996800) 13 6 [2;12];
 Te 15578060097600 13 6 [3;3;6];
 Te 27846977558400 13 6 [3;4;5];
 Te (-40397011278624000) 13 6 [3;11];
 Te 4341401064000 13 6 [4;4;4];
 Te (-34471863992966400) 13 6 [4;10];
 Te (-31363573912070400) 13 6 [5;9];
 Te (-29799519605856000) 13 6 [6;8];
 Te (-14659133794905600) 13 6 [7;7];
 Te 5448643200 14 0 [1;1;5];
 Te 7264857600 14 0 [1;2;4];
 Te 3243240000 14 0 [1;3;3];
 Te (-3190829241600) 14 0 [1;8];
 Te 2594592000 14 0 [2;2;3];
 Te (-2181636737280) 14 0 [2;7];
 Te (-1815176563200) 14 0 [3;6];
 Te (-1678182105600) 14 0 [4;5];
 Te 1098184934246400 14 0 [11];
 Te (-94183689600) 14 1 [1;1;6];
 Te (-119870150400) 14 1 [1;2;5];
 Te (-99891792000) 14 1 [1;3;4];
 Te 64336022150400 14 1 [1;9];
 Te (-39956716800) 14 1 [2;2;4];
 Te (-35675640000) 14 1 [2;3;3];
 Te 42297038784000 14 1 [2;8];
 Te 34505479008000 14 1 [3;7];
 Te 31166239104000 14 1 [4;6];
 Te 15103638950400 14 1 [5;5];
 Te (-25258253487667200) 14 1 [12];
 Te 860496436800 14 2 [1;1;7];
 Te 1063263801600 14 2 [1;2;6];
 Te 846355910400 14 2 [1;3;5];
 Te 395026632000 14 2 [1;4;4];
 Te (-679943449785600) 14 2 [1;10];
 Te 339632092800 14 2 [2;2;5];
 Te 566399433600 14 2 [2;3;4];
 Te (-434620624838400) 14 2 [2;9];
 Te 84324240000 14 2 [3;3;3];
 Te (-347948797996800) 14 2 [3;8];
 Te (-308665637280000) 14 2 [4;7];
 Te (-292483166976000) 14 2 [5;6];
 Te 303099041852006400 14 2 [13];
 Te (-5509745841600) 14 3 [1;1;8];
 Te (-6687041961600) 14 3 [1;2;7];
 Te (-5154416467200) 14 3 [1;3;6];
 Te (-4595022432000) 14 3 [1;4;5];
 Te 5009379293318400 14 3 [1;11];
 Te (-2080603324800) 14 3 [2;2;6];
 Te (-3316407494400) 14 3 [2;3;5];
 Te (-1548322776000) 14 3 [2;4;4];
 Te 3139850179065600 14 3 [2;10];
 Te (-1384214832000) 14 3 [3;3;4];
 Te 2470443886310400 14 3 [3;9];
 Te 2159004111264000 14 3 [4;8];
 Te 2010821772960000 14 3 [5;7];
 Te 983174973580800 14 3 [6;6];
 Te (-2525825348766720000) 14 3 [14];
 Te 27715691203200 14 4 [1;1;9];
 Te 33315339657600 14 4 [1;2;8];
 Te 25087888425600 14 4 [1;3;7];
 Te 21644605382400 14 4 [1;4;6];
 Te 10334259936000 14 4 [1;5;5];
 Te (-28881827983008000) 14 4 [1;12];
 Te 10207254657600 14 4 [2;2;7];
 Te 15764222073600 14 4 [2;3;6];
 Te 14061131884800 14 4 [2;4;5];
 Te (-17869014779616000) 14 4 [2;11];
 Te 6292793707200 14 4 [3;3;5];
 Te 5878048176000 14 4 [3;4;4];
 Te (-13842114071385600) 14 4 [3;10];
 Te (-11940676664716800) 14 4 [4;9];
 Te (-10968632490816000) 14 4 [5;8];
 Te (-10546175832192000) 14 4 [6;7];
 Te 16417864766983680000 14 4 [15];
 Te (-116539472649600) 14 5 [1;1;10];
 Te (-139580227987200) 14 5 [1;2;9];
 Te (-103319507491200) 14 5 [1;3;8];
 Te (-87000042729600) 14 5 [1;4;7];
 Te (-80381497996800) 14 5 [1;5;6];
 Te 138752615928326400 14 5 [1;13];
 Te (-42429752164800) 14 5 [2;2;8];
 Te (-64053471081600) 14 5 [2;3;7];
 Te (-55305804153600) 14 5 [2;4;6];
 Te (-26411389804800) 14 5 [2;5;5];
 Te 85169035315203840 14 5 [2;12];
 Te (-24788861697600) 14 5 [3;3;6];
 Te (-44252063856000) 14 5 [3;4;5];
 Te 65080301622336000 14 5 [3;11];
 Te (-6892533648000) 14 5 [4;4;4];
 Te 55491340314009600 14 5 [4;10];
 Te 50390540052652800 14 5 [5;9];
 Te 47807452473580800 14 5 [6;8];
 Te 23505721376417280 14 5 [7;7];
 Te 17124307200 15 0 [1;1;6];
 Te 21794572800 15 0 [1;2;5];
 Te 18162144000 15 0 [1;3;4];
 Te (-12156182438400) 15 0 [1;9];
 Te 7264857600 15 0 [2;2;4];
 Te 6486480000 15 0 [2;3;3];
 Te (-8095127040000) 15 0 [2;8];
 Te (-6577290720000) 15 0 [3;7];
 Te (-5928123801600) 15 0 [4;6];
 Te (-2870939635200) 15 0 [5;5];
 Te 4857356439936000 15 0 [12];
 Te (-333923990400) 15 1 [1;1;7];
 Te (-410983372800) 15 1 [1;2;6];
 Te (-326918592000) 15 1 [1;3;5];
 Te (-152562009600) 15 1 [1;4;4];
 Te 270188356838400 15 1 [1;10];
 Te (-130767436800) 15 1 [2;2;5];
 Te (-217945728000) 15 1 [2;3;4];
 Te 174085706995200 15 1 [2;9];
 Te (-32432400000) 15 1 [3;3;3];
 Te 139134996000000 15 1 [3;8];
 Te 123106644460800 15 1 [4;7];
 Te 116513786188800 15 1 [5;6];
 Te (-121433910998400000) 15 1 [13];
 Te 3413445235200 15 2 [1;1;8];
 Te 4109833728000 15 2 [1;2;7];
 Te 3163326566400 15 2 [1;3;6];
 Te 2818764748800 15 2 [1;4;5];
 Te (-3133313363980800) 15 2 [1;11];
 Te 1268755488000 15 2 [2;2;6];
 Te 2019630412800 15 2 [2;3;5];
 Te 942615273600 15 2 [2;4;4];
 Te (-1970677726617600) 15 2 [2;10];
 Te 841945104000 15 2 [3;3;4];
 Te (-1550297779430400) 15 2 [3;9];
 Te (-1351501697145600) 15 2 [4;8];
 Te (-1256718656793600) 15 2 [5;7];
 Te (-614149266931200) 15 2 [6;6];
 Te 1578640842979200000 15 2 [14];
 Te (-24302245968000) 15 3 [1;1;9];
 Te (-28865873836800) 15 3 [1;2;8];
 Te (-21687935068800) 15 3 [1;3;7];
 Te (-18696629952000) 15 3 [1;4;6];
 Te (-8924877561600) 15 3 [1;5;5];
 Te 25227748350604800 15 3 [1;12];
 Te (-8741958825600) 15 3 [2;2;7];
 Te (-13472159500800) 15 3 [2;3;6];
 Te (-12008809612800) 15 3 [2;4;5];
 Te 15596840792332800 15 3 [2;11];
 Te (-5366913552000) 15 3 [3;3;5];
 Te (-5010935529600) 15 3 [3;4;4];
 Te 12090355563686400 15 3 [3;10];
 Te 10408039754112000 15 3 [4;9];
 Te 9543102413644800 15 3 [5;8];
 Te 9167189621990400 15 3 [6;7];
 Te (-14207767586812800000) 15 3 [15];
 Te 135239216112000 15 4 [1;1;10];
 Te 159467256748800 15 4 [1;2;9];
 Te 117663968822400 15 4 [1;3;8];
 Te 98965263196800 15 4 [1;4;7];
 Te 91397097792000 15 4 [1;5;6];
 Te (-158382671627980800) 15 4 [1;13];
 Te 47748276576000 15 4 [2;2;8];
 Te 71863711920000 15 4 [2;3;7];
 Te 61985840716800 15 4 [2;4;6];
 Te 29593397433600 15 4 [2;5;5];
 Te (-96784084145548800) 15 4 [2;12];
 Te 27729961459200 15 4 [3;3;6];
 Te 49459150540800 15 4 [3;4;5];
 Te (-74029086792460800) 15 4 [3;11];
 Te 7698932841600 15 4 [4;4;4];
 Te (-63024301256716800) 15 4 [4;10];
 Te (-57121928261798400) 15 4 [5;9];
 Te (-54128085634022400) 15 4 [6;8];
 Te (-26602869656563200) 15 4 [7;7];
 Te 55653998400 16 0 [1;1;7];
 Te 68497228800 16 0 [1;2;6];
 Te 54486432000 16 0 [1;3;5];
 Te 25427001600 16 0 [1;4;4];
 Te (-46484018380800) 16 0 [1;10];
 Te 21794572800 16 0 [2;2;5];
 Te 36324288000 16 0 [2;3;4];
 Te (-30275775129600) 16 0 [2;9];
 Te 5405400000 16 0 [3;3;3];
 Te (-24116732640000) 16 0 [3;8];
 Te (-21296930054400) 16 0 [4;7];
 Te (-20138185267200) 16 0 [5;6];
 Te 21202746364800000 16 0 [13];
 Te (-1205836632000) 16 1 [1;1;8];
 Te (-1447003958400) 16 1 [1;2;7];
 Te (-1113079968000) 16 1 [1;3;6];
 Te (-991653062400) 16 1 [1;4;5];
 Te 1128690071308800 16 1 [1;11];
 Te (-445231987200) 16 1 [2;2;6];
 Te (-708323616000) 16 1 [2;3;5];
 Te (-330551020800) 16 1 [2;4;4];
 Te 714691782604800 16 1 [2;10];
 Te (-295134840000) 16 1 [3;3;4];
 Te 561363330528000 16 1 [3;9];
 Te 488271079296000 16 1 [4;8];
 Te 453468778963200 16 1 [5;7];
 Te 221520037939200 16 1 [6;6];
 Te (-572474151849600000) 16 1 [14];
 Te 13616678275200 16 2 [1;1;9];
 Te 16065454204800 16 2 [1;2;8];
 Te 12055512268800 16 2 [1;3;7];
 Te 10388227449600 16 2 [1;4;6];
 Te 4958265312000 16 2 [1;5;5];
 Te (-14245899008140800) 16 2 [1;12];
 Te 4833335707200 16 2 [2;2;7];
 Te 7439733100800 16 2 [2;3;6];
 Te 6629182560000 16 2 [2;4;5];
 Te (-8833416117926400) 16 2 [2;11];
 Te 2960429472000 16 2 [3;3;5];
 Te 2763370209600 16 2 [3;4;4];
 Te (-6844962841516800) 16 2 [3;10];
 Te (-5879659417632000) 16 2 [4;9];
 Te (-5382928930579200) 16 2 [5;8];
 Te (-5167242573292800) 16 2 [6;7];
 Te 8014638125894400000 16 2 [15];
 Te (-106595958268800) 16 3 [1;1;10];
 Te (-124442340422400) 16 3 [1;2;9];
 Te (-91643584032000) 16 3 [1;3;8];
 Te (-77025133785600) 16 3 [1;4;7];
 Te (-71115691046400) 16 3 [1;5;6];
 Te 124420285698508800 16 3 [1;13];
 Te (-36898600939200) 16 3 [2;2;8];
 Te (-55431382406400) 16 3 [2;3;7];
 Te (-47781487353600) 16 3 [2;4;6];
 Te (-22808020435200) 16 3 [2;5;5];
 Te 75988296422438400 16 3 [2;12];
 Te (-21350897568000) 16 3 [3;3;6];
 Te (-38060588966400) 16 3 [3;4;5];
 Te 58140612302572800 16 3 [3;11];
 Te (-5922372456000) 16 3 [4;4;4];
 Te 49404369190176000 16 3 [4;10];
 Te 44702775621504000 16 3 [5;9];
 Te 42319077767366400 16 3 [6;8];
 Te 20792556418233600 16 3 [7;7];
 Te 185513328000 17 0 [1;1;8];
 Te 222615993600 17 0 [1;2;7];
 Te 171243072000 17 0 [1;3;6];
 Te 152562009600 17 0 [1;4;5];
 Te (-178337724364800) 17 0 [1;11];
 Te 68497228800 17 0 [2;2;6];
 Te 108972864000 17 0 [2;3;5];
 Te 50854003200 17 0 [2;4;4];
 Te (-113975237376000) 17 0 [2;10];
 Te 45405360000 17 0 [3;3;4];
 Te (-89274721536000) 17 0 [3;9];
 Te (-77516030592000) 17 0 [4;8];
 Te (-71922090240000) 17 0 [5;7];
 Te (-35123271321600) 17 0 [6;6];
 Te 91595864295936000 17 0 [14];
 Te (-4415217206400) 17 1 [1;1;9];
 Te (-5194373184000) 17 1 [1;2;8];
 Te (-3895779888000) 17 1 [1;3;7];
 Te (-3356364211200) 17 1 [1;4;6];
 Te (-1601901100800) 17 1 [1;5;5];
 Te 4695444558604800 17 1 [1;12];
 Te (-1558311955200) 17 1 [2;2;7];
 Te (-2397403008000) 17 1 [2;3;6];
 Te (-2135868134400) 17 1 [2;4;5];
 Te 2928493157990400 17 1 [2;11];
 Te (-953512560000) 17 1 [3;3;5];
 Te (-889945056000) 17 1 [3;4;4];
 Te 2266095896064000 17 1 [3;10];
 Te 1942695570816000 17 1 [4;9];
 Te 1776475628928000 17 1 [5;8];
 Te 1704348047001600 17 1 [6;7];
 Te (-2656280064582144000) 17 1 [15];
 Te 54530799523200 17 2 [1;1;10];
 Te 63297147513600 17 2 [1;2;9];
 Te 46563845328000 17 2 [1;3;8];
 Te 39120479798400 17 2 [1;4;7];
 Te 36113607129600 17 2 [1;5;6];
 Te (-64063134380044800) 17 2 [1;13];
 Te 18662640796800 17 2 [2;2;8];
 Te 28006804425600 17 2 [2;3;7];
 Te 24132819110400 17 2 [2;4;6];
 Te 11518431724800 17 2 [2;5;5];
 Te (-39227259713241600) 17 2 [2;12];
 Te 10776637872000 17 2 [3;3;6];
 Te 19204651065600 17 2 [3;4;5];
 Te (-29999623362508800) 17 2 [3;11];
 Te 2987672688000 17 2 [4;4;4];
 Te (-25443119205504000) 17 2 [4;10];
 Te (-22990295712384000) 17 2 [5;9];
 Te (-21747801646771200) 17 2 [6;8];
 Te (-10682690809190400) 17 2 [7;7];
 Te 630745315200 18 0 [1;1;9];
 Te 742053312000 18 0 [1;2;8];
 Te 556539984000 18 0 [1;3;7];
 Te 479480601600 18 0 [1;4;6];
 Te 228843014400 18 0 [1;5;5];
 Te (-686197973260800) 18 0 [1;12];
 Te 222615993600 18 0 [2;2;7];
 Te 342486144000 18 0 [2;3;6];
 Te 305124019200 18 0 [2;4;5];
 Te (-431429795596800) 18 0 [2;11];
 Te 136216080000 18 0 [3;3;5];
 Te 127135008000 18 0 [3;4;4];
 Te (-333066292416000) 18 0 [3;10];
 Te (-285096882470400) 18 0 [4;9];
 Te (-260460712512000) 18 0 [5;8];
 Te (-249775144819200) 18 0 [6;7];
 Te 392405009540544000 18 0 [15];
 Te (-16342037712000) 18 1 [1;1;10];
 Te (-18922359456000) 18 1 [1;2;9];
 Te (-13913499600000) 18 1 [1;3;8];
 Te (-11687339664000) 18 1 [1;4;7];
 Te (-10788313536000) 18 1 [1;5;6];
 Te 19467976207680000 18 1 [1;13];
 Te (-5565399840000) 18 1 [2;2;8];
 Te (-8348099760000) 18 1 [2;3;7];
 Te (-7192209024000) 18 1 [2;4;6];
 Te (-3432645216000) 18 1 [2;5;5];
 Te 11981479218508800 18 1 [2;12];
 Te (-3210807600000) 18 1 [3;3;6];
 Te (-5721075360000) 18 1 [3;4;5];
 Te 9151541118720000 18 1 [3;11];
 Te (-889945056000) 18 1 [4;4;4];
 Te 7748304813849600 18 1 [4;10];
 Te 6993704054937600 18 1 [5;9];
 Te 6611695009920000 18 1 [6;8];
 Te 3247076882649600 18 1 [7;7];
 Te 2178938361600 19 0 [1;1;10];
 Te 2522981260800 19 0 [1;2;9];
 Te 1855133280000 19 0 [1;3;8];
 Te 1558311955200 19 0 [1;4;7];
 Te 1438441804800 19 0 [1;5;6];
 Te (-2647130758272000) 19 0 [1;13];
 Te 742053312000 19 0 [2;2;8];
 Te 1113079968000 19 0 [2;3;7];
 Te 958961203200 19 0 [2;4;6];
 Te 457686028800 19 0 [2;5;5];
 Te (-1640707064156160) 19 0 [2;12];
 Te 428107680000 19 0 [3;3;6];
 Te 762810048000 19 0 [3;4;5];
 Te (-1250710619558400) 19 0 [3;11];
 Te 118659340800 19 0 [4;4;4];
 Te (-1057511418163200) 19 0 [4;10];
 Te (-953686916582400) 19 0 [5;9];
 Te (-901149542092800) 19 0 [6;8];
 Te (-442493810478720) 19 0 [7;7]].
Definition wit1_5 : list term := [Te 1037836800 9 0 [1;3];
 Te 467026560 9 0 [2;2];
 Te (-102745843200) 9 0 [6];
 Te 43243200 9 1 [1;1;1];
 Te (-10897286400) 9 1 [1;4];
 Te (-7783776000) 9 1 [2;3];
 Te 1335695961600 9 1 [7];
 Te (-432432000) 9 2 [1;1;2];
 Te 61751289600 9 2 [1;5];
 Te 39437798400 9 2 [2;4];
 Te 17902684800 9 2 [3;3];
 Te (-9349871731200) 9 2 [8];
 Te 1210809600 9 3 [1;1;3];
 Te 908107200 9 3 [1;2;2];
 Te (-250637587200) 9 3 [1;6];
 Te (-152562009600) 9 3 [2;5];
 Te (-127653926400) 9 3 [3;4];
 Te 46749358656000 9 3 [9];
 Te 5405400 9 4 [1;1;1;1];
 Te (-2854051200) 9 4 [1;1;4];
 Te (-3891888000) 9 4 [1;2;3];
 Te 817296480000 9 4 [1;7];
 Te (-518918400) 9 4 [2;2;2];
 Te 490377888000 9 4 [2;6];
 Te 386075289600 9 4 [3;5];
 Te 181361980800 9 4 [4;4];
 Te (-186997434624000) 9 4 [10];
 Te (-21621600) 9 5 [1;1;1;2];
 Te 5881075200 9 5 [1;1;5];
 Te 7870262400 9 5 [1;2;4];
 Te 3372969600 9 5 [1;3;3];
 Te (-2277532857600) 9 5 [1;8];
 Te 2854051200 9 5 [2;2;3];
 Te (-1370878629120) 9 5 [2;7];
 Te (-1035242208000) 9 5 [3;6];
 Te (-926269344000) 9 5 [4;5];
 Te 635791277721600 9 5 [11];
 Te 21621600 9 6 [1;1;1;3];
 Te 32432400 9 6 [1;1;2;2];
 Te (-10940529600) 9 6 [1;1;6];
 Te (-14789174400) 9 6 [1;2;5];
 Te (-11762150400) 9 6 [1;3;4];
 Te 5633897068800 9 6 [1;9];
 Te (-5189184000) 9 6 [2;2;4];
 Te (-4540536000) 9 6 [2;3;3];
 Te 3432645216000 9 6 [2;8];
 Te 2524538016000 9 6 [3;7];
 Te 2172192422400 9 6 [4;6];
 Te 1040690851200 9 6 [5;5];
 Te (-1907373833164800) 9 6 [12];
 Te (-21621600) 9 7 [1;1;1;4];
 Te (-64864800) 9 7 [1;1;2;3];
 Te 18810792000 9 7 [1;1;7];
 Te (-21621600) 9 7 [1;2;2;2];
 Te 25945920000 9 7 [1;2;6];
 Te 19978358400 9 7 [1;3;5];
 Te 9081072000 9 7 [1;4;4];
 Te (-12689111635200) 9 7 [1;10];
 Te 9081072000 9 7 [2;2;5];
 Te 14789174400 9 7 [2;3;4];
 Te (-7860057004800) 9 7 [2;9];
 Te 2205403200 9 7 [3;3;3];
 Te (-5693053766400) 9 7 [3;8];
 Te (-4751216870400) 9 7 [4;7];
 Te (-4402503705600) 9 7 [5;6];
 Te 5177157547161600 9 7 [13];
 Te 21621600 9 8 [1;1;1;5];
 Te 64864800 9 8 [1;1;2;4];
 Te 32432400 9 8 [1;1;3;3];
 Te (-30399969600) 9 8 [1;1;8];
 Te 64864800 9 8 [1;2;2;3];
 Te (-42897254400) 9 8 [1;2;7];
 Te (-32691859200) 9 8 [1;3;6];
 Te (-28108080000) 9 8 [1;4;5];
 Te 26491303238400 9 8 [1;11];
 Te 5405400 9 8 [2;2;2;2];
 Te (-15178363200) 9 8 [2;2;6];
 Te (-23870246400) 9 8 [2;3;5];
 Te (-10940529600) 9 8 [2;4;4];
 Te 16713323827200 9 8 [2;10];
 Te (-9989179200) 9 8 [3;3;4];
 Te 12016593388800 9 8 [3;9];
 Te 9800292902400 9 8 [4;8];
 Te 8834066841600 9 8 [5;7];
 Te 4282633555200 9 8 [6;6];
 Te (-12942893867904000) 9 8 [14];
 Te (-21621600) 9 9 [1;1;1;6];
 Te (-64864800) 9 9 [1;1;2;5];
 Te (-64864800) 9 9 [1;1;3;4];
 Te 46745899200 9 9 [1;1;9];
 Te (-64864800) 9 9 [1;2;2;4];
 Te (-64864800) 9 9 [1;2;3;3];
 Te 67459392000 9 9 [1;2;8];
 Te 51459408000 9 9 [1;3;7];
 Te 42897254400 9 9 [1;4;6];
 Te 20108088000 9 9 [1;5;5];
 Te (-51943731840000) 9 9 [1;12];
 Te (-21621600) 9 9 [2;2;2;3];
 Te 24259435200 9 9 [2;2;7];
 Te 37621584000 9 9 [2;3;6];
 Te 32691859200 9 9 [2;4;5];
 Te (-33392399040000) 9 9 [2;11];
 Te 15178363200 9 9 [3;3;5];
 Te 14054040000 9 9 [3;4;4];
 Te (-23962613875200) 9 9 [3;10];
 Te (-19218661862400) 9 9 [4;9];
 Te (-16934383065600) 9 9 [5;8];
 Te (-16019011008000) 9 9 [6;7];
 Te 30200085691776000 9 9 [15];
 Te 21621600 9 10 [1;1;1;7];
 Te 64864800 9 10 [1;1;2;6];
 Te 64864800 9 10 [1;1;3;5];
 Te 32432400 9 10 [1;1;4;4];
 Te (-69016147200) 9 10 [1;1;10];
 Te 64864800 9 10 [1;2;2;5];
 Te 129729600 9 10 [1;2;3;4];
 Te (-101708006400) 9 10 [1;2;9];
 Te 21621600 9 10 [1;3;3;3];
 Te (-78097219200) 9 10 [1;3;8];
 Te (-64086422400) 9 10 [1;4;7];
 Te (-57599942400) 9 10 [1;5;6];
 Te 96615341222400 9 10 [1;13];
 Te 21621600 9 10 [2;2;2;4];
 Te 32432400 9 10 [2;2;3;3];
 Te (-37232395200) 9 10 [2;2;8];
 Te (-57599942400) 9 10 [2;3;7];
 Te (-48518870400) 9 10 [2;4;6];
 Te (-22832409600) 9 10 [2;5;5];
 Te 63267465381120 9 10 [2;12];
 Te (-22832409600) 9 10 [3;3;6];
 Te (-40216176000) 9 10 [3;4;5];
 Te 45482159923200 9 10 [3;11];
 Te (-6270264000) 9 10 [4;4;4];
 Te 36056007187200 9 10 [4;10];
 Te 31188033676800 9 10 [5;9];
 Te 28899603532800 9 10 [6;8];
 Te 14116344802560 9 10 [7;7];
 Te (-43243200) 10 0 [1;1;1];
 Te 10897286400 10 0 [1;4];
 Te 7783776000 10 0 [2;3];
 Te (-1335695961600) 10 0 [7];
 Te 908107200 10 1 [1;1;2];
 Te (-130767436800) 10 1 [1;5];
 Te (-87178291200) 10 1 [2;4];
 Te (-38918880000) 10 1 [3;3];
 Te 20035439424000 10 1 [8];
 Te (-4021617600) 10 2 [1;1;3];
 Te (-3243240000) 10 2 [1;2;2];
 Te 849988339200 10 2 [1;6];
 Te 544864320000 10 2 [2;5];
 Te 454572518400 10 2 [3;4];
 Te (-160283515392000) 10 2 [9];
 Te (-21621600) 10 3 [1;1;1;1];
 Te 13621608000 10 3 [1;1;4];
 Te 19978358400 10 3 [1;2;3];
 Te (-3955714963200) 10 3 [1;7];
 Te 2724321600 10 3 [2;2;2];
 Te (-2484581299200) 10 3 [2;6];
 Te (-1983306124800) 10 3 [3;5];
 Te (-926269344000) 10 3 [4;4];
 Te 908273253888000 10 3 [10];
 Te 129729600 10 4 [1;1;1;2];
 Te (-38270232000) 10 4 [1;1;5];
 Te (-53708054400) 10 4 [1;2;4];
 Te (-24129705600) 10 4 [1;3;3];
 Te 14744028499200 10 4 [1;8];
 Te (-20108088000) 10 4 [2;2;3];
 Te 9186412435200 10 4 [2;7];
 Te 7115928019200 10 4 [3;6];
 Te 6353117971200 10 4 [4;5];
 Te (-4087229642496000) 10 4 [11];
 Te (-194594400) 10 5 [1;1;1;3];
 Te (-259459200) 10 5 [1;1;2;2];
 Te 93535041600 10 5 [1;1;6];
 Te 128951222400 10 5 [1;2;5];
 Te 108972864000 10 5 [1;3;4];
 Te (-46749358656000) 10 5 [1;9];
 Te 46313467200 10 5 [2;2;4];
 Te 41772931200 10 5 [2;3;3];
 Te (-29128446547200) 10 5 [2;8];
 Te (-22099696819200) 10 5 [3;7];
 Te (-19113840345600) 10 5 [4;6];
 Te (-9131926003200) 10 5 [5;5];
 Te 15531472641484800 10 5 [12];
 Te 281080800 10 6 [1;1;1;4];
 Te 713512800 10 6 [1;1;2;3];
 Te (-205232227200) 10 6 [1;1;7];
 Te 216216000 10 6 [1;2;2;2];
 Te (-282032150400) 10 6 [1;2;6];
 Te (-229621392000) 10 6 [1;3;5];
 Te (-107675568000) 10 6 [1;4;4];
 Te 130898204236800 10 6 [1;10];
 Te (-99502603200) 10 6 [2;2;5];
 Te (-169167398400) 10 6 [2;3;4];
 Te 81991182873600 10 6 [2;9];
 Te (-25556731200) 10 6 [3;3;3];
 Te 61329927859200 10 6 [3;8];
 Te 51827494118400 10 6 [4;7];
 Te 47948060160000 10 6 [5;6];
 Te (-51771575471616000) 10 6 [13];
 Te (-389188800) 10 7 [1;1;1;5];
 Te (-972972000) 10 7 [1;1;2;4];
 Te (-454053600) 10 7 [1;1;3;3];
 Te 413318505600 10 7 [1;1;8];
 Te (-843242400) 10 7 [1;2;2;3];
 Te 570810240000 10 7 [1;2;7];
 Te 454313059200 10 7 [1;3;6];
 Te 408648240000 10 7 [1;4;5];
 Te (-331920446457600) 10 7 [1;11];
 Te (-64864800) 10 7 [2;2;2;2];
 Te 200432232000 10 7 [2;2;6];
 Te 328734806400 10 7 [2;3;5];
 Te 154378224000 10 7 [2;4;4];
 Te (-209704265971200) 10 7 [2;10];
 Te 140756616000 10 7 [3;3;4];
 Te (-155403087840000) 10 7 [3;9];
 Te (-129067460121600) 10 7 [4;8];
 Te (-116579169907200) 10 7 [5;7];
 Te (-56426148979200) 10 7 [6;6];
 Te 155314726414848000 10 7 [14];
 Te 518918400 10 8 [1;1;1;6];
 Te 1297296000 10 8 [1;1;2;5];
 Te 1167566400 10 8 [1;1;3;4];
 Te (-776431656000) 10 8 [1;1;9];
 Te 1102701600 10 8 [1;2;2;4];
 Te 1037836800 10 8 [1;2;3;3];
 Te (-1082463782400) 10 8 [1;2;8];
 Te (-850247798400) 10 8 [1;3;7];
 Te (-743350608000) 10 8 [1;4;6];
 Te (-356107752000) 10 8 [1;5;5];
 Te 776039353689600 10 8 [1;12];
 Te 324324000 10 8 [2;2;2;3];
 Te (-381145564800) 10 8 [2;2;7];
 Te (-611545334400) 10 8 [2;3;6];
 Te (-551350800000) 10 8 [2;4;5];
 Te 495543201753600 10 8 [2;11];
 Te (-252972720000) 10 8 [3;3;5];
 Te (-238053816000) 10 8 [3;4;4];
 Te 365158726732800 10 8 [3;10];
 Te 299326662835200 10 8 [4;9];
 Te 265457896704000 10 8 [5;8];
 Te 250811943782400 10 8 [6;7];
 Te (-427115497640832000) 10 8 [15];
 Te (-670269600) 10 9 [1;1;1;7];
 Te (-1686484800) 10 9 [1;1;2;6];
 Te (-1491890400) 10 9 [1;1;3;5];
 Te (-713512800) 10 9 [1;1;4;4];
 Te 1377079704000 10 9 [1;1;10];
 Te (-1427025600) 10 9 [1;2;2;5];
 Te (-2594592000) 10 9 [1;2;3;4];
 Te 1942571030400 10 9 [1;2;9];
 Te (-410810400) 10 9 [1;3;3;3];
 Te 1515501187200 10 9 [1;3;8];
 Te 1299112214400 10 9 [1;4;7];
 Te 1207782576000 10 9 [1;5;6];
 Te (-1695443407257600) 10 9 [1;13];
 Te (-410810400) 10 9 [2;2;2;4];
 Te (-583783200) 10 9 [2;2;3;3];
 Te 688864176000 10 9 [2;2;8];
 Te 1091025936000 10 9 [2;3;7];
 Te 956626070400 10 9 [2;4;6];
 Te 458594136000 10 9 [2;5;5];
 Te (-1095493304505600) 10 9 [2;12];
 Te 441859017600 10 9 [3;3;6];
 Te 799134336000 10 9 [3;4;5];
 Te (-804979432857600) 10 9 [3;11];
 Te 125621496000 10 9 [4;4;4];
 Te (-653343692601600) 10 9 [4;10];
 Te (-571192163942400) 10 9 [5;9];
 Te (-529673502758400) 10 9 [6;8];
 Te (-258461838835200) 10 9 [7;7];
 Te (-475675200) 11 0 [1;1;2];
 Te 70053984000 11 0 [1;5];
 Te 49297248000 11 0 [2;4];
 Te 21312720000 11 0 [3;3];
 Te (-11130799680000) 11 0 [8];
 Te 4454049600 11 1 [1;1;3];
 Te 3788104320 11 1 [1;2;2];
 Te (-976085510400) 11 1 [1;6];
 Te (-653837184000) 11 1 [2;5];
 Te (-544864320000) 11 1 [3;4];
 Te 189223594560000 11 1 [9];
 Te 32432400 11 2 [1;1;1;1];
 Te (-24389164800) 11 2 [1;1;4];
 Te (-37621584000) 11 2 [1;2;3];
 Te 7294954867200 11 2 [1;7];
 Te (-5215129920) 11 2 [2;2;2];
 Te 4735649318400 11 2 [2;6];
 Te 3832212384000 11 2 [3;5];
 Te 1783782000000 11 2 [4;4];
 Te (-1703012351040000) 11 2 [10];
 Te (-302702400) 11 3 [1;1;1;2];
 Te 99286387200 11 3 [1;1;5];
 Te 143913369600 11 3 [1;2;4];
 Te 66421555200 11 3 [1;3;3];
 Te (-38735182886400) 11 3 [1;8];
 Te 55031296320 11 3 [2;2;3];
 Te (-24676126675200) 11 3 [2;7];
 Te (-19501472390400) 11 3 [3;6];
 Te (-17435658240000) 11 3 [4;5];
 Te 10785744889920000 11 3 [11];
 Te 670269600 11 4 [1;1;1;3];
 Te 843242400 11 4 [1;1;2;2];
 Te (-330248318400) 11 4 [1;1;6];
 Te (-461058998400) 11 4 [1;2;5];
 Te (-403286083200) 11 4 [1;3;4];
 Te 163622755296000 11 4 [1;9];
 Te (-168025777920) 11 4 [2;2;4];
 Te (-154118764800) 11 4 [2;3;3];
 Te 103208199494400 11 4 [2;8];
 Te 80034341587200 11 4 [3;7];
 Te 69701638406400 11 4 [4;6];
 Te 33288615360000 11 4 [5;5];
 Te (-53928724449600000) 11 4 [12];
 Te (-1362160800) 11 5 [1;1;1;4];
 Te (-3178375200) 11 5 [1;1;2;3];
 Te 945339595200 11 5 [1;1;7];
 Te (-908107200) 11 5 [1;2;2;2];
 Te 1293144652800 11 5 [1;2;6];
 Te 1087134048000 11 5 [1;3;5];
 Te 518140022400 11 5 [1;4;4];
 Te (-584366983200000) 11 5 [1;10];
 Te 457841704320 11 5 [2;2;5];
 Te 797318121600 11 5 [2;3;4];
 Te (-367316389440000) 11 5 [2;9];
 Te 121426905600 11 5 [3;3;3];
 Te (-280616022086400) 11 5 [3;8];
 Te (-239788560211200) 11 5 [4;7];
 Te (-222190999430400) 11 5 [5;6];
 Te 226500642688320000 11 5 [13];
 Te 2551348800 11 6 [1;1;1;5];
 Te 5772967200 11 6 [1;1;2;4];
 Te 2627024400 11 6 [1;1;3;3];
 Te (-2407392187200) 11 6 [1;1;8];
 Te 4605400800 11 6 [1;2;2;3];
 Te (-3264221600640) 11 6 [1;2;7];
 Te (-2664645984000) 11 6 [1;3;6];
 Te (-2454051600000) 11 6 [1;4;5];
 Te 1832574859315200 11 6 [1;11];
 Te 335134800 11 6 [2;2;2;2];
 Te (-1136976160320) 11 6 [2;2;6];
 Te (-1910138630400) 11 6 [2;3;5];
 Te (-908193686400) 11 6 [2;4;4];
 Te 1153150846848000 11 6 [2;10];
 Te (-828842414400) 11 6 [3;3;4];
 Te 870856642656000 11 6 [3;9];
 Te 733289299142400 11 6 [4;8];
 Te 665218621267200 11 6 [5;7];
 Te 322056845510400 11 6 [6;6];
 Te (-830502356523840000) 11 6 [14];
 Te (-4454049600) 11 7 [1;1;1;6];
 Te (-9989179200) 11 7 [1;1;2;5];
 Te (-8627018400) 11 7 [1;1;3;4];
 Te 5581097121600 11 7 [1;1;9];
 Te (-7718911200) 11 7 [1;2;2;4];
 Te (-7070263200) 11 7 [1;2;3;3];
 Te 7558824873600 11 7 [1;2;8];
 Te 6039777744000 11 7 [1;3;7];
 Te 5415345936000 11 7 [1;4;6];
 Te 2622613593600 11 7 [1;5;5];
 Te (-5177157547161600) 11 7 [1;12];
 Te (-2097295200) 11 7 [2;2;2;3];
 Te 2612831981760 11 7 [2;2;7];
 Te 4276406534400 11 7 [2;3;6];
 Te 3929509584000 11 7 [2;4;5];
 Te (-3271787257939200) 11 7 [2;11];
 Te 1794549556800 11 7 [3;3;5];
 Te 1703003702400 11 7 [3;4;4];
 Te (-2449570986720000) 11 7 [3;10];
 Te (-2038391907552000) 11 7 [4;9];
 Te (-1820402590406400) 11 7 [5;8];
 Te (-1722359704665600) 11 7 [6;7];
 Te 2728793457149760000 11 7 [15];
 Te 7329722400 11 8 [1;1;1;7];
 Te 16475659200 11 8 [1;1;2;6];
 Te 13816202400 11 8 [1;1;3;5];
 Te 6518912400 11 8 [1;1;4;4];
 Te (-11978452886400) 11 8 [1;1;10];
 Te 12583771200 11 8 [1;2;2;5];
 Te 21924302400 11 8 [1;2;3;4];
 Te (-16285216147200) 11 8 [1;2;9];
 Te 3372969600 11 8 [1;3;3;3];
 Te (-12818062857600) 11 8 [1;3;8];
 Te (-11249631993600) 11 8 [1;4;7];
 Te (-10637567740800) 11 8 [1;5;6];
 Te 13419737326195200 11 8 [1;13];
 Te 3308104800 11 8 [2;2;2;4];
 Te 4572968400 11 8 [2;2;3;3];
 Te (-5620431136320) 11 8 [2;2;8];
 Te (-9025080704640) 11 8 [2;3;7];
 Te (-8082932457600) 11 8 [2;4;6];
 Te (-3910179873600) 11 8 [2;5;5];
 Te 8536432890585600 11 8 [2;12];
 Te (-3700017921600) 11 8 [3;3;6];
 Te (-6784858080000) 11 8 [3;4;5];
 Te 6351679529395200 11 8 [3;11];
 Te (-1071696225600) 11 8 [4;4;4];
 Te 5234729467968000 11 8 [4;10];
 Te 4618324462752000 11 8 [5;9];
 Te 4295607553036800 11 8 [6;8];
 Te 2096911892275200 11 8 [7;7];
 Te (-1643241600) 12 0 [1;1;3];
 Te (-1452971520) 12 0 [1;2;2];
 Te 376734758400 12 0 [1;6];
 Te 261534873600 12 0 [2;5];
 Te 217945728000 12 0 [3;4];
 Te (-75689437824000) 12 0 [9];
 Te (-21621600) 12 1 [1;1;1;1];
 Te 19372953600 12 1 [1;1;4];
 Te 30875644800 12 1 [1;2;3];
 Te (-6010631827200) 12 1 [1;7];
 Te 4358914560 12 1 [2;2;2];
 Te (-4007087884800) 12 1 [2;6];
 Te (-3269185920000) 12 1 [3;5];
 Te (-1525620096000) 12 1 [4;4];
 Te 1438099318656000 12 1 [10];
 Te 345945600 12 2 [1;1;1;2];
 Te (-127740412800) 12 2 [1;1;5];
 Te (-189491702400) 12 2 [1;2;4];
 Te (-88475587200) 12 2 [1;3;3];
 Te 50979062534400 12 2 [1;8];
 Te (-73582629120) 12 2 [2;2;3];
 Te 33067037203200 12 2 [2;7];
 Te 26452384358400 12 2 [3;6];
 Te 23756084352000 12 2 [4;5];
 Te (-14380993186560000) 12 2 [11];
 Te (-1167566400) 12 3 [1;1;1;3];
 Te (-1427025600) 12 3 [1;1;2;2];
 Te 612064252800 12 3 [1;1;6];
 Te 864518054400 12 3 [1;2;5];
 Te 768258691200 12 3 [1;3;4];
 Te (-304983911232000) 12 3 [1;9];
 Te 317837520000 12 3 [2;2;4];
 Te 294226732800 12 3 [2;3;3];
 Te (-194343762412800) 12 3 [2;8];
 Te (-152765944531200) 12 3 [3;7];
 Te (-133880947200000) 12 3 [4;6];
 Te (-64076044032000) 12 3 [5;5];
 Te 100666952305920000 12 3 [12];
 Te 3372969600 12 4 [1;1;1;4];
 Te 7524316800 12 4 [1;1;2;3];
 Te (-2362894934400) 12 4 [1;1;7];
 Te 2075673600 12 4 [1;2;2;2];
 Te (-3232861632000) 12 4 [1;2;6];
 Te (-2762721561600) 12 4 [1;3;5];
 Te (-1324625702400) 12 4 [1;4;4];
 Te 1442551638528000 12 4 [1;10];
 Te (-1146031286400) 12 4 [2;2;5];
 Te (-2020408790400) 12 4 [2;3;4];
 Te 909608949849600 12 4 [2;9];
 Te (-309534825600) 12 4 [3;3;3];
 Te 704271382214400 12 4 [3;8];
 Te 606504042144000 12 4 [4;7];
 Te 564027976512000 12 4 [5;6];
 Te (-553668237682560000) 12 4 [13];
 Te (-8562153600) 12 5 [1;1;1;5];
 Te (-18291873600) 12 5 [1;1;2;4];
 Te (-8237829600) 12 5 [1;1;3;3];
 Te 7771581417600 12 5 [1;1;8];
 Te (-13881067200) 12 5 [1;2;2;3];
 Te 10431609027840 12 5 [1;2;7];
 Te 8639731900800 12 5 [1;3;6];
 Te 8031300076800 12 5 [1;4;5];
 Te (-5737259387059200) 12 5 [1;11];
 Te (-972972000) 12 5 [2;2;2;2];
 Te 3610270984320 12 5 [2;2;6];
 Te 6140620886400 12 5 [2;3;5];
 Te 2935607875200 12 5 [2;4;4];
 Te (-3599255384524800) 12 5 [2;10];
 Te 2686181097600 12 5 [3;3;4];
 Te (-2751533680896000) 12 5 [3;9];
 Te (-2337382311264000) 12 5 [4;8];
 Te (-2130501999225600) 12 5 [5;7];
 Te (-1033128134438400) 12 5 [6;6];
 Te 2546873893339776000 12 5 [14];
 Te 19545926400 12 6 [1;1;1;6];
 Te 40994553600 12 6 [1;1;2;5];
 Te 34767532800 12 6 [1;1;3;4];
 Te (-22555566633600) 12 6 [1;1;9];
 Te 29837808000 12 6 [1;2;2;4];
 Te 26983756800 12 6 [1;2;3;3];
 Te (-29978434886400) 12 6 [1;2;8];
 Te (-24220429833600) 12 6 [1;3;7];
 Te (-21955005072000) 12 6 [1;4;6];
 Te (-10672075814400) 12 6 [1;5;5];
 Te 19936597922841600 12 6 [1;12];
 Te 7697289600 12 6 [2;2;2;3];
 Te (-10222017886080) 12 6 [2;2;7];
 Te (-16909993900800) 12 6 [2;3;6];
 Te (-15668481628800) 12 6 [2;4;5];
 Te 12494100024806400 12 6 [2;11];
 Te (-7151733388800) 12 6 [3;3;5];
 Te (-6816944534400) 12 6 [3;4;4];
 Te 9452275088256000 12 6 [3;10];
 Te 7939513790208000 12 6 [4;9];
 Te 7130771680032000 12 6 [5;8];
 Te 6765603612768000 12 6 [6;7];
 Te (-10187495573359104000) 12 6 [15];
 Te (-40886445600) 12 7 [1;1;1;7];
 Te (-85362076800) 12 7 [1;1;2;6];
 Te (-69794524800) 12 7 [1;1;3;5];
 Te (-32756724000) 12 7 [1;1;4;4];
 Te 59178751632000 12 7 [1;1;10];
 Te (-60972912000) 12 7 [1;2;2;5];
 Te (-104043139200) 12 7 [1;2;3;4];
 Te 78395078361600 12 7 [1;2;9];
 Te (-15762146400) 12 7 [1;3;3;3];
 Te 62129321654400 12 7 [1;3;8];
 Te 55142690803200 12 7 [1;4;7];
 Te 52463169158400 12 7 [1;5;6];
 Te (-62125890565939200) 12 7 [1;13];
 Te (-15091876800) 12 7 [2;2;2;4];
 Te (-20562141600) 12 7 [2;2;3;3];
 Te 26516366997120 12 7 [2;2;8];
 Te 42917457623040 12 7 [2;3;7];
 Te 38808869299200 12 7 [2;4;6];
 Te 18841408185600 12 7 [2;5;5];
 Te (-39010336254489600) 12 7 [2;12];
 Te 17704198512000 12 7 [3;3;6];
 Te 32686410556800 12 7 [3;4;5];
 Te (-29267769910579200) 12 7 [3;11];
 Te 5179238064000 12 7 [4;4;4];
 Te (-24349737379968000) 12 7 [4;10];
 Te (-21620294055360000) 12 7 [5;9];
 Te (-20183547556972800) 12 7 [6;8];
 Te (-9864988016083200) 12 7 [7;7];
 Te 5405400 13 0 [1;1;1;1];
 Te (-5751345600) 13 0 [1;1;4];
 Te (-9340531200) 13 0 [1;2;3];
 Te 1855133280000 13 0 [1;7];
 Te (-1349187840) 13 0 [2;2;2];
 Te 1267198732800 13 0 [2;6];
 Te 1035242208000 13 0 [3;5];
 Te 487350864000 13 0 [4;4];
 Te (-457577055936000) 13 0 [10];
 Te (-194594400) 13 1 [1;1;1;2];
 Te 81340459200 13 1 [1;1;5];
 Te 122724201600 13 1 [1;2;4];
 Te 57359016000 13 1 [1;3;3];
 Te (-33392399040000) 13 1 [1;8];
 Te 48259411200 13 1 [2;2;3];
 Te (-22038983366400) 13 1 [2;7];
 Te (-17723657952000) 13 1 [3;6];
 Te (-16019011008000) 13 1 [4;5];
 Te 9609118174656000 13 1 [11];
 Te 1102701600 13 2 [1;1;1;3];
 Te 1329728400 13 2 [1;1;2;2];
 Te (-626983156800) 13 2 [1;1;6];
 Te (-895912617600) 13 2 [1;2;5];
 Te (-799393795200) 13 2 [1;3;4];
 Te 317227790880000 13 2 [1;9];
 Te (-331459128000) 13 2 [2;2;4];
 Te (-307996603200) 13 2 [2;3;3];
 Te 204361482124800 13 2 [2;8];
 Te 161824703040000 13 2 [3;7];
 Te 142583208768000 13 2 [4;6];
 Te 68462201808000 13 2 [5;5];
 Te (-105700299921216000) 13 2 [12];
 Te (-4735130400) 13 3 [1;1;1;4];
 Te (-10313503200) 13 3 [1;1;2;3];
 Te 3457683028800 13 3 [1;1;7];
 Te (-2789186400) 13 3 [1;2;2;2];
 Te 4751995248000 13 3 [1;2;6];
 Te 4087001318400 13 3 [1;3;5];
 Te 1960430472000 13 3 [1;4;4];
 Te (-2112996805920000) 13 3 [1;10];
 Te 1686355070400 13 3 [2;2;5];
 Te 2987153769600 13 3 [2;3;4];
 Te (-1339035201504000) 13 3 [2;9];
 Te 459520776000 13 3 [3;3;3];
 Te (-1045182089952000) 13 3 [3;8];
 Te (-904762770912000) 13 3 [4;7];
 Te (-844921101024000) 13 3 [5;6];
 Te 810368966062656000 13 3 [13];
 Te 16670253600 13 4 [1;1;1;5];
 Te 34443208800 13 4 [1;1;2;4];
 Te 15437822400 13 4 [1;1;3;3];
 Te (-15202103716800) 13 4 [1;1;8];
 Te 25362136800 13 4 [1;2;2;3];
 Te (-20344455331200) 13 4 [1;2;7];
 Te (-16973301945600) 13 4 [1;3;6];
 Te (-15803400412800) 13 4 [1;4;5];
 Te 11069580281760000 13 4 [1;11];
 Te 1735133400 13 4 [2;2;2;2];
 Te (-7012792987200) 13 4 [2;2;6];
 Te (-11989090713600) 13 4 [2;3;5];
 Te (-5739367233600) 13 4 [2;4;4];
 Te 6942279760416000 13 4 [2;10];
 Te (-5268078129600) 13 4 [3;3;4];
 Te 5349462326208000 13 4 [3;9];
 Te 4568593917888000 13 4 [4;8];
 Te 4182362952768000 13 4 [5;7];
 Te 2032153211088000 13 4 [6;6];
 Te (-4862213796375936000) 13 4 [14];
 Te (-50399949600) 13 5 [1;1;1;6];
 Te (-101383682400) 13 5 [1;1;2;5];
 Te (-85232347200) 13 5 [1;1;3;4];
 Te 56488808376000 13 5 [1;1;9];
 Te (-71026956000) 13 5 [1;2;2;4];
 Te (-63826963200) 13 5 [1;2;3;3];
 Te 74328055401600 13 5 [1;2;8];
 Te 60462815212800 13 5 [1;3;7];
 Te 54970323408000 13 5 [1;4;6];
 Te 26726632732800 13 5 [1;5;5];
 Te (-48535852004640000) 13 5 [1;12];
 Te (-17708090400) 13 5 [2;2;2;3];
 Te 25115676505920 13 5 [2;2;7];
 Te 41753731219200 13 5 [2;3;6];
 Te 38775399062400 13 5 [2;4;5];
 Te (-30264421713926400) 13 5 [2;11];
 Te 17725492699200 13 5 [3;3;5];
 Te 16926469560000 13 5 [3;4;4];
 Te (-23060790777024000) 13 5 [3;10];
 Te (-19477786360032000) 13 5 [4;9];
 Te (-17569796051808000) 13 5 [5;8];
 Te (-16719728318092800) 13 5 [6;7];
 Te 24311068981879680000 13 5 [15];
 Te 135005270400 13 6 [1;1;1;7];
 Te 268475407200 13 6 [1;1;2;6];
 Te 216713296800 13 6 [1;1;3;5];
 Te 101448547200 13 6 [1;1;4;4];
 Te (-184010670043200) 13 6 [1;1;10];
 Te 183372789600 13 6 [1;2;2;5];
 Te 309534825600 13 6 [1;2;3;4];
 Te (-239817360182400) 13 6 [1;2;9];
 Te 46508061600 13 6 [1;3;3;3];
 Te (-191065235961600) 13 6 [1;3;8];
 Te (-170266294598400) 13 6 [1;4;7];
 Te (-162122043283200) 13 6 [1;5;6];
 Te 185155287276960000 13 6 [1;13];
 Te 43567524000 13 6 [2;2;2;4];
 Te 58897238400 13 6 [2;2;3;3];
 Te (-79994255140800) 13 6 [2;2;8];
 Te (-130009297017600) 13 6 [2;3;7];
 Te (-117917719920000) 13 6 [2;4;6];
 Te (-57285737308800) 13 6 [2;5;5];
 Te 115203108840019200 13 6 [2;12];
 Te (-53775532324800) 13 6 [3;3;6];
 Te (-99536073436800) 13 6 [3;4;5];
 Te 86950467860256000 13 6 [3;11];
 Te (-15800849064000) 13 6 [4;4;4];
 Te 72749793628512000 13 6 [4;10];
 Te 64876294042560000 13 6 [5;9];
 Te 60771340742112000 13 6 [6;8];
 Te 29744199531446400 13 6 [7;7];
 Te 43243200 14 0 [1;1;1;2];
 Te (-20497276800) 14 0 [1;1;5];
 Te (-31308076800) 14 0 [1;2;4];
 Te (-14548248000) 14 0 [1;3;3];
 Te 8682023750400 14 0 [1;8];
 Te (-12454041600) 14 0 [2;2;3];
 Te 5832539032320 14 0 [2;7];
 Te 4692060172800 14 0 [3;6];
 Te 4271736268800 14 0 [4;5];
 Te (-2562431513241600) 14 0 [11];
 Te (-540540000) 14 1 [1;1;1;3];
 Te (-648648000) 14 1 [1;1;2;2];
 Te 336778041600 14 1 [1;1;6];
 Te 486486000000 14 1 [1;2;5];
 Te 432864432000 14 1 [1;3;4];
 Te (-174085706995200) 14 1 [1;9];
 Te 181102521600 14 1 [2;2;4];
 Te 168185160000 14 1 [2;3;3];
 Te (-113534156736000) 14 1 [2;8];
 Te (-90159477408000) 14 1 [3;7];
 Te (-79833520166400) 14 1 [4;6];
 Te (-38445626419200) 14 1 [5;5];
 Te 58935924804556800 14 1 [12];
 Te 3827023200 14 2 [1;1;1;4];
 Te 8237829600 14 2 [1;1;2;3];
 Te (-2966786222400) 14 2 [1;1;7];
 Te 2205403200 14 2 [1;2;2;2];
 Te (-4105941840000) 14 2 [1;2;6];
 Te (-3532018089600) 14 2 [1;3;5];
 Te (-1691025336000) 14 2 [1;4;4];
 Te 1831684395340800 14 2 [1;10];
 Te (-1460236377600) 14 2 [2;2;5];
 Te (-2586548764800) 14 2 [2;3;4];
 Te 1169179198387200 14 2 [2;9];
 Te (-398640528000) 14 2 [3;3;3];
 Te 916510045651200 14 2 [3;8];
 Te 796400154950400 14 2 [4;7];
 Te 746507707545600 14 2 [5;6];
 Te (-707231097654681600) 14 2 [13];
 Te (-19675656000) 14 3 [1;1;1;5];
 Te (-39891852000) 14 3 [1;1;2;4];
 Te (-17837820000) 14 3 [1;1;3;3];
 Te 18495678801600 14 3 [1;1;8];
 Te (-28864836000) 14 3 [1;2;2;3];
 Te 24798850876800 14 3 [1;2;7];
 Te 20737536019200 14 3 [1;3;6];
 Te 19272196944000 14 3 [1;4;5];
 Te (-13446228629433600) 14 3 [1;11];
 Te (-1945944000) 14 3 [2;2;2;2];
 Te 8534910384000 14 3 [2;2;6];
 Te 14602363776000 14 3 [2;3;5];
 Te 6984425448000 14 3 [2;4;4];
 Te (-8454510204940800) 14 3 [2;10];
 Te 6426989712000 14 3 [3;3;4];
 Te (-6546468523795200) 14 3 [3;9];
 Te (-5609700422726400) 14 3 [4;8];
 Te (-5154296597049600) 14 3 [5;7];
 Te (-2508642507571200) 14 3 [6;6];
 Te 5893592480455680000 14 3 [14];
 Te 81124243200 14 4 [1;1;1;6];
 Te 159048489600 14 4 [1;1;2;5];
 Te 133102569600 14 4 [1;1;3;4];
 Te (-91198352044800) 14 4 [1;1;9];
 Te 108778269600 14 4 [1;2;2;4];
 Te 97426929600 14 4 [1;2;3;3];
 Te (-119570475024000) 14 4 [1;2;8];
 Te (-97594021324800) 14 4 [1;3;7];
 Te (-88639219468800) 14 4 [1;4;6];
 Te (-43050767760000) 14 4 [1;5;5];
 Te 77297838377760000 14 4 [1;12];
 Te 26529703200 14 4 [2;2;2;3];
 Te (-40190359809600) 14 4 [2;2;7];
 Te (-66905446608000) 14 4 [2;3;6];
 Te (-62075613600000) 14 4 [2;4;5];
 Te 48119560096608000 14 4 [2;11];
 Te (-28436746852800) 14 4 [3;3;5];
 Te (-27157162032000) 14 4 [3;4;4];
 Te 36843614788780800 14 4 [3;10];
 Te 31221225254419200 14 4 [4;9];
 Te 28257641277465600 14 4 [5;8];
 Te 26957598123456000 14 4 [6;7];
 Te (-38308351122961920000) 14 4 [15];
 Te (-283329446400) 14 5 [1;1;1;7];
 Te (-545772427200) 14 5 [1;1;2;6];
 Te (-437513076000) 14 5 [1;1;3;5];
 Te (-204518714400) 14 5 [1;1;4;4];
 Te 377668033142400 14 5 [1;1;10];
 Te (-361815854400) 14 5 [1;2;2;5];
 Te (-607134528000) 14 5 [1;2;3;4];
 Te 487862949974400 14 5 [1;2;9];
 Te (-90810720000) 14 5 [1;3;3;3];
 Te 390023220787200 14 5 [1;3;8];
 Te 347589187545600 14 5 [1;4;7];
 Te 330521701910400 14 5 [1;5;6];
 Te (-370454384485785600) 14 5 [1;13];
 Te (-83610727200) 14 5 [2;2;2;4];
 Te (-112540428000) 14 5 [2;2;3;3];
 Te 161272444132800 14 5 [2;2;8];
 Te 262515629376000 14 5 [2;3;7];
 Te 237981426883200 14 5 [2;4;6];
 Te 115534587168000 14 5 [2;5;5];
 Te (-229247412386952960) 14 5 [2;12];
 Te 108656453505600 14 5 [3;3;6];
 Te 201118501584000 14 5 [3;4;5];
 Te (-173782949243904000) 14 5 [3;11];
 Te 31948508592000 14 5 [4;4;4];
 Te (-145883599845984000) 14 5 [4;10];
 Te (-130495714520371200) 14 5 [5;9];
 Te (-122577178006483200) 14 5 [6;8];
 Te (-60063432157048320) 14 5 [7;7];
 Te 108108000 15 0 [1;1;1;3];
 Te 129729600 15 0 [1;1;2;2];
 Te (-74205331200) 15 0 [1;1;6];
 Te (-108194486400) 15 0 [1;2;5];
 Te (-95653958400) 15 0 [1;3;4];
 Te 39335571475200 15 0 [1;9];
 Te (-40579418880) 15 0 [2;2;4];
 Te (-37528920000) 15 0 [2;3;3];
 Te 26005595616000 15 0 [2;8];
 Te 20642573952000 15 0 [3;7];
 Te 18372824870400 15 0 [4;6];
 Te 8862465830400 15 0 [5;5];
 Te (-13600598031820800) 15 0 [12];
 Te (-1664863200) 15 1 [1;1;1;4];
 Te (-3567564000) 15 1 [1;1;2;3];
 Te 1385166182400 15 1 [1;1;7];
 Te (-951350400) 15 1 [1;2;2;2];
 Te 1932192662400 15 1 [1;2;6];
 Te 1656128073600 15 1 [1;3;5];
 Te 791062272000 15 1 [1;4;4];
 Te (-869396406278400) 15 1 [1;10];
 Te 689798229120 15 1 [2;2;5];
 Te 1218160944000 15 1 [2;3;4];
 Te (-560101839897600) 15 1 [2;9];
 Te 187644600000 15 1 [3;3;3];
 Te (-439666587360000) 15 1 [3;8];
 Te (-383344740979200) 15 1 [4;7];
 Te (-360329672102400) 15 1 [5;6];
 Te 340014950795520000 15 1 [13];
 Te 13924310400 15 2 [1;1;1;5];
 Te 27956728800 15 2 [1;1;2;4];
 Te 12486474000 15 2 [1;1;3;3];
 Te (-13709434939200) 15 2 [1;1;8];
 Te 20043223200 15 2 [1;2;2;3];
 Te (-18469516665600) 15 2 [1;2;7];
 Te (-15426665654400) 15 2 [1;3;6];
 Te (-14294039760000) 15 2 [1;4;5];
 Te 10036190093529600 15 2 [1;11];
 Te 1340539200 15 2 [2;2;2;2];
 Te (-6361161206400) 15 2 [2;2;6];
 Te (-10862778326400) 15 2 [2;3;5];
 Te (-5186517336000) 15 2 [2;4;4];
 Te 6343004251584000 15 2 [2;10];
 Te (-4778367422400) 15 2 [3;3;4];
 Te 4923597930451200 15 2 [3;9];
 Te 4229481262406400 15 2 [4;8];
 Te 3897458070105600 15 2 [5;7];
 Te 1899135484646400 15 2 [6;6];
 Te (-4420194360341760000) 15 2 [14];
 Te (-82767484800) 15 3 [1;1;1;6];
 Te (-159826867200) 15 3 [1;1;2;5];
 Te (-133426893600) 15 3 [1;1;3;4];
 Te 95261093928000 15 3 [1;1;9];
 Te (-107740432800) 15 3 [1;2;2;4];
 Te (-96324228000) 15 3 [1;2;3;3];
 Te 124998880406400 15 3 [1;2;8];
 Te 102081800620800 15 3 [1;3;7];
 Te 92466848073600 15 3 [1;4;6];
 Te 44851414608000 15 3 [1;5;5];
 Te (-80503056707673600) 15 3 [1;12];
 Te (-25924298400) 15 3 [2;2;2;3];
 Te 41920304025600 15 3 [2;2;7];
 Te 69721097846400 15 3 [2;3;6];
 Te 64539178704000 15 3 [2;4;5];
 Te (-50183129406009600) 15 3 [2;11];
 Te 29617397409600 15 3 [3;3;5];
 Te 28258061832000 15 3 [3;4;4];
 Te (-38537506630022400) 15 3 [3;10];
 Te (-32724180032544000) 15 3 [4;9];
 Te (-29696750930246400) 15 3 [5;8];
 Te (-28381895250508800) 15 3 [6;7];
 Te 39781749243075840000 15 3 [15];
 Te 389448259200 15 4 [1;1;1;7];
 Te 735047913600 15 4 [1;1;2;6];
 Te 586961575200 15 4 [1;1;3;5];
 Te 274151077200 15 4 [1;1;4;4];
 Te (-520333966152000) 15 4 [1;1;10];
 Te 477923846400 15 4 [1;2;2;5];
 Te 799264065600 15 4 [1;2;3;4];
 Te (-669851524742400) 15 4 [1;2;9];
 Te 119243124000 15 4 [1;3;3;3];
 Te (-536324739350400) 15 4 [1;3;8];
 Te (-477041858092800) 15 4 [1;4;7];
 Te (-452758120214400) 15 4 [1;5;6];
 Te 503838096291129600 15 4 [1;13];
 Te 108432324000 15 4 [2;2;2;4];
 Te 145589043600 15 4 [2;2;3;3];
 Te (-220274244590400) 15 4 [2;2;8];
 Te (-358470906393600) 15 4 [2;3;7];
 Te (-324266659516800) 15 4 [2;4;6];
 Te (-157245248160000) 15 4 [2;5;5];
 Te 311132787591225600 15 4 [2;12];
 Te (-148286381443200) 15 4 [3;3;6];
 Te (-274093996176000) 15 4 [3;4;5];
 Te 236568370047609600 15 4 [3;11];
 Te (-43531387099200) 15 4 [4;4;4];
 Te 198975814342905600 15 4 [4;10];
 Te 178401785879116800 15 4 [5;9];
 Te 167923936032652800 15 4 [6;8];
 Te 82349551034150400 15 4 [7;7];
 Te 302702400 16 0 [1;1;1;4];
 Te 648648000 16 0 [1;1;2;3];
 Te (-272086214400) 16 0 [1;1;7];
 Te 172972800 16 0 [1;2;2;2];
 Te (-382442860800) 16 0 [1;2;6];
 Te (-325880755200) 16 0 [1;3;5];
 Te (-155387232000) 16 0 [1;4;4];
 Te 174315068928000 16 0 [1;10];
 Te (-137305808640) 16 0 [2;2;5];
 Te (-241297056000) 16 0 [2;3;4];
 Te 113534156736000 16 0 [2;9];
 Te (-37065600000) 16 0 [3;3;3];
 Te 89046397440000 16 0 [3;8];
 Te 77915597760000 16 0 [4;7];
 Te 73360532044800 16 0 [5;6];
 Te (-69390806284800000) 16 0 [13];
 Te (-5448643200) 16 1 [1;1;1;5];
 Te (-10897286400) 16 1 [1;1;2;4];
 Te (-4864860000) 16 1 [1;1;3;3];
 Te 5676707836800 16 1 [1;1;8];
 Te (-7783776000) 16 1 [1;2;2;3];
 Te 7695092845440 16 1 [1;2;7];
 Te 6404490892800 16 1 [1;3;6];
 Te 5917226515200 16 1 [1;4;5];
 Te (-4209708914611200) 16 1 [1;11];
 Te (-518918400) 16 1 [2;2;2;2];
 Te 2657692477440 16 1 [2;2;6];
 Te 4522373856000 16 1 [2;3;5];
 Te 2155241088000 16 1 [2;4;4];
 Te (-2680094184768000) 16 1 [2;10];
 Te 1984862880000 16 1 [3;3;4];
 Te (-2081459540160000) 16 1 [3;9];
 Te (-1792058748480000) 16 1 [4;8];
 Te (-1654927296422400) 16 1 [5;7];
 Te (-806965852492800) 16 1 [6;6];
 Te 1873551769689600000 16 1 [14];
 Te 52151299200 16 2 [1;1;1;6];
 Te 99891792000 16 2 [1;1;2;5];
 Te 83286403200 16 2 [1;1;3;4];
 Te (-62295375542400) 16 2 [1;1;9];
 Te 66810744000 16 2 [1;2;2;4];
 Te 59675616000 16 2 [1;2;3;3];
 Te (-82033993641600) 16 2 [1;2;8];
 Te (-66884689872000) 16 2 [1;3;7];
 Te (-60397431494400) 16 2 [1;4;6];
 Te (-29262846412800) 16 2 [1;5;5];
 Te 52895907666201600 16 2 [1;12];
 Te 15956740800 16 2 [2;2;2;3];
 Te (-27517049239680) 16 2 [2;2;7];
 Te (-45654959750400) 16 2 [2;3;6];
 Te (-42150703795200) 16 2 [2;4;5];
 Te 33102431589427200 16 2 [2;11];
 Te (-19359807667200) 16 2 [3;3;5];
 Te (-18445819392000) 16 2 [3;4;4];
 Te 25455734111808000 16 2 [3;10];
 Te 21649405377600000 16 2 [4;9];
 Te 19687713241996800 16 2 [5;8];
 Te 18838553096563200 16 2 [6;7];
 Te (-26229724775654400000) 16 2 [15];
 Te (-350334784800) 16 3 [1;1;1;7];
 Te (-653058806400) 16 3 [1;1;2;6];
 Te (-520345425600) 16 3 [1;1;3;5];
 Te (-242918676000) 16 3 [1;1;4;4];
 Te 477053706729600 16 3 [1;1;10];
 Te (-419545526400) 16 3 [1;2;2;5];
 Te (-700280380800) 16 3 [1;2;3;4];
 Te 614345937004800 16 3 [1;2;9];
 Te (-104324220000) 16 3 [1;3;3;3];
 Te 491758729862400 16 3 [1;3;8];
 Te 436185596246400 16 3 [1;4;7];
 Te 413235997574400 16 3 [1;5;6];
 Te (-460261507997491200) 16 3 [1;13];
 Te (-94097203200) 16 3 [2;2;2;4];
 Te (-126162036000) 16 3 [2;2;3;3];
 Te 201556520605440 16 3 [2;2;8];
 Te 327505800061440 16 3 [2;3;7];
 Te 295438926182400 16 3 [2;4;6];
 Te 143103165004800 16 3 [2;5;5];
 Te (-284429897969817600) 16 3 [2;12];
 Te 135280470124800 16 3 [3;3;6];
 Te 249562388275200 16 3 [3;4;5];
 Te (-216656199170611200) 16 3 [3;11];
 Te 39603564000000 16 3 [4;4;4];
 Te (-182451683494080000) 16 3 [4;10];
 Te (-163887668328384000) 16 3 [5;9];
 Te (-154487930614617600) 16 3 [6;8];
 Te (-75799410124838400) 16 3 [7;7];
 Te 908107200 17 0 [1;1;1;5];
 Te 1816214400 17 0 [1;1;2;4];
 Te 810810000 17 0 [1;1;3;3];
 Te (-1007955748800) 17 0 [1;1;8];
 Te 1297296000 17 0 [1;2;2;3];
 Te (-1375272138240) 17 0 [1;2;7];
 Te (-1138766428800) 17 0 [1;3;6];
 Te (-1049771923200) 17 0 [1;4;5];
 Te 760281877555200 17 0 [1;11];
 Te 86486400 17 0 [2;2;2;2];
 Te (-477197360640) 17 0 [2;2;6];
 Te (-808215408000) 17 0 [2;3;5];
 Te (-384633849600) 17 0 [2;4;4];
 Te 488417414284800 17 0 [2;10];
 Te (-353513160000) 17 0 [3;3;4];
 Te 378932377824000 17 0 [3;9];
 Te 327045727008000 17 0 [4;8];
 Te 302432389459200 17 0 [5;7];
 Te 147535127308800 17 0 [6;6];
 Te (-343484491109760000) 17 0 [14];
 Te (-18551332800) 17 1 [1;1;1;6];
 Te (-35416180800) 17 1 [1;1;2;5];
 Te (-29513484000) 17 1 [1;1;3;4];
 Te 23213338948800 17 1 [1;1;9];
 Te (-23610787200) 17 1 [1;2;2;4];
 Te (-21081060000) 17 1 [1;2;3;3];
 Te 30724380086400 17 1 [1;2;8];
 Te 24968969625600 17 1 [1;3;7];
 Te 22482918057600 17 1 [1;4;6];
 Te 10883417126400 17 1 [1;5;5];
 Te (-19915161403737600) 17 1 [1;12];
 Te (-5621616000) 17 1 [2;2;2;3];
 Te 10329382103040 17 1 [2;2;7];
 Te 17078642380800 17 1 [2;3;6];
 Te 15730232918400 17 1 [2;4;5];
 Te (-12537611332646400) 17 1 [2;11];
 Te 7222695480000 17 1 [3;3;5];
 Te 6872353488000 17 1 [3;4;4];
 Te (-9641802250080000) 17 1 [3;10];
 Te (-8212304003904000) 17 1 [4;9];
 Te (-7479897384960000) 17 1 [5;8];
 Te (-7162669594080000) 17 1 [6;7];
 Te 9961050242183040000 17 1 [15];
 Te 199070071200 17 2 [1;1;1;7];
 Te 368561793600 17 2 [1;1;2;6];
 Te 293318625600 17 2 [1;1;3;5];
 Te 136897160400 17 2 [1;1;4;4];
 Te (-279506185358400) 17 2 [1;1;10];
 Te 235199764800 17 2 [1;2;2;5];
 Te 392172580800 17 2 [1;2;3;4];
 Te (-360965087683200) 17 2 [1;2;9];
 Te 58378320000 17 2 [1;3;3;3];
 Te (-288436122374400) 17 2 [1;3;8];
 Te (-255095096256000) 17 2 [1;4;7];
 Te (-241309510041600) 17 2 [1;5;6];
 Te 270554753704435200 17 2 [1;13];
 Te 52410758400 17 2 [2;2;2;4];
 Te 70216146000 17 2 [2;2;3;3];
 Te (-118431371298240) 17 2 [2;2;8];
 Te (-191959124797440) 17 2 [2;3;7];
 Te (-172686184070400) 17 2 [2;4;6];
 Te (-83564684985600) 17 2 [2;5;5];
 Te 167712550471065600 17 2 [2;12];
 Te (-79122472228800) 17 2 [3;3;6];
 Te (-145665843523200) 17 2 [3;4;5];
 Te 127842671551795200 17 2 [3;11];
 Te (-23091652584000) 17 2 [4;4;4];
 Te 107762263697088000 17 2 [4;10];
 Te 96939989546400000 17 2 [5;9];
 Te 91469795146329600 17 2 [6;8];
 Te 44893974219494400 17 2 [7;7];
 Te 2854051200 18 0 [1;1;1;6];
 Te 5448643200 18 0 [1;1;2;5];
 Te 4540536000 18 0 [1;1;3;4];
 Te (-3765358396800) 18 0 [1;1;9];
 Te 3632428800 18 0 [1;2;2;4];
 Te 3243240000 18 0 [1;2;3;3];
 Te (-5012232825600) 18 0 [1;2;8];
 Te (-4055433782400) 18 0 [1;3;7];
 Te (-3643326086400) 18 0 [1;4;6];
 Te (-1762388409600) 18 0 [1;5;5];
 Te 3276788074560000 18 0 [1;12];
 Te 864864000 18 0 [2;2;2;3];
 Te (-1691881551360) 18 0 [2;2;7];
 Te (-2785553971200) 18 0 [2;3;6];
 Te (-2560862304000) 18 0 [2;4;5];
 Te 2078707196966400 18 0 [2;11];
 Te (-1174052880000) 18 0 [3;3;5];
 Te (-1115962848000) 18 0 [3;4;4];
 Te 1596850542144000 18 0 [3;10];
 Te 1362409880832000 18 0 [4;9];
 Te 1242197244288000 18 0 [5;8];
 Te 1190105101785600 18 0 [6;7];
 Te (-1660175040363840000) 18 0 [15];
 Te (-64929664800) 18 1 [1;1;1;7];
 Te (-119870150400) 18 1 [1;1;2;6];
 Te (-95351256000) 18 1 [1;1;3;5];
 Te (-44497252800) 18 1 [1;1;4;4];
 Te 94783818729600 18 1 [1;1;10];
 Te (-76281004800) 18 1 [1;2;2;5];
 Te (-127135008000) 18 1 [1;2;3;4];
 Te 122937995980800 18 1 [1;2;9];
 Te (-18918900000) 18 1 [1;3;3;3];
 Te 97951037184000 18 1 [1;3;8];
 Te 86399740627200 18 1 [1;4;7];
 Te 81631572422400 18 1 [1;5;6];
 Te (-92521075046400000) 18 1 [1;13];
 Te (-16951334400) 18 1 [2;2;2;4];
 Te (-22702680000) 18 1 [2;2;3;3];
 Te 40414921747200 18 1 [2;2;8];
 Te 65297318486400 18 1 [2;3;7];
 Te 58598341401600 18 1 [2;4;6];
 Te 28334925964800 18 1 [2;5;5];
 Te (-57640629753907200) 18 1 [2;12];
 Te 26842351536000 18 1 [3;3;6];
 Te 49328383104000 18 1 [3;4;5];
 Te (-43927397369856000) 18 1 [3;11];
 Te 7811739936000 18 1 [4;4;4];
 Te (-37063741530816000) 18 1 [4;10];
 Te (-33379042080384000) 18 1 [5;9];
 Te (-31515746213952000) 18 1 [6;8];
 Te (-15471366323212800) 18 1 [7;7];
 Te 9275666400 19 0 [1;1;1;7];
 Te 17124307200 19 0 [1;1;2;6];
 Te 13621608000 19 0 [1;1;3;5];
 Te 6356750400 19 0 [1;1;4;4];
 Te (-14163099350400) 19 0 [1;1;10];
 Te 10897286400 19 0 [1;2;2;5];
 Te 18162144000 19 0 [1;2;3;4];
 Te (-18463635590400) 19 0 [1;2;9];
 Te 2702700000 19 0 [1;3;3;3];
 Te (-14655552912000) 19 0 [1;3;8];
 Te (-12899360073600) 19 0 [1;4;7];
 Te (-12175382419200) 19 0 [1;5;6];
 Te 13993812600768000 19 0 [1;13];
 Te 2421619200 19 0 [2;2;2;4];
 Te 3243240000 19 0 [2;2;3;3];
 Te (-6091583097600) 19 0 [2;2;8];
 Te (-9805222627200) 19 0 [2;3;7];
 Te (-8782175001600) 19 0 [2;4;6];
 Te (-4243997721600) 19 0 [2;5;5];
 Te 8775623968151040 19 0 [2;12];
 Te (-4018096368000) 19 0 [3;3;6];
 Te (-7373830464000) 19 0 [3;4;5];
 Te 6680625016665600 19 0 [3;11];
 Te (-1166816851200) 19 0 [4;4;4];
 Te 5643450356544000 19 0 [4;10];
 Te 5086330221772800 19 0 [5;9];
 Te 4804498373875200 19 0 [6;8];
 Te 2358905852983680 19 0 [7;7]].
Definition wit1_6 : list term := [Te 95135040 11 0 [1;1;2];
 Te (-14010796800) 11 0 [1;5];
 Te (-9859449600) 11 0 [2;4];
 Te (-4262544000) 11 0 [3;3];
 Te 2226159936000 11 0 [8];
 Te (-994593600) 11 1 [1;1;3];
 Te (-804323520) 11 1 [1;2;2];
 Te 205491686400 11 1 [1;6];
 Te 130767436800 11 1 [2;5];
 Te 108972864000 11 1 [3;4];
 Te (-37844718912000) 11 1 [9];
 Te (-10810800) 11 2 [1;1;1;1];
 Te 5967561600 11 2 [1;1;4];
 Te 8406478080 11 2 [1;2;3];
 Te (-1592560569600) 11 2 [1;7];
 Te 1089728640 11 2 [2;2;2];
 Te (-957404448000) 11 2 [2;6];
 Te (-766442476800) 11 2 [3;5];
 Te (-356756400000) 11 2 [4;4];
 Te 340602470208000 11 2 [10];
 Te 108108000 11 3 [1;1;1;2];
 Te (-26032406400) 11 3 [1;1;5];
 Te (-33816182400) 11 3 [1;2;4];
 Te (-15178363200) 11 3 [1;3;3];
 Te 8682023750400 11 3 [1;8];
 Te (-11831339520) 11 3 [2;2;3];
 Te 5068794931200 11 3 [2;7];
 Te 3910569062400 11 3 [3;6];
 Te 3487131648000 11 3 [4;5];
 Te (-2157148977984000) 11 3 [11];
 Te (-259459200) 11 4 [1;1;1;3];
 Te (-302702400) 11 4 [1;1;2;2];
 Te 91113422400 11 4 [1;1;6];
 Te 113643129600 11 4 [1;2;5];
 Te 94616121600 11 4 [1;3;4];
 Te (-37399486924800) 11 4 [1;9];
 Te 37595638080 11 4 [2;2;4];
 Te 33392399040 11 4 [2;3;3];
 Te (-21576627072000) 11 4 [2;8];
 Te (-16140437913600) 11 4 [3;7];
 Te (-13950602265600) 11 4 [4;6];
 Te (-6657723072000) 11 4 [5;5];
 Te 10785744889920000 11 4 [12];
 Te (-540540) 11 5 [1;1;1;1;1];
 Te 562161600 11 5 [1;1;1;4];
 Te 1189188000 11 5 [1;1;2;3];
 Te (-270797567040) 11 5 [1;1;7];
 Te 324324000 11 5 [1;2;2;2];
 Te (-332730478080) 11 5 [1;2;6];
 Te (-262313251200) 11 5 [1;3;5];
 Te (-122853931200) 11 5 [1;4;4];
 Te 135573140102400 11 5 [1;10];
 Te (-106871244480) 11 5 [2;2;5];
 Te (-176951174400) 11 5 [2;3;4];
 Te 78138213753600 11 5 [2;9];
 Te (-26075649600) 11 5 [3;3;3];
 Te 57058191590400 11 5 [3;8];
 Te 48091281638400 11 5 [4;7];
 Te 44448474470400 11 5 [5;6];
 Te (-45300128537664000) 11 5 [13];
 Te 2702700 11 6 [1;1;1;1;2];
 Te (-1102701600) 11 6 [1;1;1;5];
 Te (-2270268000) 11 6 [1;1;2;4];
 Te (-983782800) 11 6 [1;1;3;3];
 Te 709231723200 11 6 [1;1;8];
 Te (-1686484800) 11 6 [1;2;2;3];
 Te 871661831040 11 6 [1;2;7];
 Te 661620960000 11 6 [1;3;6];
 Te 590702112000 11 6 [1;4;5];
 Te (-430094099635200) 11 6 [1;11];
 Te (-118918800) 11 6 [2;2;2;2];
 Te 276479723520 11 6 [2;2;6];
 Te 436669833600 11 6 [2;3;5];
 Te 203718715200 11 6 [2;4;4];
 Te (-249329912832000) 11 6 [2;10];
 Te 180324144000 11 6 [3;3;4];
 Te (-178846264396800) 11 6 [3;9];
 Te (-147592847001600) 11 6 [4;8];
 Te (-133177293849600) 11 6 [5;7];
 Te (-64421643686400) 11 6 [6;6];
 Te 166100471304768000 11 6 [14];
 Te (-2702700) 11 7 [1;1;1;1;3];
 Te (-5405400) 11 7 [1;1;1;2;2];
 Te 1989187200 11 7 [1;1;1;6];
 Te 4108104000 11 7 [1;1;2;5];
 Te 3308104800 11 7 [1;1;3;4];
 Te (-1679609131200) 11 7 [1;1;9];
 Te 2940537600 11 7 [1;2;2;4];
 Te 2594592000 11 7 [1;2;3;3];
 Te (-2082782782080) 11 7 [1;2;8];
 Te (-1542242782080) 11 7 [1;3;7];
 Te (-1326441916800) 11 7 [1;4;6];
 Te (-634766932800) 11 7 [1;5;5];
 Te 1226168892748800 11 7 [1;12];
 Te 756756000 11 7 [2;2;2;3];
 Te (-659700961920) 11 7 [2;2;7];
 Te (-1008621694080) 11 7 [2;3;6];
 Te (-897728832000) 11 7 [2;4;5];
 Te 717936579360000 11 7 [2;11];
 Te (-399307708800) 11 7 [3;3;5];
 Te (-371502331200) 11 7 [3;4;4];
 Te 508613940806400 11 7 [3;10];
 Te 412353317376000 11 7 [4;9];
 Te 365015505254400 11 7 [5;8];
 Te 344615785113600 11 7 [6;7];
 Te (-545758691429952000) 11 7 [15];
 Te 2702700 11 8 [1;1;1;1;4];
 Te 10810800 11 8 [1;1;1;2;3];
 Te (-3351348000) 11 8 [1;1;1;7];
 Te 5405400 11 8 [1;1;2;2;2];
 Te (-7027020000) 11 8 [1;1;2;6];
 Te (-5470264800) 11 8 [1;1;3;5];
 Te (-2497294800) 11 8 [1;1;4;4];
 Te 3664601740800 11 8 [1;1;10];
 Te (-4994589600) 11 8 [1;2;2;5];
 Te (-8216208000) 11 8 [1;2;3;4];
 Te 4606438636800 11 8 [1;2;9];
 Te (-1232431200) 11 8 [1;3;3;3];
 Te 3360775017600 11 8 [1;3;8];
 Te 2807867462400 11 8 [1;4;7];
 Te 2599002806400 11 8 [1;5;6];
 Te (-3201663219955200) 11 8 [1;13];
 Te (-1232431200) 11 8 [2;2;2;4];
 Te (-1654052400) 11 8 [2;2;3;3];
 Te 1467397451520 11 8 [2;2;8];
 Te 2195336183040 11 8 [2;3;7];
 Te 1886787302400 11 8 [2;4;6];
 Te 901361260800 11 8 [2;5;5];
 Te (-1898023961433600) 11 8 [2;12];
 Te 845318073600 11 8 [3;3;6];
 Te 1500971472000 11 8 [3;4;5];
 Te (-1333915033651200) 11 8 [3;11];
 Te 232475443200 11 8 [4;4;4];
 Te (-1065645637056000) 11 8 [4;10];
 Te (-928339828416000) 11 8 [5;9];
 Te (-860066772364800) 11 8 [6;8];
 Te (-419515948051200) 11 8 [7;7];
 Te 994593600 12 0 [1;1;3];
 Te 804323520 12 0 [1;2;2];
 Te (-205491686400) 12 0 [1;6];
 Te (-130767436800) 12 0 [2;5];
 Te (-108972864000) 12 0 [3;4];
 Te 37844718912000 12 0 [9];
 Te 21621600 12 1 [1;1;1;1];
 Te (-12410798400) 12 1 [1;1;4];
 Te (-17902684800) 12 1 [1;2;3];
 Te 3339239904000 12 1 [1;7];
 Te (-2412970560) 12 1 [2;2;2];
 Te 2054916864000 12 1 [2;6];
 Te 1634592960000 12 1 [3;5];
 Te 762810048000 12 1 [4;4];
 Te (-719049659328000) 12 1 [10];
 Te (-345945600) 12 2 [1;1;1;2];
 Te 85059374400 12 2 [1;1;5];
 Te 114940425600 12 2 [1;2;4];
 Te 51502651200 12 2 [1;3;3];
 Te (-28717463174400) 12 2 [1;8];
 Te 41798877120 12 2 [2;2;3];
 Te (-17312674579200) 12 2 [2;7];
 Te (-13328938022400) 12 2 [3;6];
 Te (-11878042176000) 12 2 [4;5];
 Te 7190496593280000 12 2 [11];
 Te 1167566400 12 3 [1;1;1;3];
 Te 1427025600 12 3 [1;1;2;2];
 Te (-418637419200) 12 3 [1;1;6];
 Te (-544864320000) 12 3 [1;2;5];
 Te (-456821164800) 12 3 [1;3;4];
 Te 173640475008000 12 3 [1;9];
 Te (-186680894400) 12 3 [2;2;4];
 Te (-167740372800) 12 3 [2;3;3];
 Te 103516437024000 12 3 [2;8];
 Te 77829976224000 12 3 [3;7];
 Te 67111716672000 12 3 [4;6];
 Te 32038022016000 12 3 [5;5];
 Te (-50333476152960000) 12 3 [12];
 Te 2702700 12 4 [1;1;1;1;1];
 Te (-3372969600) 12 4 [1;1;1;4];
 Te (-7524316800) 12 4 [1;1;2;3];
 Te 1647306460800 12 4 [1;1;7];
 Te (-2075673600) 12 4 [1;2;2;2];
 Te 2101360060800 12 4 [1;2;6];
 Te 1686225340800 12 4 [1;3;5];
 Te 788799211200 12 4 [1;4;4];
 Te (-828131496192000) 12 4 [1;10];
 Te 695869574400 12 4 [2;2;5];
 Te 1172236665600 12 4 [2;3;4];
 Te (-491536113868800) 12 4 [2;9];
 Te 175913337600 12 4 [3;3;3];
 Te (-363155182790400) 12 4 [3;8];
 Te (-305589489004800) 12 4 [4;7];
 Te (-282270852864000) 12 4 [5;6];
 Te 276834118841280000 12 4 [13];
 Te (-18918900) 12 5 [1;1;1;1;2];
 Te 8562153600 12 5 [1;1;1;5];
 Te 18291873600 12 5 [1;1;2;4];
 Te 8237829600 12 5 [1;1;3;3];
 Te (-5494048560000) 12 5 [1;1;8];
 Te 13881067200 12 5 [1;2;2;3];
 Te (-6948109808640) 12 5 [1;2;7];
 Te (-5410502697600) 12 5 [1;3;6];
 Te (-4841422185600) 12 5 [1;4;5];
 Te 3315197376691200 12 5 [1;11];
 Te 972972000 12 5 [2;2;2;2];
 Te (-2259007470720) 12 5 [2;2;6];
 Te (-3646699056000) 12 5 [2;3;5];
 Te (-1708668561600) 12 5 [2;4;4];
 Te 1968815847398400 12 5 [2;10];
 Te (-1541706566400) 12 5 [3;3;4];
 Te 1435873158720000 12 5 [3;9];
 Te 1185943895136000 12 5 [4;8];
 Te 1068701547513600 12 5 [5;7];
 Te 516923677670400 12 5 [6;6];
 Te (-1273436946669888000) 12 5 [14];
 Te 27027000 12 6 [1;1;1;1;3];
 Te 48648600 12 6 [1;1;1;2;2];
 Te (-19545926400) 12 6 [1;1;1;6];
 Te (-40994553600) 12 6 [1;1;2;5];
 Te (-34767532800) 12 6 [1;1;3;4];
 Te 16112546049600 12 6 [1;1;9];
 Te (-29837808000) 12 6 [1;2;2;4];
 Te (-26983756800) 12 6 [1;2;3;3];
 Te 20356130995200 12 6 [1;2;8];
 Te 15524395286400 12 6 [1;3;7];
 Te 13459964918400 12 6 [1;4;6];
 Te 6435755726400 12 6 [1;5;5];
 Te (-11580483987072000) 12 6 [1;12];
 Te (-7697289600) 12 6 [2;2;2;3];
 Te 6564162084480 12 6 [2;2;7];
 Te 10290930249600 12 6 [2;3;6];
 Te 9232336713600 12 6 [2;4;5];
 Te (-6905548121472000) 12 6 [2;11];
 Te 4175217446400 12 6 [3;3;5];
 Te 3917660947200 12 6 [3;4;4];
 Te (-4988824416576000) 12 6 [3;10];
 Te (-4061029452480000) 12 6 [4;9];
 Te (-3590430139296000) 12 6 [5;8];
 Te (-3388067530848000) 12 6 [6;7];
 Te 5093747786679552000 12 6 [15];
 Te (-37837800) 12 7 [1;1;1;1;4];
 Te (-129729600) 12 7 [1;1;1;2;3];
 Te 40886445600 12 7 [1;1;1;7];
 Te (-59459400) 12 7 [1;1;2;2;2];
 Te 85362076800 12 7 [1;1;2;6];
 Te 69794524800 12 7 [1;1;3;5];
 Te 32756724000 12 7 [1;1;4;4];
 Te (-42612411441600) 12 7 [1;1;10];
 Te 60972912000 12 7 [1;2;2;5];
 Te 104043139200 12 7 [1;2;3;4];
 Te (-54052875676800) 12 7 [1;2;9];
 Te 15762146400 12 7 [1;3;3;3];
 Te (-40636759363200) 12 7 [1;3;8];
 Te (-34425738547200) 12 7 [1;4;7];
 Te (-31885460006400) 12 7 [1;5;6];
 Te 36240102830131200 12 7 [1;13];
 Te 15091876800 12 7 [2;2;2;4];
 Te 20562141600 12 7 [2;2;3;3];
 Te (-17404678811520) 12 7 [2;2;8];
 Te (-26736025155840) 12 7 [2;3;7];
 Te (-23252992963200) 12 7 [2;4;6];
 Te (-11128853736000) 12 7 [2;5;5];
 Te 21753144430617600 12 7 [2;12];
 Te (-10546238102400) 12 7 [3;3;6];
 Te (-18964651305600) 12 7 [3;4;5];
 Te 15610278703219200 12 7 [3;11];
 Te (-2969078112000) 12 7 [4;4;4];
 Te 12562220518848000 12 7 [4;10];
 Te 10940377383936000 12 7 [5;9];
 Te 10126784424556800 12 7 [6;8];
 Te 4938838563859200 12 7 [7;7];
 Te (-10810800) 13 0 [1;1;1;1];
 Te 6486480000 13 0 [1;1;4];
 Te 9562924800 13 0 [1;2;3];
 Te (-1780927948800) 13 0 [1;7];
 Te 1356600960 13 0 [2;2;2];
 Te (-1130204275200) 13 0 [2;6];
 Te (-887350464000) 13 0 [3;5];
 Te (-417729312000) 13 0 [4;4];
 Te 392208905088000 13 0 [10];
 Te 367567200 13 1 [1;1;1;2];
 Te (-93405312000) 13 1 [1;1;5];
 Te (-130507977600) 13 1 [1;2;4];
 Te (-58470984000) 13 1 [1;3;3];
 Te 32279319072000 13 1 [1;8];
 Te (-49037788800) 13 1 [2;2;3];
 Te 20035439424000 13 1 [2;7];
 Te 15411876480000 13 1 [3;6];
 Te 13730580864000 13 1 [4;5];
 Te (-8236387006848000) 13 1 [11];
 Te (-1967565600) 13 2 [1;1;1;3];
 Te (-2482159680) 13 2 [1;1;2;2];
 Te 728561433600 13 2 [1;1;6];
 Te 979977398400 13 2 [1;2;5];
 Te 828416160000 13 2 [1;3;4];
 Te (-308323151136000) 13 2 [1;9];
 Te 344895408000 13 2 [2;2;4];
 Te 313222852800 13 2 [2;3;3];
 Te (-188555746579200) 13 2 [2;8];
 Te (-142713976204800) 13 2 [3;7];
 Te (-122874687936000) 13 2 [4;6];
 Te (-58681887264000) 13 2 [5;5];
 Te 90600257075328000 13 2 [12];
 Te (-5405400) 13 3 [1;1;1;1;1];
 Te 8086478400 13 3 [1;1;1;4];
 Te 18681062400 13 3 [1;1;2;3];
 Te (-4049898652800) 13 3 [1;1;7];
 Te 5202156960 13 3 [1;2;2;2];
 Te (-5307756854400) 13 3 [1;2;6];
 Te (-4325184864000) 13 3 [1;3;5];
 Te (-2025727704000) 13 3 [1;4;4];
 Te 2062537180704000 13 3 [1;10];
 Te (-1798052256000) 13 3 [2;2;5];
 Te (-3072775305600) 13 3 [2;3;4];
 Te 1249988804064000 13 3 [2;9];
 Te (-467119224000) 13 3 [3;3;3];
 Te 933874093152000 13 3 [3;8];
 Te 786005700480000 13 3 [4;7];
 Te 725759274240000 13 3 [5;6];
 Te (-694601970910848000) 13 3 [13];
 Te 54054000 13 4 [1;1;1;1;2];
 Te (-27589161600) 13 4 [1;1;1;5];
 Te (-60389128800) 13 4 [1;1;2;4];
 Te (-27783756000) 13 4 [1;1;3;3];
 Te 17903463177600 13 4 [1;1;8];
 Te (-46456169760) 13 4 [1;2;2;3];
 Te 23079674217600 13 4 [1;2;7];
 Te 18324565459200 13 4 [1;3;6];
 Te 16474361904000 13 4 [1;4;5];
 Te (-10842511968288000) 13 4 [1;11];
 Te (-3249726480) 13 4 [2;2;2;2];
 Te 7638219388800 13 4 [2;2;6];
 Te 12539626070400 13 4 [2;3;5];
 Te 5903160120000 13 4 [2;4;4];
 Te (-6541570971936000) 13 4 [2;10];
 Te 5389801560000 13 4 [3;3;4];
 Te (-4836332460960000) 13 4 [3;9];
 Te (-4005461075616000) 13 4 [4;8];
 Te (-3607780176000000) 13 4 [5;7];
 Te (-1744927984800000) 13 4 [6;6];
 Te 4167611825465088000 13 4 [14];
 Te (-108108000) 13 5 [1;1;1;1;3];
 Te (-183783600) 13 5 [1;1;1;2;2];
 Te 81578296800 13 5 [1;1;1;6];
 Te 172734962400 13 5 [1;1;2;5];
 Te 150810660000 13 5 [1;1;3;4];
 Te (-66784798080000) 13 5 [1;1;9];
 Te 126910143360 13 5 [1;2;2;4];
 Te 116367451200 13 5 [1;2;3;3];
 Te (-85304736316800) 13 5 [1;2;8];
 Te (-66418182230400) 13 5 [1;3;7];
 Te (-58081498675200) 13 5 [1;4;6];
 Te (-27802350576000) 13 5 [1;5;5];
 Te 47672992413446400 13 5 [1;12];
 Te 32769696960 13 5 [2;2;2;3];
 Te (-27840075943680) 13 5 [2;2;7];
 Te (-44450809603200) 13 5 [2;3;6];
 Te (-40188932784000) 13 5 [2;4;5];
 Te 28735495069881600 13 5 [2;11];
 Te (-18347749992000) 13 5 [3;3;5];
 Te (-17327334024000) 13 5 [3;4;4];
 Te 21067264554336000 13 5 [3;10];
 Te 17238269464416000 13 5 [4;9];
 Te 15243801404832000 13 5 [5;8];
 Te 14380821943488000 13 5 [6;7];
 Te (-20838059127325440000) 13 5 [15];
 Te 205405200 13 6 [1;1;1;1;4];
 Te 648648000 13 6 [1;1;1;2;3];
 Te (-215070055200) 13 6 [1;1;1;7];
 Te 281080800 13 6 [1;1;2;2;2];
 Te (-446875228800) 13 6 [1;1;2;6];
 Te (-375805029600) 13 6 [1;1;3;5];
 Te (-178897118400) 13 6 [1;1;4;4];
 Te 218163673728000 13 6 [1;1;10];
 Te (-319472112960) 13 6 [1;2;2;5];
 Te (-556410254400) 13 6 [1;2;3;4];
 Te 277644954787200 13 6 [1;2;9];
 Te (-84843158400) 13 6 [1;3;3;3];
 Te 212953992451200 13 6 [1;3;8];
 Te 182532401251200 13 6 [1;4;7];
 Te 169582792579200 13 6 [1;5;6];
 Te (-182279088639648000) 13 6 [1;13];
 Te (-79018299360) 13 6 [2;2;2;4];
 Te (-108622594080) 13 6 [2;2;3;3];
 Te 89935304659200 13 6 [2;2;8];
 Te 140732226835200 13 6 [2;3;7];
 Te 123661887148800 13 6 [2;4;6];
 Te 59342210928000 13 6 [2;5;5];
 Te (-110071364955552000) 13 6 [2;12];
 Te 56459378289600 13 6 [3;3;6];
 Te 102509179344000 13 6 [3;4;5];
 Te (-80165132375328000) 13 6 [3;11];
 Te 16160138280000 13 6 [4;4;4];
 Te (-64978269291936000) 13 6 [4;10];
 Te (-56666473063200000) 13 6 [5;9];
 Te (-52440365289312000) 13 6 [6;8];
 Te (-25572498535584000) 13 6 [7;7];
 Te (-129729600) 14 0 [1;1;1;2];
 Te 34378344000 14 0 [1;1;5];
 Te 49383734400 14 0 [1;2;4];
 Te 22146696000 14 0 [1;3;3];
 Te (-12243879648000) 14 0 [1;8];
 Te 19070251200 14 0 [2;2;3];
 Te (-7791559776000) 14 0 [2;7];
 Te (-5993507520000) 14 0 [3;6];
 Te (-5339670336000) 14 0 [4;5];
 Te 3203039391552000 14 0 [11];
 Te 1470268800 14 1 [1;1;1;3];
 Te 1894052160 14 1 [1;1;2;2];
 Te (-566529163200) 14 1 [1;1;6];
 Te (-781491110400) 14 1 [1;2;5];
 Te (-665945280000) 14 1 [1;3;4];
 Te 245990672928000 14 1 [1;9];
 Te (-281642961600) 14 1 [2;2;4];
 Te (-257142600000) 14 1 [2;3;3];
 Te 153605035584000 14 1 [2;8];
 Te 116873396640000 14 1 [3;7];
 Te 100690926336000 14 1 [4;6];
 Te 48057033024000 14 1 [5;5];
 Te (-73669906005696000) 14 1 [12];
 Te 5405400 14 2 [1;1;1;1;1];
 Te (-9664855200) 14 2 [1;1;1;4];
 Te (-22810788000) 14 2 [1;1;2;3];
 Te 4996016625600 14 2 [1;1;7];
 Te (-6408642240) 14 2 [1;2;2;2];
 Te 6683150073600 14 2 [1;2;6];
 Te 5509616112000 14 2 [1;3;5];
 Te 2588754168000 14 2 [1;4;4];
 Te (-2592363245472000) 14 2 [1;10];
 Te 2307500395200 14 2 [2;2;5];
 Te 3983217638400 14 2 [2;3;4];
 Te (-1597269754080000) 14 2 [2;9];
 Te 609636456000 14 2 [3;3;3];
 Te (-1203239445408000) 14 2 [3;8];
 Te (-1014700823136000) 14 2 [4;7];
 Te (-936730738944000) 14 2 [5;6];
 Te 884038872068352000 14 2 [13];
 Te (-81081000) 14 3 [1;1;1;1;2];
 Te 47070223200 14 3 [1;1;1;5];
 Te 104648544000 14 3 [1;1;2;4];
 Te 48626978400 14 3 [1;1;3;3];
 Te (-31147687771200) 14 3 [1;1;8];
 Te 81236675520 14 3 [1;2;2;3];
 Te (-40744434931200) 14 3 [1;2;7];
 Te (-32784486134400) 14 3 [1;3;6];
 Te (-29642348736000) 14 3 [1;4;5];
 Te 19054815972192000 14 3 [1;11];
 Te 5682156480 14 3 [2;2;2;2];
 Te (-13675705243200) 14 3 [2;2;6];
 Te (-22731739430400) 14 3 [2;3;5];
 Te (-10739232504000) 14 3 [2;4;4];
 Te 11637251065440000 14 3 [2;10];
 Te (-9870105960000) 14 3 [3;3;4];
 Te 8688702230208000 14 3 [3;9];
 Te 7220549752416000 14 3 [4;8];
 Te 6507151114464000 14 3 [5;7];
 Te 3146591448000000 14 3 [6;6];
 Te (-7366990600569600000) 14 3 [14];
 Te 229729500 14 4 [1;1;1;1;3];
 Te 378378000 14 4 [1;1;1;2;2];
 Te (-186616029600) 14 4 [1;1;1;6];
 Te (-397988791200) 14 4 [1;1;2;5];
 Te (-352302350400) 14 4 [1;1;3;4];
 Te 153512278920000 14 4 [1;1;9];
 Te (-293807273760) 14 4 [1;2;2;4];
 Te (-271394323200) 14 4 [1;2;3;3];
 Te 197751499545600 14 4 [1;2;8];
 Te 156102589843200 14 4 [1;3;7];
 Te 137527473283200 14 4 [1;4;6];
 Te 65988258336000 14 4 [1;5;5];
 Te (-109655073047520000) 14 4 [1;12];
 Te (-75878843040) 14 4 [2;2;2;3];
 Te 65125686225600 14 4 [2;2;7];
 Te 105361970313600 14 4 [2;3;6];
 Te 95850455500800 14 4 [2;4;5];
 Te (-66625627644576000) 14 4 [2;11];
 Te 44003075688000 14 4 [3;3;5];
 Te 41711742072000 14 4 [3;4;4];
 Te (-49358418100992000) 14 4 [3;10];
 Te (-40578443313408000) 14 4 [4;9];
 Te (-35933132499264000) 14 4 [5;8];
 Te (-33899278533120000) 14 4 [6;7];
 Te 47885438903702400000 14 4 [15];
 Te (-591891300) 14 5 [1;1;1;1;4];
 Te (-1783782000) 14 5 [1;1;1;2;3];
 Te 633404772000 14 5 [1;1;1;7];
 Te (-745945200) 14 5 [1;1;2;2;2];
 Te 1313577064800 14 5 [1;1;2;6];
 Te 1120625906400 14 5 [1;1;3;5];
 Te 536496760800 14 5 [1;1;4;4];
 Te (-635290391736000) 14 5 [1;1;10];
 Te 937957980960 14 5 [1;2;2;5];
 Te 1650679430400 14 5 [1;2;3;4];
 Te (-810544832697600) 14 5 [1;2;9];
 Te 252842990400 14 5 [1;3;3;3];
 Te (-629951888966400) 14 5 [1;3;8];
 Te (-544638590496000) 14 5 [1;4;7];
 Te (-508060291939200) 14 5 [1;5;6];
 Te 525984825798432000 14 5 [1;13];
 Te 231411660480 14 5 [2;2;2;4];
 Te 319666707360 14 5 [2;2;3;3];
 Te (-263632990420800) 14 5 [2;2;8];
 Te (-417915603705600) 14 5 [2;3;7];
 Te (-370145532556800) 14 5 [2;4;6];
 Te (-178063994908800) 14 5 [2;5;5];
 Te 318898523911968000 14 5 [2;12];
 Te (-169693711387200) 14 5 [3;3;6];
 Te (-310027798080000) 14 5 [3;4;5];
 Te 234675101973312000 14 5 [3;11];
 Te (-49057896888000) 14 5 [4;4;4];
 Te 191318411059776000 14 5 [4;10];
 Te 167219116672608000 14 5 [5;9];
 Te 154817693398368000 14 5 [6;8];
 Te 75493022020416000 14 5 [7;7];
 Te (-410810400) 15 0 [1;1;1;3];
 Te (-536215680) 15 0 [1;1;2;2];
 Te 165534969600 15 0 [1;1;6];
 Te 232734902400 15 0 [1;2;5];
 Te 199783584000 15 0 [1;3;4];
 Te (-73969223328000) 15 0 [1;9];
 Te 85880995200 15 0 [2;2;4];
 Te 78301080000 15 0 [2;3;3];
 Te (-47052925920000) 15 0 [2;8];
 Te (-35888396544000) 15 0 [3;7];
 Te (-31020941952000) 15 0 [4;6];
 Te (-14770776384000) 15 0 [5;5];
 Te 22667663386368000 15 0 [12];
 Te (-2702700) 15 1 [1;1;1;1;1];
 Te 5751345600 15 1 [1;1;1;4];
 Te 13729716000 15 1 [1;1;2;3];
 Te (-3079521244800) 15 1 [1;1;7];
 Te 3891888000 15 1 [1;2;2;2];
 Te (-4186893110400) 15 1 [1;2;6];
 Te (-3479347872000) 15 1 [1;3;5];
 Te (-1642160520000) 15 1 [1;4;4];
 Te 1634203771200000 15 1 [1;10];
 Te (-1471133664000) 15 1 [2;2;5];
 Te (-2554375824000) 15 1 [2;3;4];
 Te 1021807410624000 15 1 [2;9];
 Te (-391505400000) 15 1 [3;3;3];
 Te 773590577760000 15 1 [3;8];
 Te 654491021184000 15 1 [4;7];
 Te 604145558016000 15 1 [5;6];
 Te (-566691584659200000) 15 1 [13];
 Te 67567500 15 2 [1;1;1;1;2];
 Te (-44778333600) 15 2 [1;1;1;5];
 Te (-100497196800) 15 2 [1;1;2;4];
 Te (-46815397200) 15 2 [1;1;3;3];
 Te 30368531793600 15 2 [1;1;8];
 Te (-78499380960) 15 2 [1;2;2;3];
 Te 40219289510400 15 2 [1;2;7];
 Te 32638929523200 15 2 [1;3;6];
 Te 29680835184000 15 2 [1;4;5];
 Te (-18858711519648000) 15 2 [1;11];
 Te (-5500535040) 15 2 [2;2;2;2];
 Te 13668310656000 15 2 [2;2;6];
 Te 22913360870400 15 2 [2;3;5];
 Te 10852313472000 15 2 [2;4;4];
 Te (-11644131923424000) 15 2 [2;10];
 Te 10001318184000 15 2 [3;3;4];
 Te (-8749921628448000) 15 2 [3;9];
 Te (-7296981243552000) 15 2 [4;8];
 Te (-6584067794304000) 15 2 [5;7];
 Te (-3183206330304000) 15 2 [6;6];
 Te 7366990600569600000 15 2 [14];
 Te (-283783500) 15 3 [1;1;1;1;3];
 Te (-459459000) 15 3 [1;1;1;2;2];
 Te 252388936800 15 3 [1;1;1;6];
 Te 541339999200 15 3 [1;1;2;5];
 Te 481253572800 15 3 [1;1;3;4];
 Te (-210279357288000) 15 3 [1;1;9];
 Te 400561761600 15 3 [1;2;2;4];
 Te 371165652000 15 3 [1;2;3;3];
 Te (-273038516150400) 15 3 [1;2;8];
 Te (-217430182569600) 15 3 [1;3;7];
 Te (-192717212688000) 15 3 [1;4;6];
 Te (-92722285656000) 15 3 [1;5;5];
 Te 151229216986848000 15 3 [1;12];
 Te 103459356000 15 3 [2;2;2;3];
 Te (-90638958009600) 15 3 [2;2;7];
 Te (-147988262822400) 15 3 [2;3;6];
 Te (-135244405296000) 15 3 [2;4;5];
 Te 92561301600768000 15 3 [2;11];
 Te (-62276045832000) 15 3 [3;3;5];
 Te (-59141562480000) 15 3 [3;4;4];
 Te 69060877966080000 15 3 [3;10];
 Te 56998970028000000 15 3 [4;9];
 Te 50575014506016000 15 3 [5;8];
 Te 47727499083264000 15 3 [6;7];
 Te (-66302915405126400000) 15 3 [15];
 Te 1013512500 15 4 [1;1;1;1;4];
 Te 2972970000 15 4 [1;1;1;2;3];
 Te (-1141555615200) 15 4 [1;1;1;7];
 Te 1216215000 15 4 [1;1;2;2;2];
 Te (-2368754388000) 15 4 [1;1;2;6];
 Te (-2032170940800) 15 4 [1;1;3;5];
 Te (-973847674800) 15 4 [1;1;4;4];
 Te 1144895503752000 15 4 [1;1;10];
 Te (-1688495608800) 15 4 [1;2;2;5];
 Te (-2983607827200) 15 4 [1;2;3;4];
 Te 1465703701862400 15 4 [1;2;9];
 Te (-458343943200) 15 4 [1;3;3;3];
 Te 1148972515891200 15 4 [1;3;8];
 Te 999460189728000 15 4 [1;4;7];
 Te 936084685536000 15 4 [1;5;6];
 Te (-946269351675648000) 15 4 [1;13];
 Te (-415290395520) 15 4 [2;2;2;4];
 Te (-575005139280) 15 4 [2;2;3;3];
 Te 478560170088000 15 4 [2;2;8];
 Te 765455753462400 15 4 [2;3;7];
 Te 681847620854400 15 4 [2;4;6];
 Te 328688752392000 15 4 [2;5;5];
 Te (-575958777121728000) 15 4 [2;12];
 Te 313435275753600 15 4 [3;3;6];
 Te 574777371168000 15 4 [3;4;5];
 Te (-426919393188288000) 15 4 [3;11];
 Te 91103044032000 15 4 [4;4;4];
 Te (-349556287848768000) 15 4 [4;10];
 Te (-306292893274368000) 15 4 [5;9];
 Te (-283836933027648000) 15 4 [6;8];
 Te (-138417985689984000) 15 4 [7;7];
 Te 540540 16 0 [1;1;1;1;1];
 Te (-1362160800) 16 0 [1;1;1;4];
 Te (-3264861600) 16 0 [1;1;2;3];
 Te 756894378240 16 0 [1;1;7];
 Te (-934053120) 16 0 [1;2;2;2];
 Te 1042870308480 16 0 [1;2;6];
 Te 871004534400 16 0 [1;3;5];
 Te 413188776000 16 0 [1;4;4];
 Te (-411819350342400) 16 0 [1;10];
 Te 372687194880 16 0 [2;2;5];
 Te 648648000000 16 0 [2;3;4];
 Te (-261128560492800) 16 0 [2;9];
 Te 99150480000 16 0 [3;3;3];
 Te (-198128234304000) 16 0 [3;8];
 Te (-168297691161600) 16 0 [4;7];
 Te (-155351714918400) 16 0 [5;6];
 Te 145720693198080000 16 0 [13];
 Te (-29729700) 16 1 [1;1;1;1;2];
 Te 22508085600 16 1 [1;1;1;5];
 Te 50767516800 16 1 [1;1;2;4];
 Te 23598432000 16 1 [1;1;3;3];
 Te (-15694427548800) 16 1 [1;1;8];
 Te 39826987200 16 1 [1;2;2;3];
 Te (-21014949795840) 16 1 [1;2;7];
 Te (-17141431507200) 16 1 [1;3;6];
 Te (-15670297843200) 16 1 [1;4;5];
 Te 9929422113811200 16 1 [1;11];
 Te 2802159360 16 1 [2;2;2;2];
 Te (-7228170069120) 16 1 [2;2;6];
 Te (-12177717552000) 16 1 [2;3;5];
 Te (-5780102328000) 16 1 [2;4;4];
 Te 6196900700390400 16 1 [2;10];
 Te (-5325400080000) 16 1 [3;3;4];
 Te 4673822785632000 16 1 [3;9];
 Te 3911363007552000 16 1 [4;8];
 Te 3534251514393600 16 1 [5;7];
 Te 1708868864102400 16 1 [6;6];
 Te (-3934458716348160000) 16 1 [14];
 Te 205405200 16 2 [1;1;1;1;3];
 Te 329729400 16 2 [1;1;1;2;2];
 Te (-201859257600) 16 2 [1;1;1;6];
 Te (-434810376000) 16 2 [1;1;2;5];
 Te (-386032046400) 16 2 [1;1;3;4];
 Te 171247353076800 16 2 [1;1;9];
 Te (-322140218400) 16 2 [1;2;2;4];
 Te (-298544875200) 16 2 [1;2;3;3];
 Te 224129782356480 16 2 [1;2;8];
 Te 179435340564480 16 2 [1;3;7];
 Te 159814153699200 16 2 [1;4;6];
 Te 77079231028800 16 2 [1;5;5];
 Te (-124598232331372800) 16 2 [1;12];
 Te (-83247484320) 16 2 [2;2;2;3];
 Te 74997615813120 16 2 [2;2;7];
 Te 123174207636480 16 2 [2;3;6];
 Te 112946741107200 16 2 [2;4;5];
 Te (-76840261321824000) 16 2 [2;11];
 Te 52061007398400 16 2 [3;3;5];
 Te 49486653216000 16 2 [3;4;4];
 Te (-57591749197382400) 16 2 [3;10];
 Te (-47689911228960000) 16 2 [4;9];
 Te (-42404784924902400) 16 2 [5;8];
 Te (-40041904520217600) 16 2 [6;7];
 Te 55082422028874240000 16 2 [15];
 Te (-1070269200) 16 3 [1;1;1;1;4];
 Te (-3091888800) 16 3 [1;1;1;2;3];
 Te 1290744655200 16 3 [1;1;1;7];
 Te (-1248647400) 16 3 [1;1;2;2;2];
 Te 2683391911200 16 3 [1;1;2;6];
 Te 2302657156800 16 3 [1;1;3;5];
 Te 1102052952000 16 3 [1;1;4;4];
 Te (-1304696684491200) 16 3 [1;1;10];
 Te 1910073765600 16 3 [1;2;2;5];
 Te 3375477705600 16 3 [1;2;3;4];
 Te (-1677856743763200) 16 3 [1;2;9];
 Te 519242724000 16 3 [1;3;3;3];
 Te (-1322450309980800) 16 3 [1;3;8];
 Te (-1155454066166400) 16 3 [1;4;7];
 Te (-1085871000614400) 16 3 [1;5;6];
 Te 1082947618283731200 16 3 [1;13];
 Te 468453585600 16 3 [2;2;2;4];
 Te 649000123200 16 3 [2;2;3;3];
 Te (-550239951381120) 16 3 [2;2;8];
 Te (-885407166483840) 16 3 [2;3;7];
 Te (-791834970326400) 16 3 [2;4;6];
 Te (-382339466308800) 16 3 [2;5;5];
 Te 662159757644985600 16 3 [2;12];
 Te (-364539138163200) 16 3 [3;3;6];
 Te (-669961535443200) 16 3 [3;4;5];
 Te 493228845408499200 16 3 [3;11];
 Te (-106248542400000) 16 3 [4;4;4];
 Te 405177602173344000 16 3 [4;10];
 Te 355895075888352000 16 3 [5;9];
 Te 330181370315596800 16 3 [6;8];
 Te 161060890441651200 16 3 [7;7];
 Te 5405400 17 0 [1;1;1;1;2];
 Te (-4670265600) 17 0 [1;1;1;5];
 Te (-10551340800) 17 0 [1;1;2;4];
 Te (-4880304000) 17 0 [1;1;3;3];
 Te 3354980428800 17 0 [1;1;8];
 Te (-8302694400) 17 0 [1;2;2;3];
 Te 4536868976640 17 0 [1;2;7];
 Te 3711304396800 17 0 [1;3;6];
 Te 3408208876800 17 0 [1;4;5];
 Te (-2168211280435200) 17 0 [1;11];
 Te (-588107520) 17 0 [2;2;2;2];
 Te 1579898960640 17 0 [2;2;6];
 Te 2666532960000 17 0 [2;3;5];
 Te 1268836732800 17 0 [2;4;4];
 Te (-1368038069798400) 17 0 [2;10];
 Te 1165797360000 17 0 [3;3;4];
 Te (-1033363723392000) 17 0 [3;9];
 Te (-867896213184000) 17 0 [4;8];
 Te (-785127690547200) 17 0 [5;7];
 Te (-379859285836800) 17 0 [6;6];
 Te 874324159188480000 17 0 [14];
 Te (-81081000) 17 1 [1;1;1;1;3];
 Te (-129729600) 17 1 [1;1;1;2;2];
 Te 88475587200 17 1 [1;1;1;6];
 Te 191091700800 17 1 [1;1;2;5];
 Te 168907939200 17 1 [1;1;3;4];
 Te (-76702453027200) 17 1 [1;1;9];
 Te 141716615040 17 1 [1;2;2;4];
 Te 131073228000 17 1 [1;2;3;3];
 Te (-101185715030400) 17 1 [1;2;8];
 Te (-81252589017600) 17 1 [1;3;7];
 Te (-72655840857600) 17 1 [1;4;6];
 Te (-35105112806400) 17 1 [1;5;5];
 Te 56669158465920000 17 1 [1;12];
 Te 36670233600 17 1 [2;2;2;3];
 Te (-34149293418240) 17 1 [2;2;7];
 Te (-56264765356800) 17 1 [2;3;6];
 Te (-51729418540800) 17 1 [2;4;5];
 Te 35233433307072000 17 1 [2;11];
 Te (-23824841040000) 17 1 [3;3;5];
 Te (-22665346704000) 17 1 [3;4;4];
 Te 26474101093440000 17 1 [3;10];
 Te 21987781687872000 17 1 [4;9];
 Te 19587981276864000 17 1 [5;8];
 Te 18512746027776000 17 1 [6;7];
 Te (-25355400616465920000) 17 1 [15];
 Te 686485800 17 2 [1;1;1;1;4];
 Te 1967565600 17 2 [1;1;1;2;3];
 Te (-895696401600) 17 2 [1;1;1;7];
 Te 789188400 17 2 [1;1;2;2;2];
 Te (-1866160296000) 17 2 [1;1;2;6];
 Te (-1596668673600) 17 2 [1;1;3;5];
 Te (-762565003200) 17 2 [1;1;4;4];
 Te 917505071683200 17 2 [1;1;10];
 Te (-1327341375360) 17 2 [1;2;2;5];
 Te (-2340278740800) 17 2 [1;2;3;4];
 Te 1186350986620800 17 2 [1;2;9];
 Te (-359953308000) 17 2 [1;3;3;3];
 Te 938086932182400 17 2 [1;3;8];
 Te 822395891116800 17 2 [1;4;7];
 Te 774863437420800 17 2 [1;5;6];
 Te (-768433788797875200) 17 2 [1;13];
 Te (-324894810240) 17 2 [2;2;2;4];
 Te (-449800322400) 17 2 [2;2;3;3];
 Te 391127531034240 17 2 [2;2;8];
 Te 631714447203840 17 2 [2;3;7];
 Te 566510010393600 17 2 [2;4;6];
 Te 273891570825600 17 2 [2;5;5];
 Te (-472423671489369600) 17 2 [2;12];
 Te 260885494396800 17 2 [3;3;6];
 Te 480146326732800 17 2 [3;4;5];
 Te (-352992372455923200) 17 2 [3;11];
 Te 76156621632000 17 2 [4;4;4];
 Te (-290746066875264000) 17 2 [4;10];
 Te (-255937627737792000) 17 2 [5;9];
 Te (-237735788555865600) 17 2 [6;8];
 Te (-116014646882534400) 17 2 [7;7];
 Te 13513500 18 0 [1;1;1;1;3];
 Te 21621600 18 0 [1;1;1;2;2];
 Te (-16410794400) 18 0 [1;1;1;6];
 Te (-35481045600) 18 0 [1;1;2;5];
 Te (-31178347200) 18 0 [1;1;3;4];
 Te 14574039480000 18 0 [1;1;9];
 Te (-26343757440) 18 0 [1;2;2;4];
 Te (-24277968000) 18 0 [1;2;3;3];
 Te 19374337382400 18 0 [1;2;8];
 Te 15580870905600 18 0 [1;3;7];
 Te 13979402236800 18 0 [1;4;6];
 Te 6761270880000 18 0 [1;5;5];
 Te (-10963747392998400) 18 0 [1;12];
 Te (-6832425600) 18 0 [2;2;2;3];
 Te 6600564210240 18 0 [2;2;7];
 Te 10885351276800 18 0 [2;3;6];
 Te 10030952131200 18 0 [2;4;5];
 Te (-6876729469209600) 18 0 [2;11];
 Te 4608644040000 18 0 [3;3;5];
 Te 4389689304000 18 0 [3;4;4];
 Te (-5171865839712000) 18 0 [3;10];
 Te (-4307990502816000) 18 0 [4;9];
 Te (-3843465129504000) 18 0 [5;8];
 Te (-3636432255456000) 18 0 [6;7];
 Te 4980525121091520000 18 0 [15];
 Te (-245945700) 18 1 [1;1;1;1;4];
 Te (-702702000) 18 1 [1;1;1;2;3];
 Te 349383434400 18 1 [1;1;1;7];
 Te (-281080800) 18 1 [1;1;2;2;2];
 Te 729210081600 18 1 [1;1;2;6];
 Te 620950730400 18 1 [1;1;3;5];
 Te 295942046400 18 1 [1;1;4;4];
 Te (-364064284584000) 18 1 [1;1;10];
 Te 518632994880 18 1 [1;2;2;5];
 Te 911047737600 18 1 [1;2;3;4];
 Te (-473575050748800) 18 1 [1;2;9];
 Te 139922640000 18 1 [1;3;3;3];
 Te (-375107949216000) 18 1 [1;3;8];
 Te (-329756124297600) 18 1 [1;4;7];
 Te (-311242845513600) 18 1 [1;5;6];
 Te 308789087967360000 18 1 [1;13];
 Te 126858251520 18 1 [2;2;2;4];
 Te 175320288000 18 1 [2;2;3;3];
 Te (-157131475300800) 18 1 [2;2;8];
 Te (-254257821417600) 18 1 [2;3;7];
 Te (-228476139091200) 18 1 [2;4;6];
 Te (-110562381820800) 18 1 [2;5;5];
 Te 191056019970816000 18 1 [2;12];
 Te (-105121840824000) 18 1 [3;3;6];
 Te (-193690184688000) 18 1 [3;4;5];
 Te 142992829980000000 18 1 [3;11];
 Te (-30727825128000) 18 1 [4;4;4];
 Te 118054880431488000 18 1 [4;10];
 Te 104110821726912000 18 1 [5;9];
 Te 96824600256384000 18 1 [6;8];
 Te 47273619320928000 18 1 [7;7];
 Te 37837800 19 0 [1;1;1;1;4];
 Te 108108000 19 0 [1;1;1;2;3];
 Te (-58745887200) 19 0 [1;1;1;7];
 Te 43243200 19 0 [1;1;2;2;2];
 Te (-122724201600) 19 0 [1;1;2;6];
 Te (-103913409600) 19 0 [1;1;3;5];
 Te (-49441392000) 19 0 [1;1;4;4];
 Te 62434964592000 19 0 [1;1;10];
 Te (-87333966720) 19 0 [1;2;2;5];
 Te (-152734982400) 19 0 [1;2;3;4];
 Te 81723420979200 19 0 [1;2;9];
 Te (-23397660000) 19 0 [1;3;3;3];
 Te 64772691984000 19 0 [1;3;8];
 Te 57078169948800 19 0 [1;4;7];
 Te 53929712390400 19 0 [1;5;6];
 Te (-53777874870720000) 19 0 [1;13];
 Te (-21379438080) 19 0 [2;2;2;4];
 Te (-29467152000) 19 0 [2;2;3;3];
 Te 27318718627200 19 0 [2;2;8];
 Te 44218853078400 19 0 [2;3;7];
 Te 39803356454400 19 0 [2;4;6];
 Te 19270822233600 19 0 [2;5;5];
 Te (-33515759435558400) 19 0 [2;12];
 Te 18275493456000 19 0 [3;3;6];
 Te 33710336352000 19 0 [3;4;5];
 Te (-25096341606336000) 19 0 [3;11];
 Te 5351079888000 19 0 [4;4;4];
 Te (-20766958692480000) 19 0 [4;10];
 Te (-18340133011200000) 19 0 [5;9];
 Te (-17077386598272000) 19 0 [6;8];
 Te (-8341755204182400) 19 0 [7;7]].
Definition wit1_7 : list term := [Te 1801800 13 0 [1;1;1;1];
 Te (-1081080000) 13 0 [1;1;4];
 Te (-1593820800) 13 0 [1;2;3];
 Te 296821324800 13 0 [1;7];
 Te (-226100160) 13 0 [2;2;2];
 Te 188367379200 13 0 [2;6];
 Te 147891744000 13 0 [3;5];
 Te 69621552000 13 0 [4;4];
 Te (-65368150848000) 13 0 [10];
 Te (-69189120) 13 1 [1;1;1;2];
 Te 16735118400 13 1 [1;1;5];
 Te 22572950400 13 1 [1;2;4];
 Te 10100376000 13 1 [1;3;3];
 Te (-5565399840000) 13 1 [1;8];
 Te 8172964800 13 1 [2;2;3];
 Te (-3339239904000) 13 1 [2;7];
 Te (-2568646080000) 13 1 [3;6];
 Te (-2288430144000) 13 1 [4;5];
 Te 1372731167808000 13 1 [11];
 Te 410810400 13 2 [1;1;1;3];
 Te 488648160 13 2 [1;1;2;2];
 Te (-138551212800) 13 2 [1;1;6];
 Te (-175394419200) 13 2 [1;2;5];
 Te (-147150432000) 13 2 [1;3;4];
 Te 54540918432000 13 2 [1;9];
 Te (-58304188800) 13 2 [2;2;4];
 Te (-52559020800) 13 2 [2;3;3];
 Te 31611471091200 13 2 [2;8];
 Te 23785662700800 13 2 [3;7];
 Te 20479114656000 13 2 [4;6];
 Te 9780314544000 13 2 [5;5];
 Te (-15100042845888000) 13 2 [12];
 Te 1801800 13 3 [1;1;1;1;1];
 Te (-1845043200) 13 3 [1;1;1;4];
 Te (-3904860960) 13 3 [1;1;2;3];
 Te 807696489600 13 3 [1;1;7];
 Te (-1024863840) 13 3 [1;2;2;2];
 Te 981534153600 13 3 [1;2;6];
 Te 785901916800 13 3 [1;3;5];
 Te 367350984000 13 3 [1;4;4];
 Te (-372139735968000) 13 3 [1;10];
 Te 310572662400 13 3 [2;2;5];
 Te 522031910400 13 3 [2;3;4];
 Te (-211485193920000) 13 3 [2;9];
 Te 78208416000 13 3 [3;3;3];
 Te (-155831195520000) 13 3 [3;8];
 Te (-131000950080000) 13 3 [4;7];
 Te (-120959879040000) 13 3 [5;6];
 Te 115766995151808000 13 3 [13];
 Te (-18918900) 13 4 [1;1;1;1;2];
 Te 6767560800 13 4 [1;1;1;5];
 Te 13388094720 13 4 [1;1;2;4];
 Te 5978372400 13 4 [1;1;3;3];
 Te (-3707412508800) 13 4 [1;1;8];
 Te 9496206720 13 4 [1;2;2;3];
 Te (-4401725328000) 13 4 [1;2;7];
 Te (-3397099305600) 13 4 [1;3;6];
 Te (-3037488854400) 13 4 [1;4;5];
 Te 1986847742880000 13 4 [1;11];
 Te 632431800 13 4 [2;2;2;2];
 Te (-1352820268800) 13 4 [2;2;6];
 Te (-2164705171200) 13 4 [2;3;5];
 Te (-1014411340800) 13 4 [2;4;4];
 Te 1118645367840000 13 4 [2;10];
 Te (-907736544000) 13 4 [3;3;4];
 Te 809209136736000 13 4 [3;9];
 Te 667762359264000 13 4 [4;8];
 Te 601296696000000 13 4 [5;7];
 Te 290821330800000 13 4 [6;6];
 Te (-694601970910848000) 13 4 [14];
 Te 40540500 13 5 [1;1;1;1;3];
 Te 64864800 13 5 [1;1;1;2;2];
 Te (-21189168000) 13 5 [1;1;1;6];
 Te (-40436716320) 13 5 [1;1;2;5];
 Te (-33599966400) 13 5 [1;1;3;4];
 Te 14247423590400 13 5 [1;1;9];
 Te (-27169702560) 13 5 [1;2;2;4];
 Te (-24142678560) 13 5 [1;2;3;3];
 Te 16739010288000 13 5 [1;2;8];
 Te 12547446912000 13 5 [1;3;7];
 Te 10859924275200 13 5 [1;4;6];
 Te 5189702918400 13 5 [1;5;5];
 Te (-8844310809734400) 13 5 [1;12];
 Te (-6538371840) 13 5 [2;2;2;3];
 Te 5062412234880 13 5 [2;2;7];
 Te 7814132726400 13 5 [2;3;6];
 Te 7000468675200 13 5 [2;4;5];
 Te (-4969011593145600) 13 5 [2;11];
 Te 3122183750400 13 5 [3;3;5];
 Te 2926699776000 13 5 [3;4;4];
 Te (-3539594298240000) 13 5 [3;10];
 Te (-2876198637312000) 13 5 [4;9];
 Te (-2540819080800000) 13 5 [5;8];
 Te (-2396803657248000) 13 5 [6;7];
 Te 3473009854554240000 13 5 [15];
 Te 45045 13 6 [1;1;1;1;1;1];
 Te (-81981900) 13 6 [1;1;1;1;4];
 Te (-237837600) 13 6 [1;1;1;2;3];
 Te 58411473120 13 6 [1;1;1;7];
 Te (-99099000) 13 6 [1;1;2;2;2];
 Te 109807457760 13 6 [1;1;2;6];
 Te 86745859200 13 6 [1;1;3;5];
 Te 40551310800 13 6 [1;1;4;4];
 Te (-47658373963200) 13 6 [1;1;10];
 Te 71688576960 13 6 [1;2;2;5];
 Te 118884205440 13 6 [1;2;3;4];
 Te (-55902300854400) 13 6 [1;2;9];
 Te 17578360800 13 6 [1;3;3;3];
 Te (-40970683353600) 13 6 [1;3;8];
 Te (-34562387059200) 13 6 [1;4;7];
 Te (-31986130176000) 13 6 [1;5;6];
 Te 34154858818080000 13 6 [1;13];
 Te 16393497120 13 6 [2;2;2;4];
 Te 21872410560 13 6 [2;2;3;3];
 Te (-16787269699200) 13 6 [2;2;8];
 Te (-25222807209600) 13 6 [2;3;7];
 Te (-21853470038400) 13 6 [2;4;6];
 Te (-10456076030400) 13 6 [2;5;5];
 Te 19244039566752000 13 6 [2;12];
 Te (-9736132348800) 13 6 [3;3;6];
 Te (-17448408806400) 13 6 [3;4;5];
 Te 13540617810720000 13 6 [3;11];
 Te (-2723086080000) 13 6 [4;4;4];
 Te 10858095087840000 13 6 [4;10];
 Te 9447565903776000 13 6 [5;9];
 Te 8740246394880000 13 6 [6;8];
 Te 4262083089264000 13 6 [7;7];
 Te 69189120 14 0 [1;1;1;2];
 Te (-16735118400) 14 0 [1;1;5];
 Te (-22572950400) 14 0 [1;2;4];
 Te (-10100376000) 14 0 [1;3;3];
 Te 5565399840000 14 0 [1;8];
 Te (-8172964800) 14 0 [2;2;3];
 Te 3339239904000 14 0 [2;7];
 Te 2568646080000 14 0 [3;6];
 Te 2288430144000 14 0 [4;5];
 Te (-1372731167808000) 14 0 [11];
 Te (-843242400) 14 1 [1;1;1;3];
 Te (-1024863840) 14 1 [1;1;2;2];
 Te 286832145600 14 1 [1;1;6];
 Te 368950982400 14 1 [1;2;5];
 Te 308756448000 14 1 [1;3;4];
 Te (-113534156736000) 14 1 [1;9];
 Te 124929604800 14 1 [2;2;4];
 Te 112030776000 14 1 [2;3;3];
 Te (-66784798080000) 14 1 [2;8];
 Te (-50088598560000) 14 1 [3;7];
 Te (-43153254144000) 14 1 [4;6];
 Te (-20595871296000) 14 1 [5;5];
 Te 31572816859584000 14 1 [12];
 Te (-5405400) 14 2 [1;1;1;1;1];
 Te 5881075200 14 2 [1;1;1;4];
 Te 12834581760 14 2 [1;1;2;3];
 Te (-2607175771200) 14 2 [1;1;7];
 Te 3476753280 14 2 [1;2;2;2];
 Te (-3250504857600) 14 2 [1;2;6];
 Te (-2599521724800) 14 2 [1;3;5];
 Te (-1214917704000) 14 2 [1;4;4];
 Te 1211031005184000 14 2 [1;10];
 Te (-1054312459200) 14 2 [2;2;5];
 Te (-1770030662400) 14 2 [2;3;4];
 Te 703466539776000 14 2 [2;9];
 Te (-264926376000) 14 2 [3;3;3];
 Te 517582185120000 14 2 [3;8];
 Te 434871781344000 14 2 [4;7];
 Te 401456030976000 14 2 [5;6];
 Te (-378873802315008000) 14 2 [13];
 Te 81081000 14 3 [1;1;1;1;2];
 Te (-29967537600) 14 3 [1;1;1;5];
 Te (-61470208800) 14 3 [1;1;2;4];
 Te (-27610783200) 14 3 [1;1;3;3];
 Te 16640545521600 14 3 [1;1;8];
 Te (-45119954880) 14 3 [1;2;2;3];
 Te 20343676953600 14 3 [1;2;7];
 Te 15752027491200 14 3 [1;3;6];
 Te 14070472416000 14 3 [1;4;5];
 Te (-8988120741600000) 14 3 [1;11];
 Te (-3074591520) 14 3 [2;2;2;2];
 Te 6418112500800 14 3 [2;2;6];
 Te 10308832934400 14 3 [2;3;5];
 Te 4823995176000 14 3 [2;4;4];
 Te (-5184726490944000) 14 3 [2;10];
 Te 4337323848000 14 3 [3;3;4];
 Te (-3758871051936000) 14 3 [3;9];
 Te (-3097701550944000) 14 3 [4;8];
 Te (-2788779049056000) 14 3 [5;7];
 Te (-1348539192000000) 14 3 [6;6];
 Te 3157281685958400000 14 3 [14];
 Te (-229729500) 14 4 [1;1;1;1;3];
 Te (-378378000) 14 4 [1;1;1;2;2];
 Te 122897174400 14 4 [1;1;1;6];
 Te 243156513600 14 4 [1;1;2;5];
 Te 204626822400 14 4 [1;1;3;4];
 Te (-83536651598400) 14 4 [1;1;9];
 Te 168531723360 14 4 [1;2;2;4];
 Te 151731740160 14 4 [1;2;3;3];
 Te (-100999163865600) 14 4 [1;2;8];
 Te (-76369739846400) 14 4 [1;3;7];
 Te (-66035220451200) 14 4 [1;4;6];
 Te (-31550238720000) 14 4 [1;5;5];
 Te 52131100301280000 14 4 [1;12];
 Te 41682120480 14 4 [2;2;2;3];
 Te (-31319968680000) 14 4 [2;2;7];
 Te (-48750567465600) 14 4 [2;3;6];
 Te (-43638961766400) 14 4 [2;4;5];
 Te 29991939737760000 14 4 [2;11];
 Te (-19641302366400) 14 4 [3;3;5];
 Te (-18400197816000) 14 4 [3;4;4];
 Te 21496913421984000 14 4 [3;10];
 Te 17447528498400000 14 4 [4;9];
 Te 15404684270976000 14 4 [5;8];
 Te 14528262228480000 14 4 [6;7];
 Te (-20522330958729600000) 14 4 [15];
 Te (-270270) 14 5 [1;1;1;1;1;1];
 Te 591891300 14 5 [1;1;1;1;4];
 Te 1783782000 14 5 [1;1;1;2;3];
 Te (-427809301920) 14 5 [1;1;1;7];
 Te 745945200 14 5 [1;1;2;2;2];
 Te (-829828359360) 14 5 [1;1;2;6];
 Te (-668777709600) 14 5 [1;1;3;5];
 Te (-313232119200) 14 5 [1;1;4;4];
 Te 350787151915200 14 5 [1;1;10];
 Te (-556358362560) 14 5 [1;2;2;5];
 Te (-940107168000) 14 5 [1;2;3;4];
 Te 422079923865600 14 5 [1;2;9];
 Te (-141340399200) 14 5 [1;3;3;3];
 Te 313563189139200 14 5 [1;3;8];
 Te 264628146182400 14 5 [1;4;7];
 Te 244749160656000 14 5 [1;5;6];
 Te (-251667380764800000) 14 5 [1;13];
 Te (-130352302080) 14 5 [2;2;2;4];
 Te (-176419283040) 14 5 [2;2;3;3];
 Te 129626724427200 14 5 [2;2;8];
 Te 197164602835200 14 5 [2;3;7];
 Te 170950402022400 14 5 [2;4;6];
 Te 81744437174400 14 5 [2;5;5];
 Te (-144888506354592000) 14 5 [2;12];
 Te 77042647281600 14 5 [3;3;6];
 Te 138159429408000 14 5 [3;4;5];
 Te (-102937635440640000) 14 5 [3;11];
 Te 21588951384000 14 5 [4;4;4];
 Te (-82531540387296000) 14 5 [4;10];
 Te (-71749134737280000) 14 5 [5;9];
 Te (-66357118507680000) 14 5 [6;8];
 Te (-32354152294464000) 14 5 [7;7];
 Te 432432000 15 0 [1;1;1;3];
 Te 538377840 15 0 [1;1;2;2];
 Te (-149837688000) 15 0 [1;1;6];
 Te (-196151155200) 15 0 [1;2;5];
 Te (-163459296000) 15 0 [1;3;4];
 Te 60207507360000 15 0 [1;9];
 Te (-68108040000) 15 0 [2;2;4];
 Te (-60324264000) 15 0 [2;3;3];
 Te 36124504416000 15 0 [2;8];
 Te 26916297408000 15 0 [3;7];
 Te 23265706464000 15 0 [4;6];
 Te 11078082288000 15 0 [5;5];
 Te (-17000747539776000) 15 0 [12];
 Te 5405400 15 1 [1;1;1;1;1];
 Te (-6270264000) 15 1 [1;1;1;4];
 Te (-14057128800) 15 1 [1;1;2;3];
 Te 2838353918400 15 1 [1;1;7];
 Te (-3908567520) 15 1 [1;2;2;2];
 Te 3621790972800 15 1 [1;2;6];
 Te 2895564672000 15 1 [1;3;5];
 Te 1353079728000 15 1 [1;4;4];
 Te (-1340047092384000) 15 1 [1;10];
 Te 1201425825600 15 1 [2;2;5];
 Te 2015997984000 15 1 [2;3;4];
 Te (-794739097152000) 15 1 [2;9];
 Te 301621320000 15 1 [3;3;3];
 Te (-584366983200000) 15 1 [3;8];
 Te (-490868265888000) 15 1 [4;7];
 Te (-453109168512000) 15 1 [5;6];
 Te 425018688494400000 15 1 [13];
 Te (-129729600) 15 2 [1;1;1;1;2];
 Te 50054004000 15 2 [1;1;1;5];
 Te 105729624000 15 2 [1;1;2;4];
 Te 47814624000 15 2 [1;1;3;3];
 Te (-28383539184000) 15 2 [1;1;8];
 Te 79739225280 15 2 [1;2;2;3];
 Te (-35541499593600) 15 2 [1;2;7];
 Te (-27647972352000) 15 2 [1;3;6];
 Te (-24682353696000) 15 2 [1;4;5];
 Te 15557619901824000 15 2 [1;11];
 Te 5523701040 15 2 [2;2;2;2];
 Te (-11451491251200) 15 2 [2;2;6];
 Te (-18484132867200) 15 2 [2;3;5];
 Te (-8640640008000) 15 2 [2;4;4];
 Te 9154981547712000 15 2 [2;10];
 Te (-7811019216000) 15 2 [3;3;4];
 Te 6661783608480000 15 2 [3;9];
 Te 5485258082304000 15 2 [4;8];
 Te 4938050845728000 15 2 [5;7];
 Te 2387404747728000 15 2 [6;6];
 Te (-5525242950427200000) 15 2 [14];
 Te 518918400 15 3 [1;1;1;1;3];
 Te 871350480 15 3 [1;1;1;2;2];
 Te (-287156469600) 15 3 [1;1;1;6];
 Te (-584107524000) 15 3 [1;1;2;5];
 Te (-497559348000) 15 3 [1;1;3;4];
 Te 198684774288000 15 3 [1;1;9];
 Te (-414782596800) 15 3 [1;2;2;4];
 Te (-377364873600) 15 3 [1;2;3;3];
 Te 245545440940800 15 3 [1;2;8];
 Te 187322796460800 15 3 [1;3;7];
 Te 162019297440000 15 3 [1;4;6];
 Te 77397976656000 15 3 [1;5;5];
 Te (-125376113326464000) 15 3 [1;12];
 Te (-104708466720) 15 3 [2;2;2;3];
 Te 77624484537600 15 3 [2;2;7];
 Te 121826213308800 15 3 [2;3;6];
 Te 109081836864000 15 3 [2;4;5];
 Te (-73441117477728000) 15 3 [2;11];
 Te 49481464032000 15 3 [3;3;5];
 Te 46372494168000 15 3 [3;4;4];
 Te (-52998088407264000) 15 3 [3;10];
 Te (-43009409963520000) 15 3 [4;9];
 Te (-37960479228672000) 15 3 [5;8];
 Te (-35795624312448000) 15 3 [6;7];
 Te 49727186553844800000 15 3 [15];
 Te 675675 15 4 [1;1;1;1;1;1];
 Te (-1775673900) 15 4 [1;1;1;1;4];
 Te (-5481075600) 15 4 [1;1;1;2;3];
 Te 1315198684800 15 4 [1;1;1;7];
 Te (-2300538240) 15 4 [1;1;2;2;2];
 Te 2610159552000 15 4 [1;1;2;6];
 Te 2138592456000 15 4 [1;1;3;5];
 Te 1005080076000 15 4 [1;1;4;4];
 Te (-1091096638632000) 15 4 [1;1;10];
 Te 1785987403200 15 4 [1;2;2;5];
 Te 3062878790400 15 4 [1;2;3;4];
 Te (-1337254273555200) 15 4 [1;2;9];
 Te 465682932000 15 4 [1;3;3;3];
 Te (-1005325264944000) 15 4 [1;3;8];
 Te (-850162695782400) 15 4 [1;4;7];
 Te (-786157484112000) 15 4 [1;5;6];
 Te 787718901793824000 15 4 [1;13];
 Te 426358183680 15 4 [2;2;2;4];
 Te 582852853440 15 4 [2;2;3;3];
 Te (-417614760763200) 15 4 [2;2;8];
 Te (-641991055305600) 15 4 [2;3;7];
 Te (-557747247657600) 15 4 [2;4;6];
 Te (-266656598208000) 15 4 [2;5;5];
 Te 460551306799584000 15 4 [2;12];
 Te (-253480611384000) 15 4 [3;3;6];
 Te (-455432625648000) 15 4 [3;4;5];
 Te 330141845857824000 15 4 [3;11];
 Te (-71313658416000) 15 4 [4;4;4];
 Te 265006429912224000 15 4 [4;10];
 Te 230287340739456000 15 4 [5;9];
 Te 212936136469056000 15 4 [6;8];
 Te 103813489267488000 15 4 [7;7];
 Te (-1801800) 16 0 [1;1;1;1;1];
 Te 2234232000 16 0 [1;1;1;4];
 Te 5127408000 16 0 [1;1;2;3];
 Te (-1038874636800) 16 0 [1;1;7];
 Te 1456678080 16 0 [1;2;2;2];
 Te (-1352820268800) 16 0 [1;2;6];
 Te (-1081944864000) 16 0 [1;3;5];
 Te (-505513008000) 16 0 [1;4;4];
 Te 501155823168000 16 0 [1;10];
 Te (-457686028800) 16 0 [2;2;5];
 Te (-767999232000) 16 0 [2;3;4];
 Te 302757751296000 16 0 [2;9];
 Te (-114903360000) 16 0 [3;3;3];
 Te 222615993600000 16 0 [3;8];
 Te 186997434624000 16 0 [4;7];
 Te 172613016576000 16 0 [5;6];
 Te (-161911881331200000) 16 0 [13];
 Te 91891800 16 1 [1;1;1;1;2];
 Te (-37297260000) 16 1 [1;1;1;5];
 Te (-80691811200) 16 1 [1;1;2;4];
 Te (-36710388000) 16 1 [1;1;3;3];
 Te 21705059376000 16 1 [1;1;8];
 Te (-62149744800) 16 1 [1;2;2;3];
 Te 27715691203200 16 1 [1;2;7];
 Te 21662248608000 16 1 [1;3;6];
 Te 19342683360000 16 1 [1;4;5];
 Te (-12125791982304000) 16 1 [1;11];
 Te (-4370034240) 16 1 [2;2;2;2];
 Te 9093007123200 16 1 [2;2;6];
 Te 14734687968000 16 1 [2;3;5];
 Te 6892533648000 16 1 [2;4;4];
 Te (-7255864744128000) 16 1 [2;10];
 Te 6252966720000 16 1 [3;3;4];
 Te (-5298260647680000) 16 1 [3;9];
 Te (-4363273474560000) 16 1 [4;8];
 Te (-3926946127104000) 16 1 [5;7];
 Te (-1898743182336000) 16 1 [6;6];
 Te 4371620795942400000 16 1 [14];
 Te (-583783200) 16 2 [1;1;1;1;3];
 Te (-992431440) 16 2 [1;1;1;2;2];
 Te 336713176800 16 2 [1;1;1;6];
 Te 699783084000 16 2 [1;1;2;5];
 Te 602316000000 16 2 [1;1;3;4];
 Te (-238199113152000) 16 2 [1;1;9];
 Te 506739261600 16 2 [1;2;2;4];
 Te 464246640000 16 2 [1;2;3;3];
 Te (-299529819388800) 16 2 [1;2;8];
 Te (-230244872457600) 16 2 [1;3;7];
 Te (-199443692448000) 16 2 [1;4;6];
 Te (-95269526352000) 16 2 [1;5;5];
 Te 152601948154656000 16 2 [1;12];
 Te 129972379680 16 2 [2;2;2;3];
 Te (-96212920003200) 16 2 [2;2;7];
 Te (-152015588524800) 16 2 [2;3;6];
 Te (-136306890720000) 16 2 [2;4;5];
 Te 90698309301600000 16 2 [2;11];
 Te (-62145667584000) 16 2 [3;3;5];
 Te (-58323833568000) 16 2 [3;4;4];
 Te 65829168332928000 16 2 [3;10];
 Te 53472361662720000 16 2 [4;9];
 Te 47185686003456000 16 2 [5;8];
 Te 44491005022464000 16 2 [6;7];
 Te (-61202691143193600000) 16 2 [15];
 Te (-900900) 16 3 [1;1;1;1;1;1];
 Te 2828826000 16 3 [1;1;1;1;4];
 Te 8854045200 16 3 [1;1;1;2;3];
 Te (-2161705946400) 16 3 [1;1;1;7];
 Te 3729726000 16 3 [1;1;2;2;2];
 Te (-4365336175200) 16 3 [1;1;2;6];
 Te (-3622590972000) 16 3 [1;1;3;5];
 Te (-1709079372000) 16 3 [1;1;4;4];
 Te 1822853960928000 16 3 [1;1;10];
 Te (-3036386152800) 16 3 [1;2;2;5];
 Te (-5263061918400) 16 3 [1;2;3;4];
 Te 2266230814848000 16 3 [1;2;9];
 Te (-805620816000) 16 3 [1;3;3;3];
 Te 1719708550560000 16 3 [1;3;8];
 Te 1458605676528000 16 3 [1;4;7];
 Te 1349302002048000 16 3 [1;5;6];
 Te (-1329566398864704000) 16 3 [1;13];
 Te (-735390770400) 16 3 [2;2;2;4];
 Te (-1012280068800) 16 3 [2;2;3;3];
 Te 717268731379200 16 3 [2;2;8];
 Te 1112069633875200 16 3 [2;3;7];
 Te 968636436768000 16 3 [2;4;6];
 Te 463325374512000 16 3 [2;5;5];
 Te (-786803747681952000) 16 3 [2;12];
 Te 442608854688000 16 3 [3;3;6];
 Te 797305148640000 16 3 [3;4;5];
 Te (-568081914944544000) 16 3 [3;11];
 Te 125106901920000 16 3 [4;4;4];
 Te (-456877502040960000) 16 3 [4;10];
 Te (-397057886184960000) 16 3 [5;9];
 Te (-367075964166912000) 16 3 [6;8];
 Te (-178956544935168000) 16 3 [7;7];
 Te (-24324300) 17 0 [1;1;1;1;2];
 Te 10443232800 17 0 [1;1;1;5];
 Te 23044301280 17 0 [1;1;2;4];
 Te 10529719200 17 0 [1;1;3;3];
 Te (-6256858608000) 17 0 [1;1;8];
 Te 18034267680 17 0 [1;2;2;3];
 Te (-8118737827200) 17 0 [1;2;7];
 Te (-6371799033600) 17 0 [1;3;6];
 Te (-5695318137600) 17 0 [1;4;5];
 Te 3572620859808000 17 0 [1;11];
 Te 1289141568 17 0 [2;2;2;2];
 Te (-2708909723520) 17 0 [2;2;6];
 Te (-4396772016000) 17 0 [2;3;5];
 Te (-2063081966400) 17 0 [2;4;4];
 Te 2169719776224000 17 0 [2;10];
 Te (-1872587808000) 17 0 [3;3;4];
 Te 1587890304000000 17 0 [3;9];
 Te 1309635879552000 17 0 [4;8];
 Te 1177691535820800 17 0 [5;7];
 Te 569788928755200 17 0 [6;6];
 Te (-1311486238782720000) 17 0 [14];
 Te 327026700 17 1 [1;1;1;1;3];
 Te 559999440 17 1 [1;1;1;2;2];
 Te (-197643045600) 17 1 [1;1;1;6];
 Te (-417755257920) 17 1 [1;1;2;5];
 Te (-362529367200) 17 1 [1;1;3;4];
 Te 143351208000000 17 1 [1;1;9];
 Te (-307446179040) 17 1 [1;2;2;4];
 Te (-282671532000) 17 1 [1;2;3;3];
 Te 182848682016000 17 1 [1;2;8];
 Te 141371274844800 17 1 [1;3;7];
 Te 122761563724800 17 1 [1;4;6];
 Te 58643251430400 17 1 [1;5;5];
 Te (-93504111468768000) 17 1 [1;12];
 Te (-79885634400) 17 1 [2;2;2;3];
 Te 59572039887360 17 1 [2;2;7];
 Te 94568986512000 17 1 [2;3;6];
 Te 84998833920000 17 1 [2;4;5];
 Te (-56281977880128000) 17 1 [2;11];
 Te 38837150352000 17 1 [3;3;5];
 Te 36531639144000 17 1 [3;4;4];
 Te (-41018514657120000) 17 1 [3;10];
 Te (-33379042080384000) 17 1 [4;9];
 Te (-29452095953280000) 17 1 [5;8];
 Te (-27769119041664000) 17 1 [6;7];
 Te 38033100924698880000 17 1 [15];
 Te 675675 17 2 [1;1;1;1;1;1];
 Te (-2521619100) 17 2 [1;1;1;1;4];
 Te (-7945938000) 17 2 [1;1;1;2;3];
 Te 1997122327200 17 2 [1;1;1;7];
 Te (-3358915560) 17 2 [1;1;2;2;2];
 Te 4088687803200 17 2 [1;1;2;6];
 Te 3424904683200 17 2 [1;1;3;5];
 Te 1621782162000 17 2 [1;1;4;4];
 Te (-1717204120632000) 17 2 [1;1;10];
 Te 2883253332960 17 2 [1;2;2;5];
 Te 5032863538560 17 2 [1;2;3;4];
 Te (-2160336434256000) 17 2 [1;2;9];
 Te 772966022400 17 2 [1;3;3;3];
 Te (-1650616641273600) 17 2 [1;3;8];
 Te (-1404751287139200) 17 2 [1;4;7];
 Te (-1300608963763200) 17 2 [1;5;6];
 Te 1269389149636608000 17 2 [1;13];
 Te 706407324480 17 2 [2;2;2;4];
 Te 976522884480 17 2 [2;2;3;3];
 Te (-691692177496320) 17 2 [2;2;8];
 Te (-1079283072067200) 17 2 [2;3;7];
 Te (-942759863136000) 17 2 [2;4;6];
 Te (-451378233633600) 17 2 [2;5;5];
 Te 759049939327680000 17 2 [2;12];
 Te (-432042449529600) 17 2 [3;3;6];
 Te (-780498867657600) 17 2 [3;4;5];
 Te 550955459422368000 17 2 [3;11];
 Te (-122703032088000) 17 2 [4;4;4];
 Te 444109496646816000 17 2 [4;10];
 Te 386158202381952000 17 2 [5;9];
 Te 356954303023718400 17 2 [6;8];
 Te 174021970323801600 17 2 [7;7];
 Te (-72972900) 18 0 [1;1;1;1;3];
 Te (-125405280) 18 0 [1;1;1;2;2];
 Te 46378332000 18 0 [1;1;1;6];
 Te 99359900640 18 0 [1;1;2;5];
 Te 86745859200 18 0 [1;1;3;4];
 Te (-34547641128000) 18 0 [1;1;9];
 Te 74127493440 18 0 [1;2;2;4];
 Te 68200704000 18 0 [1;2;3;3];
 Te (-44604149990400) 18 0 [1;2;8];
 Te (-34626905913600) 18 0 [1;3;7];
 Te (-30161872540800) 18 0 [1;4;6];
 Te (-14411165932800) 18 0 [1;5;5];
 Te 22991487149030400 18 0 [1;12];
 Te 19477972800 18 0 [2;2;2;3];
 Te (-14726047976640) 18 0 [2;2;7];
 Te (-23443176556800) 18 0 [2;3;6];
 Te (-21135286972800) 18 0 [2;4;5];
 Te 14001857911641600 18 0 [2;11];
 Te (-9653828184000) 18 0 [3;3;5];
 Te (-9106801704000) 18 0 [3;4;4];
 Te 10230115607712000 18 0 [3;10];
 Te 8344760520096000 18 0 [4;9];
 Te 7363023988320000 18 0 [5;8];
 Te 6942279760416000 18 0 [6;7];
 Te (-9508275231174720000) 18 0 [15];
 Te (-270270) 18 1 [1;1;1;1;1;1];
 Te 1191890700 18 1 [1;1;1;1;4];
 Te 3762158400 18 1 [1;1;1;2;3];
 Te (-981365505120) 18 1 [1;1;1;7];
 Te 1595674080 18 1 [1;1;2;2;2];
 Te (-2031799049280) 18 1 [1;1;2;6];
 Te (-1713014503200) 18 1 [1;1;3;5];
 Te (-813815402400) 18 1 [1;1;4;4];
 Te 862314856603200 18 1 [1;1;10];
 Te (-1449650442240) 18 1 [1;2;2;5];
 Te (-2540883945600) 18 1 [1;2;3;4];
 Te 1096120676851200 18 1 [1;2;9];
 Te (-390578760000) 18 1 [1;3;3;3];
 Te 841488455808000 18 1 [1;3;8];
 Te 718641530006400 18 1 [1;4;7];
 Te 666178360848000 18 1 [1;5;6];
 Te (-647647525324800000) 18 1 [1;13];
 Te (-358728289920) 18 1 [2;2;2;4];
 Te (-496771704000) 18 1 [2;2;3;3];
 Te 354703169620800 18 1 [2;2;8];
 Te 555902492745600 18 1 [2;3;7];
 Te 487076010220800 18 1 [2;4;6];
 Te 233451080553600 18 1 [2;5;5];
 Te (-391017193414848000) 18 1 [2;12];
 Te 223407992808000 18 1 [3;3;6];
 Te 404752460112000 18 1 [3;4;5];
 Te (-284841717320160000) 18 1 [3;11];
 Te 63747611928000 18 1 [4;4;4];
 Te (-230161259135808000) 18 1 [4;10];
 Te (-200274252482304000) 18 1 [5;9];
 Te (-185127460277760000) 18 1 [6;8];
 Te (-90249636885408000) 18 1 [7;7];
 Te 45045 19 0 [1;1;1;1;1;1];
 Te (-233333100) 19 0 [1;1;1;1;4];
 Te (-735134400) 19 0 [1;1;1;2;3];
 Te 200148268320 19 0 [1;1;1;7];
 Te (-312792480) 19 0 [1;1;2;2;2];
 Te 418308770880 19 0 [1;1;2;6];
 Te 354140186400 19 0 [1;1;3;5];
 Te 168714546000 19 0 [1;1;4;4];
 Te (-179999863243200) 19 0 [1;1;10];
 Te 301465644480 19 0 [1;2;2;5];
 Te 529426497600 19 0 [1;2;3;4];
 Te (-230941001491200) 19 0 [1;2;9];
 Te 81312660000 19 0 [1;3;3;3];
 Te (-177850200528000) 19 0 [1;3;8];
 Te (-152401577328000) 19 0 [1;4;7];
 Te (-141479050204800) 19 0 [1;5;6];
 Te 137625099131520000 19 0 [1;13];
 Te 75312357120 19 0 [2;2;2;4];
 Te 104223834000 19 0 [2;2;3;3];
 Te (-75506908276800) 19 0 [2;2;8];
 Te (-118642389465600) 19 0 [2;3;7];
 Te (-104305751827200) 19 0 [2;4;6];
 Te (-50031004060800) 19 0 [2;5;5];
 Te 83870354529561600 19 0 [2;12];
 Te (-47801515608000) 19 0 [3;3;6];
 Te (-86839497360000) 19 0 [3;4;5];
 Te 61227329907744000 19 0 [3;11];
 Te (-13704230232000) 19 0 [4;4;4];
 Te 49600179588960000 19 0 [4;10];
 Te 43191013241376000 19 0 [5;9];
 Te 39932942553504000 19 0 [6;8];
 Te 19464095476425600 19 0 [7;7]].
Definition wit1_8 : list term := [Te (-61776000) 15 0 [1;1;1;3];
 Te (-76911120) 15 0 [1;1;2;2];
 Te 21405384000 15 0 [1;1;6];
 Te 28021593600 15 0 [1;2;5];
 Te 23351328000 15 0 [1;3;4];
 Te (-8601072480000) 15 0 [1;9];
 Te 9729720000 15 0 [2;2;4];
 Te 8617752000 15 0 [2;3;3];
 Te (-5160643488000) 15 0 [2;8];
 Te (-3845185344000) 15 0 [3;7];
 Te (-3323672352000) 15 0 [4;6];
 Te (-1582583184000) 15 0 [5;5];
 Te 2428678219968000 15 0 [12];
 Te (-900900) 15 1 [1;1;1;1;1];
 Te 972972000 15 1 [1;1;1;4];
 Te 2122005600 15 1 [1;1;2;3];
 Te (-426680654400) 15 1 [1;1;7];
 Te 574516800 15 1 [1;2;2;2];
 Te (-530853523200) 15 1 [1;2;6];
 Te (-424215792000) 15 1 [1;3;5];
 Te (-198270072000) 15 1 [1;4;4];
 Te 196104452544000 15 1 [1;10];
 Te (-171632260800) 15 1 [2;2;5];
 Te (-287999712000) 15 1 [2;3;4];
 Te 113534156736000 15 1 [2;9];
 Te (-43088760000) 15 1 [3;3;3];
 Te 83480997600000 15 1 [3;8];
 Te 70124037984000 15 1 [4;7];
 Te 64729881216000 15 1 [5;6];
 Te (-60716955499200000) 15 1 [13];
 Te 23603580 15 2 [1;1;1;1;2];
 Te (-8345937600) 15 2 [1;1;1;5];
 Te (-16793805600) 15 2 [1;1;2;4];
 Te (-7552116000) 15 2 [1;1;3;3];
 Te 4452319872000 15 2 [1;1;8];
 Te (-12088945440) 15 2 [1;2;2;3];
 Te 5337075744000 15 2 [1;2;7];
 Te 4133185056000 15 2 [1;3;6];
 Te 3689509824000 15 2 [1;4;5];
 Te (-2320569355104000) 15 2 [1;11];
 Te (-805250160) 15 2 [2;2;2;2];
 Te 1649382134400 15 2 [2;2;6];
 Te 2651154105600 15 2 [2;3;5];
 Te 1239350112000 15 2 [2;4;4];
 Te (-1312523660448000) 15 2 [2;10];
 Te 1115859888000 15 2 [3;3;4];
 Te (-951683372640000) 15 2 [3;9];
 Te (-783608297472000) 15 2 [4;8];
 Te (-705435835104000) 15 2 [5;7];
 Te (-341057821104000) 15 2 [6;6];
 Te 789320421489600000 15 2 [14];
 Te (-103603500) 15 3 [1;1;1;1;3];
 Te (-164324160) 15 3 [1;1;1;2;2];
 Te 50918868000 15 3 [1;1;1;6];
 Te 97167470400 15 3 [1;1;2;5];
 Te 81667872000 15 3 [1;1;3;4];
 Te (-32279319072000) 15 3 [1;1;9];
 Te 65031595200 15 3 [1;2;2;4];
 Te 58498783200 15 3 [1;2;3;3];
 Te (-37733410915200) 15 3 [1;2;8];
 Te (-28480576924800) 15 3 [1;3;7];
 Te (-24608407824000) 15 3 [1;4;6];
 Te (-11755447704000) 15 3 [1;5;5];
 Te 18989447821344000 15 3 [1;12];
 Te 15558285600 15 3 [2;2;2;3];
 Te (-11327729212800) 15 3 [2;2;7];
 Te (-17600674291200) 15 3 [2;3;6];
 Te (-15746578848000) 15 3 [2;4;5];
 Te 10589640437376000 15 3 [2;11];
 Te (-7079344272000) 15 3 [3;3;5];
 Te (-6629614992000) 15 3 [3;4;4];
 Te 7575824640384000 15 3 [3;10];
 Te 6144201423360000 15 3 [4;9];
 Te 5422925604096000 15 3 [5;8];
 Te 5113660616064000 15 3 [6;7];
 Te (-7103883793406400000) 15 3 [15];
 Te (-225225) 15 4 [1;1;1;1;1;1];
 Te 385585200 15 4 [1;1;1;1;4];
 Te 1096215120 15 4 [1;1;1;2;3];
 Te (-245578132800) 15 4 [1;1;1;7];
 Te 436756320 15 4 [1;1;2;2;2];
 Te (-452886033600) 15 4 [1;1;2;6];
 Te (-362844424800) 15 4 [1;1;3;5];
 Te (-169899444000) 15 4 [1;1;4;4];
 Te 182452358088000 15 4 [1;1;10];
 Te (-289852992000) 15 4 [1;2;2;5];
 Te (-487079049600) 15 4 [1;2;3;4];
 Te 210038189961600 15 4 [1;2;9];
 Te (-72833904000) 15 4 [1;3;3;3];
 Te 155146223232000 15 4 [1;3;8];
 Te 130830225926400 15 4 [1;4;7];
 Te 120948203376000 15 4 [1;5;6];
 Te (-120800342767104000) 15 4 [1;13];
 Te (-65089046880) 15 4 [2;2;2;4];
 Te (-87602692320) 15 4 [2;2;3;3];
 Te 61917213758400 15 4 [2;2;8];
 Te 93650500944000 15 4 [2;3;7];
 Te 81154426953600 15 4 [2;4;6];
 Te 38792393640000 15 4 [2;5;5];
 Te (-66871618317504000) 15 4 [2;12];
 Te 36394990632000 15 4 [3;3;6];
 Te 65235826656000 15 4 [3;4;5];
 Te (-47261173063104000) 15 4 [3;11];
 Te 10192638456000 15 4 [4;4;4];
 Te (-37862730569664000) 15 4 [4;10];
 Te (-32898191534208000) 15 4 [5;9];
 Te (-30419448067008000) 15 4 [6;8];
 Te (-14830498466784000) 15 4 [7;7];
 Te 900900 16 0 [1;1;1;1;1];
 Te (-972972000) 16 0 [1;1;1;4];
 Te (-2122005600) 16 0 [1;1;2;3];
 Te 426680654400 16 0 [1;1;7];
 Te (-574516800) 16 0 [1;2;2;2];
 Te 530853523200 16 0 [1;2;6];
 Te 424215792000 16 0 [1;3;5];
 Te 198270072000 16 0 [1;4;4];
 Te (-196104452544000) 16 0 [1;10];
 Te 171632260800 16 0 [2;2;5];
 Te 287999712000 16 0 [2;3;4];
 Te (-113534156736000) 16 0 [2;9];
 Te 43088760000 16 0 [3;3;3];
 Te (-83480997600000) 16 0 [3;8];
 Te (-70124037984000) 16 0 [4;7];
 Te (-64729881216000) 16 0 [5;6];
 Te 60716955499200000 16 0 [13];
 Te (-48108060) 16 1 [1;1;1;1;2];
 Te 17124307200 16 1 [1;1;1;5];
 Te 34897262400 16 1 [1;1;2;4];
 Te 15660216000 16 1 [1;1;3;3];
 Te (-9182909736000) 16 1 [1;1;8];
 Te 25436268000 16 1 [1;2;2;3];
 Te (-11130799680000) 16 1 [1;2;7];
 Te (-8604964368000) 16 1 [1;3;6];
 Te (-7682586912000) 16 1 [1;4;5];
 Te 4804559087328000 16 1 [1;11];
 Te 1723550400 16 1 [2;2;2;2];
 Te (-3480515438400) 16 1 [2;2;6];
 Te (-5580967392000) 16 1 [2;3;5];
 Te (-2610808200000) 16 1 [2;4;4];
 Te 2745462335616000 16 1 [2;10];
 Te (-2344862520000) 16 1 [3;3;4];
 Te 1986847742880000 16 1 [3;9];
 Te 1636227552960000 16 1 [4;8];
 Te 1472604797664000 16 1 [5;7];
 Te 712028693376000 16 1 [6;6];
 Te (-1639357798478400000) 16 1 [14];
 Te 324324000 16 2 [1;1;1;1;3];
 Te 527567040 16 2 [1;1;1;2;2];
 Te (-161513352000) 16 2 [1;1;1;6];
 Te (-314724009600) 16 2 [1;1;2;5];
 Te (-264370392000) 16 2 [1;1;3;4];
 Te 103238167032000 16 2 [1;1;9];
 Te (-214999012800) 16 2 [1;2;2;4];
 Te (-193278571200) 16 2 [1;2;3;3];
 Te 122884028467200 16 2 [1;2;8];
 Te 92668188412800 16 2 [1;3;7];
 Te 80048352384000 16 2 [1;4;6];
 Te 38235853656000 16 2 [1;5;5];
 Te (-61086536967456000) 16 2 [1;12];
 Te (-52484889600) 16 2 [2;2;2;3];
 Te 37540762459200 16 2 [2;2;7];
 Te 58270903891200 16 2 [2;3;6];
 Te 52116272208000 16 2 [2;4;5];
 Te (-34612435874016000) 16 2 [2;11];
 Te 23415544152000 16 2 [3;3;5];
 Te 21923653752000 16 2 [3;4;4];
 Te (-24734964237984000) 16 2 [3;10];
 Te (-20052135623520000) 16 2 [4;9];
 Te (-17694632251296000) 16 2 [5;8];
 Te (-16684126883424000) 16 2 [6;7];
 Te 22951009178697600000 16 2 [15];
 Te 900900 16 3 [1;1;1;1;1;1];
 Te (-1661259600) 16 3 [1;1;1;1;4];
 Te (-4873508640) 16 3 [1;1;1;2;3];
 Te 1074550276800 16 3 [1;1;1;7];
 Te (-1991349360) 16 3 [1;1;2;2;2];
 Te 2032733102400 16 3 [1;1;2;6];
 Te 1632776745600 16 3 [1;1;3;5];
 Te 764107344000 16 3 [1;1;4;4];
 Te (-805777140168000) 16 3 [1;1;10];
 Te 1332193262400 16 3 [1;2;2;5];
 Te 2244340612800 16 3 [1;2;3;4];
 Te (-947787592752000) 16 3 [1;2;9];
 Te 336648312000 16 3 [1;3;3;3];
 Te (-701240379840000) 16 3 [1;3;8];
 Te (-590902760448000) 16 3 [1;4;7];
 Te (-546199237584000) 16 3 [1;5;6];
 Te 536737886612928000 16 3 [1;13];
 Te 305726335200 16 3 [2;2;2;4];
 Te 412957116000 16 3 [2;2;3;3];
 Te (-285004125806400) 16 3 [2;2;8];
 Te (-431789406048000) 16 3 [2;3;7];
 Te (-373850869392000) 16 3 [2;4;6];
 Te (-178701875352000) 16 3 [2;5;5];
 Te 302687222501664000 16 3 [2;12];
 Te (-168065345448000) 16 3 [3;3;6];
 Te (-301033644912000) 16 3 [3;4;5];
 Te 214146062178048000 16 3 [3;11];
 Te (-47002115160000) 16 3 [4;4;4];
 Te 171410773453920000 16 3 [4;10];
 Te 148896707319360000 16 3 [5;9];
 Te 137653486562592000 16 3 [6;8];
 Te 67108704350688000 16 3 [7;7];
 Te 24504480 17 0 [1;1;1;1;2];
 Te (-8821612800) 17 0 [1;1;1;5];
 Te (-18231333120) 17 0 [1;1;2;4];
 Te (-8142076800) 17 0 [1;1;3;3];
 Te 4789616832000 17 0 [1;1;8];
 Te (-13462225920) 17 0 [1;2;2;3];
 Te 5882458982400 17 0 [1;2;7];
 Te 4533271142400 17 0 [1;3;6];
 Te 4051148774400 17 0 [1;4;5];
 Te (-2534272925184000) 17 0 [1;11];
 Te (-934794432) 17 0 [2;2;2;2];
 Te 1868728942080 17 0 [2;2;6];
 Te 2980478592000 17 0 [2;3;5];
 Te 1398595161600 17 0 [2;4;4];
 Te (-1468269234432000) 17 0 [2;10];
 Te 1248391872000 17 0 [3;3;4];
 Te (-1058593536000000) 17 0 [3;9];
 Te (-873090586368000) 17 0 [4;8];
 Te (-785127690547200) 17 0 [5;7];
 Te (-379859285836800) 17 0 [6;6];
 Te 874324159188480000 17 0 [14];
 Te (-338738400) 17 1 [1;1;1;1;3];
 Te (-563242680) 17 1 [1;1;1;2;2];
 Te 171956584800 17 1 [1;1;1;6];
 Te 341552090880 17 1 [1;1;2;5];
 Te 286875388800 17 1 [1;1;3;4];
 Te (-111527239824000) 17 1 [1;1;9];
 Te 237677600160 17 1 [1;2;2;4];
 Te 213636852000 17 1 [1;2;3;3];
 Te (-135036837936000) 17 1 [1;2;8];
 Te (-101802968467200) 17 1 [1;3;7];
 Te (-87928387747200) 17 1 [1;4;6];
 Te (-41999380113600) 17 1 [1;5;5];
 Te 66788651049120000 17 1 [1;12];
 Te 59082566400 17 1 [2;2;2;3];
 Te (-41940853194240) 17 1 [2;2;7];
 Te (-65072367360000) 17 1 [2;3;6];
 Te (-58191509376000) 17 1 [2;4;5];
 Te 38436472698624000 17 1 [2;11];
 Te (-26137919808000) 17 1 [3;3;5];
 Te (-24470462016000) 17 1 [3;4;4];
 Te 27454623356160000 17 1 [3;10];
 Te 22252694720256000 17 1 [4;9];
 Te 19634730635520000 17 1 [5;8];
 Te 18512746027776000 17 1 [6;7];
 Te (-25355400616465920000) 17 1 [15];
 Te (-1351350) 17 2 [1;1;1;1;1;1];
 Te 2691889200 17 2 [1;1;1;1;4];
 Te 8107791120 17 2 [1;1;1;2;3];
 Te (-1778787410400) 17 2 [1;1;1;7];
 Te 3377139480 17 2 [1;1;2;2;2];
 Te (-3438288453600) 17 2 [1;1;2;6];
 Te (-2772018849600) 17 2 [1;1;3;5];
 Te (-1296755460000) 17 2 [1;1;4;4];
 Te 1353808808352000 17 2 [1;1;10];
 Te (-2298406350240) 17 2 [1;2;2;5];
 Te (-3885601674240) 17 2 [1;2;3;4];
 Te 1621909297008000 17 2 [1;2;9];
 Te (-585071229600) 17 2 [1;3;3;3];
 Te 1203370991222400 17 2 [1;3;8];
 Te 1013574510748800 17 2 [1;4;7];
 Te 936851599756800 17 2 [1;5;6];
 Te (-911968671597984000) 17 2 [1;13];
 Te (-536930428320) 17 2 [2;2;2;4];
 Te (-728300121120) 17 2 [2;2;3;3];
 Te 495933791633280 17 2 [2;2;8];
 Te 753433711430400 17 2 [2;3;7];
 Te 651951741168000 17 2 [2;4;6];
 Te 311659666718400 17 2 [2;5;5];
 Te (-522535398761376000) 17 2 [2;12];
 Te 294021807206400 17 2 [3;3;6];
 Te 526411707494400 17 2 [3;4;5];
 Te (-370506679006464000) 17 2 [3;11];
 Te 82150129152000 17 2 [4;4;4];
 Te (-296399838518784000) 17 2 [4;10];
 Te (-257438801587968000) 17 2 [5;9];
 Te (-237969535349145600) 17 2 [6;8];
 Te (-116014646882534400) 17 2 [7;7];
 Te 118017900 18 0 [1;1;1;1;3];
 Te 199999800 18 0 [1;1;1;2;2];
 Te (-61362100800) 18 0 [1;1;1;6];
 Te (-123995551680) 18 0 [1;1;2;5];
 Te (-104172868800) 18 0 [1;1;3;4];
 Te 40568391864000 18 0 [1;1;9];
 Te (-87710182560) 18 0 [1;2;2;4];
 Te (-78857064000) 18 0 [1;2;3;3];
 Te 49886220384000 18 0 [1;2;8];
 Te 37615356979200 18 0 [1;3;7];
 Te 32488443187200 18 0 [1;4;6];
 Te 15518974161600 18 0 [1;5;5];
 Te (-24691561903008000) 18 0 [1;12];
 Te (-22155962400) 18 0 [2;2;2;3];
 Te 15727819947840 18 0 [2;2;7];
 Te 24402137760000 18 0 [2;3;6];
 Te 21821816016000 18 0 [2;4;5];
 Te (-14413677261984000) 18 0 [2;11];
 Te 9801719928000 18 0 [3;3;5];
 Te 9176423256000 18 0 [3;4;4];
 Te (-10295483758560000) 18 0 [3;10];
 Te (-8344760520096000) 18 0 [4;9];
 Te (-7363023988320000) 18 0 [5;8];
 Te (-6942279760416000) 18 0 [6;7];
 Te 9508275231174720000 18 0 [15];
 Te 900900 18 1 [1;1;1;1;1;1];
 Te (-1943241300) 18 1 [1;1;1;1;4];
 Te (-5979916800) 18 1 [1;1;1;2;3];
 Te 1317144628800 18 1 [1;1;1;7];
 Te (-2528337240) 18 1 [1;1;2;2;2];
 Te 2592620110080 18 1 [1;1;2;6];
 Te 2098506009600 18 1 [1;1;3;5];
 Te 981966585600 18 1 [1;1;4;4];
 Te (-1021377357000000) 18 1 [1;1;10];
 Te 1762207967520 18 1 [1;2;2;5];
 Te 2990137550400 18 1 [1;2;3;4];
 Te (-1242854973360000) 18 1 [1;2;9];
 Te 451737000000 18 1 [1;3;3;3];
 Te (-924969453408000) 18 1 [1;3;8];
 Te (-779155977600000) 18 1 [1;4;7];
 Te (-720119928528000) 18 1 [1;5;6];
 Te 698244988240800000 18 1 [1;13];
 Te 418222284480 18 1 [2;2;2;4];
 Te 568910628000 18 1 [2;2;3;3];
 Te (-385575960369600) 18 1 [2;2;8];
 Te (-587352061296000) 18 1 [2;3;7];
 Te (-508320270057600) 18 1 [2;4;6];
 Te (-242953266628800) 18 1 [2;5;5];
 Te 405589262734656000 18 1 [2;12];
 Te (-229829608008000) 18 1 [3;3;6];
 Te (-411508777680000) 18 1 [3;4;5];
 Te 288273545239680000 18 1 [3;11];
 Te (-64234962792000) 18 1 [4;4;4];
 Te 230618836191744000 18 1 [4;10];
 Te 200274252482304000 18 1 [5;9];
 Te 185127460277760000 18 1 [6;8];
 Te 90249636885408000 18 1 [7;7];
 Te (-225225) 19 0 [1;1;1;1;1;1];
 Te 527026500 19 0 [1;1;1;1;4];
 Te 1649419200 19 0 [1;1;1;2;3];
 Te (-367372605600) 19 0 [1;1;1;7];
 Te 705790800 19 0 [1;1;2;2;2];
 Te (-734269536000) 19 0 [1;1;2;6];
 Te (-596490804000) 19 0 [1;1;3;5];
 Te (-279460818000) 19 0 [1;1;4;4];
 Te 291013979256000 19 0 [1;1;10];
 Te (-506193105600) 19 0 [1;2;2;5];
 Te (-861935256000) 19 0 [1;2;3;4];
 Te 358863208704000 19 0 [1;2;9];
 Te (-130508820000) 19 0 [1;3;3;3];
 Te 267820272720000 19 0 [1;3;8];
 Te 225764530992000 19 0 [1;4;7];
 Te 208618069968000 19 0 [1;5;6];
 Te (-202389851664000000) 19 0 [1;13];
 Te (-121992998400) 19 0 [2;2;2;4];
 Te (-166005450000) 19 0 [2;2;3;3];
 Te 112816103400000 19 0 [2;2;8];
 Te 172161557568000 19 0 [2;3;7];
 Te 149179659552000 19 0 [2;4;6];
 Te 71245391616000 19 0 [2;5;5];
 Te (-119005232778432000) 19 0 [2;12];
 Te 67519017720000 19 0 [3;3;6];
 Te 120968452080000 19 0 [3;4;5];
 Te (-84739750935840000) 19 0 [3;11];
 Te 18909109800000 19 0 [4;4;4];
 Te (-67844598101280000) 19 0 [4;10];
 Te (-58896836238240000) 19 0 [5;9];
 Te (-54454012572960000) 19 0 [6;8];
 Te (-26541948376944000) 19 0 [7;7]].
Definition wit1_9 : list term := [Te (-3063060) 17 0 [1;1;1;1;2];
 Te 1102701600 17 0 [1;1;1;5];
 Te 2278916640 17 0 [1;1;2;4];
 Te 1017759600 17 0 [1;1;3;3];
 Te (-598702104000) 17 0 [1;1;8];
 Te 1682778240 17 0 [1;2;2;3];
 Te (-735307372800) 17 0 [1;2;7];
 Te (-566658892800) 17 0 [1;3;6];
 Te (-506393596800) 17 0 [1;4;5];
 Te 316784115648000 17 0 [1;11];
 Te 116849304 17 0 [2;2;2;2];
 Te (-233591117760) 17 0 [2;2;6];
 Te (-372559824000) 17 0 [2;3;5];
 Te (-174824395200) 17 0 [2;4;4];
 Te 183533654304000 17 0 [2;10];
 Te (-156048984000) 17 0 [3;3;4];
 Te 132324192000000 17 0 [3;9];
 Te 109136323296000 17 0 [4;8];
 Te 98140961318400 17 0 [5;7];
 Te 47482410729600 17 0 [6;6];
 Te (-109290519898560000) 17 0 [14];
 Te 46203300 17 1 [1;1;1;1;3];
 Te 75212280 17 1 [1;1;1;2;2];
 Te (-22832409600) 17 1 [1;1;1;6];
 Te (-44445360960) 17 1 [1;1;2;5];
 Te (-37318881600) 17 1 [1;1;3;4];
 Te 14478472008000 17 1 [1;1;9];
 Te (-30317807520) 17 1 [1;2;2;4];
 Te (-27243216000) 17 1 [1;2;3;3];
 Te 17202144960000 17 1 [1;2;8];
 Te 12965695142400 17 1 [1;3;7];
 Te 11198777990400 17 1 [1;4;6];
 Te 5348833963200 17 1 [1;5;5];
 Te (-8500373769888000) 17 1 [1;12];
 Te (-7385320800) 17 1 [2;2;2;3];
 Te 5242606649280 17 1 [2;2;7];
 Te 8134045920000 17 1 [2;3;6];
 Te 7273938672000 17 1 [2;4;5];
 Te (-4804559087328000) 17 1 [2;11];
 Te 3267239976000 17 1 [3;3;5];
 Te 3058807752000 17 1 [3;4;4];
 Te (-3431827919520000) 17 1 [3;10];
 Te (-2781586840032000) 17 1 [4;9];
 Te (-2454341329440000) 17 1 [5;8];
 Te (-2314093253472000) 17 1 [6;7];
 Te 3169425077058240000 17 1 [15];
 Te 225225 17 2 [1;1;1;1;1;1];
 Te (-397296900) 17 2 [1;1;1;1;4];
 Te (-1149960240) 17 2 [1;1;1;2;3];
 Te 249015967200 17 2 [1;1;1;7];
 Te (-462856680) 17 2 [1;1;2;2;2];
 Te 464302238400 17 2 [1;1;2;6];
 Te 373015843200 17 2 [1;1;3;5];
 Te 174486312000 17 2 [1;1;4;4];
 Te (-181482629328000) 17 2 [1;1;10];
 Te 299779159680 17 2 [1;2;2;5];
 Te 505159649280 17 2 [1;2;3;4];
 Te (-210372113952000) 17 2 [1;2;9];
 Te 75826951200 17 2 [1;3;3;3];
 Te (-155638936252800) 17 2 [1;3;8];
 Te (-131079566217600) 17 2 [1;4;7];
 Te (-121152067545600) 17 2 [1;5;6];
 Te 117790893668448000 17 2 [1;13];
 Te 67724411040 17 2 [2;2;2;4];
 Te 91576124640 17 2 [2;2;3;3];
 Te (-62314264172160) 17 2 [2;2;8];
 Te (-94419538012800) 17 2 [2;3;7];
 Te (-81701697168000) 17 2 [2;4;6];
 Te (-39056369788800) 17 2 [2;5;5];
 Te 65468717233920000 17 2 [2;12];
 Te (-36752725900800) 17 2 [3;3;6];
 Te (-65801463436800) 17 2 [3;4;5];
 Te 46313334875808000 17 2 [3;11];
 Te (-10268766144000) 17 2 [4;4;4];
 Te 37049979814848000 17 2 [4;10];
 Te 32179850198496000 17 2 [5;9];
 Te 29746191918643200 17 2 [6;8];
 Te 14501830860316800 17 2 [7;7];
 Te (-46203300) 18 0 [1;1;1;1;3];
 Te (-75212280) 18 0 [1;1;1;2;2];
 Te 22832409600 18 0 [1;1;1;6];
 Te 44445360960 18 0 [1;1;2;5];
 Te 37318881600 18 0 [1;1;3;4];
 Te (-14478472008000) 18 0 [1;1;9];
 Te 30317807520 18 0 [1;2;2;4];
 Te 27243216000 18 0 [1;2;3;3];
 Te (-17202144960000) 18 0 [1;2;8];
 Te (-12965695142400) 18 0 [1;3;7];
 Te (-11198777990400) 18 0 [1;4;6];
 Te (-5348833963200) 18 0 [1;5;5];
 Te 8500373769888000 18 0 [1;12];
 Te 7385320800 18 0 [2;2;2;3];
 Te (-5242606649280) 18 0 [2;2;7];
 Te (-8134045920000) 18 0 [2;3;6];
 Te (-7273938672000) 18 0 [2;4;5];
 Te 4804559087328000 18 0 [2;11];
 Te (-3267239976000) 18 0 [3;3;5];
 Te (-3058807752000) 18 0 [3;4;4];
 Te 3431827919520000 18 0 [3;10];
 Te 2781586840032000 18 0 [4;9];
 Te 2454341329440000 18 0 [5;8];
 Te 2314093253472000 18 0 [6;7];
 Te (-3169425077058240000) 18 0 [15];
 Te (-450450) 18 1 [1;1;1;1;1;1];
 Te 809909100 18 1 [1;1;1;1;4];
 Te 2367565200 18 1 [1;1;1;2;3];
 Te (-510161652000) 18 1 [1;1;1;7];
 Te 964168920 18 1 [1;1;2;2;2];
 Te (-959817418560) 18 1 [1;1;2;6];
 Te (-770204635200) 18 1 [1;1;3;5];
 Te (-360367207200) 18 1 [1;1;4;4];
 Te 373143194424000 18 1 [1;1;10];
 Te (-625348563840) 18 1 [1;2;2;5];
 Te (-1052496244800) 18 1 [1;2;3;4];
 Te 436074374736000 18 1 [1;2;9];
 Te (-157760460000) 18 1 [1;3;3;3];
 Te 322236650736000 18 1 [1;3;8];
 Te 271405998864000 18 1 [1;4;7];
 Te 250828289712000 18 1 [1;5;6];
 Te (-242867821996800000) 18 1 [1;13];
 Te (-142650668160) 18 1 [2;2;2;4];
 Te (-192509460000) 18 1 [2;2;3;3];
 Te 130245534619200 18 1 [2;2;8];
 Te 197065748880000 18 1 [2;3;7];
 Te 170547980803200 18 1 [2;4;6];
 Te 81511949937600 18 1 [2;5;5];
 Te (-136005980318208000) 18 1 [2;12];
 Te 76609869336000 18 1 [3;3;6];
 Te 137169592560000 18 1 [3;4;5];
 Te (-96091181746560000) 18 1 [3;11];
 Te 21411654264000 18 1 [4;4;4];
 Te (-76872945397248000) 18 1 [4;10];
 Te (-66758084160768000) 18 1 [5;9];
 Te (-61709153425920000) 18 1 [6;8];
 Te (-30083212295136000) 18 1 [7;7];
 Te 225225 19 0 [1;1;1;1;1;1];
 Te (-413513100) 19 0 [1;1;1;1;4];
 Te (-1220384880) 19 0 [1;1;1;2;3];
 Te 263091628800 19 0 [1;1;1;7];
 Te (-503999496) 19 0 [1;1;2;2;2];
 Te 500068689120 19 0 [1;1;2;6];
 Te 400316061600 19 0 [1;1;3;5];
 Te 187503498000 19 0 [1;1;4;4];
 Te (-194218832808000) 19 0 [1;1;10];
 Te 329285567520 19 0 [1;2;2;5];
 Te 552966523200 19 0 [1;2;3;4];
 Te (-229251662640000) 19 0 [1;2;9];
 Te 82614168000 19 0 [1;3;3;3];
 Te (-169040263392000) 19 0 [1;3;8];
 Te (-142471122393600) 19 0 [1;4;7];
 Te (-131643830102400) 19 0 [1;5;6];
 Te 127505606548320000 19 0 [1;13];
 Te 76114715040 19 0 [2;2;2;4];
 Te 102188595600 19 0 [2;2;3;3];
 Te (-69237855086400) 19 0 [2;2;8];
 Te (-104450490144000) 19 0 [2;3;7];
 Te (-90504897436800) 19 0 [2;4;6];
 Te (-43222009924800) 19 0 [2;5;5];
 Te 72131743133049600 19 0 [2;12];
 Te (-40511410632000) 19 0 [3;3;6];
 Te (-72581071248000) 19 0 [3;4;5];
 Te 50843850561504000 19 0 [3;11];
 Te (-11345465880000) 19 0 [4;4;4];
 Te 40706758860768000 19 0 [4;10];
 Te 35338101742944000 19 0 [5;9];
 Te 32672407543776000 19 0 [6;8];
 Te 15925169026166400 19 0 [7;7]].
Definition wit1_10 : list term := [Te (-25025) 19 0 [1;1;1;1;1;1];
 Te 45945900 19 0 [1;1;1;1;4];
 Te 135598320 19 0 [1;1;1;2;3];
 Te (-29232403200) 19 0 [1;1;1;7];
 Te 55999944 19 0 [1;1;2;2;2];
 Te (-55563187680) 19 0 [1;1;2;6];
 Te (-44479562400) 19 0 [1;1;3;5];
 Te (-20833722000) 19 0 [1;1;4;4];
 Te 21579870312000 19 0 [1;1;10];
 Te (-36587285280) 19 0 [1;2;2;5];
 Te (-61440724800) 19 0 [1;2;3;4];
 Te 25472406960000 19 0 [1;2;9];
 Te (-9179352000) 19 0 [1;3;3;3];
 Te 18782251488000 19 0 [1;3;8];
 Te 15830124710400 19 0 [1;4;7];
 Te 14627092233600 19 0 [1;5;6];
 Te (-14167289616480000) 19 0 [1;13];
 Te (-8457190560) 19 0 [2;2;2;4];
 Te (-11354288400) 19 0 [2;2;3;3];
 Te 7693095009600 19 0 [2;2;8];
 Te 11605610016000 19 0 [2;3;7];
 Te 10056099715200 19 0 [2;4;6];
 Te 4802445547200 19 0 [2;5;5];
 Te (-8014638125894400) 19 0 [2;12];
 Te 4501267848000 19 0 [3;3;6];
 Te 8064563472000 19 0 [3;4;5];
 Te (-5649316729056000) 19 0 [3;11];
 Te 1260607320000 19 0 [4;4;4];
 Te (-4522973206752000) 19 0 [4;10];
 Te (-3926455749216000) 19 0 [5;9];
 Te (-3630267504864000) 19 0 [6;8];
 Te (-1769463225129600) 19 0 [7;7]].
Definition wit1 : list (list term) := [wit1_0; wit1_1; wit1_2; wit1_3; wit1_4; wit1_5; wit1_6; wit1_7; wit1_8; wit1_9; wit1_10].
