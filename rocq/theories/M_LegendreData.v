(** GENERATED by tools/gen_legendre.py from /repo/matslise/util/legendre_data.h (the <double, n>
    specialisations; each definition cites its line) and /repo/matslise/util/legendre.h:16-34.
    The decimal literals are kept exactly (as rationals); their rounding to binary64 is not modelled. *)
From Coq Require Import QArith List.
Import ListNotations.
Open Scope Q_scope.

(** util/legendre_data.h:2 *)
Definition nodes2 : list Q := [(-577350269189625765#1000000000000000000); (577350269189625765#1000000000000000000)].
(** util/legendre_data.h:3 *)
Definition weights2 : list (list Q) := [[(5#10); (5#10)];
  [(-433012701892219323#1000000000000000000); (433012701892219323#1000000000000000000)]].
(** util/legendre_data.h:4 *)
Definition nodes4 : list Q := [(-861136311594052575#1000000000000000000); (-339981043584856265#1000000000000000000); (339981043584856265#1000000000000000000); (861136311594052575#1000000000000000000)].
(** util/legendre_data.h:5 *)
Definition weights4 : list (list Q) := [[(173927422568726929#1000000000000000000); (326072577431273071#1000000000000000000); (326072577431273071#1000000000000000000); (173927422568726929#1000000000000000000)];
  [(-224662828733840527#1000000000000000000); (-166287742739232104#1000000000000000000); (166287742739232104#1000000000000000000); (224662828733840527#1000000000000000000)];
  [(133127010504727875#1000000000000000000); (-133127010504727875#1000000000000000000); (-133127010504727875#1000000000000000000); (133127010504727875#1000000000000000000)];
  [(-463783754252434132#10000000000000000000); (11747155879721913#100000000000000000); (-11747155879721913#100000000000000000); (463783754252434132#10000000000000000000)]].
(** util/legendre_data.h:6 *)
Definition nodes6 : list Q := [(-932469514203152028#1000000000000000000); (-661209386466264514#1000000000000000000); (-238619186083196909#1000000000000000000); (238619186083196909#1000000000000000000); (661209386466264514#1000000000000000000); (932469514203152028#1000000000000000000)].
(** util/legendre_data.h:7 *)
Definition weights6 : list (list Q) := [[(856622461895851724#10000000000000000000); (180380786524069304#1000000000000000000); (233956967286345524#1000000000000000000); (233956967286345524#1000000000000000000); (180380786524069304#1000000000000000000); (856622461895851724#10000000000000000000)];
  [(-119816149634929945#1000000000000000000); (-178904203781823147#1000000000000000000); (-837399316685413413#10000000000000000000); (837399316685413413#10000000000000000000); (178904203781823147#1000000000000000000); (119816149634929945#1000000000000000000)];
  [(861172296862283884#10000000000000000000); (351284319459752387#10000000000000000000); (-121245661632203627#1000000000000000000); (-121245661632203627#1000000000000000000); (351284319459752387#10000000000000000000); (861172296862283884#10000000000000000000)];
  [(-470901372492389992#10000000000000000000); (424753999359909744#10000000000000000000); (663189935928048343#10000000000000000000); (-663189935928048343#10000000000000000000); (-424753999359909744#10000000000000000000); (470901372492389992#10000000000000000000)];
  [(203343170610252677#10000000000000000000); (-434516205548006716#10000000000000000000); (231173034937754039#10000000000000000000); (231173034937754039#10000000000000000000); (-434516205548006716#10000000000000000000); (203343170610252677#10000000000000000000)];
  [(-605748640551240745#100000000000000000000); (182542698963508419#10000000000000000000); (-269109676305596007#10000000000000000000); (269109676305596007#10000000000000000000); (-182542698963508419#10000000000000000000); (605748640551240745#100000000000000000000)]].
(** util/legendre_data.h:8 *)
Definition nodes8 : list Q := [(-960289856497536232#1000000000000000000); (-79666647741362674#100000000000000000); (-525532409916328986#1000000000000000000); (-183434642495649805#1000000000000000000); (183434642495649805#1000000000000000000); (525532409916328986#1000000000000000000); (79666647741362674#100000000000000000); (960289856497536232#1000000000000000000)].
(** util/legendre_data.h:9 *)
Definition weights8 : list (list Q) := [[(506142681451881295#10000000000000000000); (111190517226687236#1000000000000000000); (156853322938943644#1000000000000000000); (181341891689180991#1000000000000000000); (181341891689180991#1000000000000000000); (156853322938943644#1000000000000000000); (111190517226687236#1000000000000000000); (506142681451881295#10000000000000000000)];
  [(-729065524408057924#10000000000000000000); (-132872636521176152#1000000000000000000); (-123647257211230889#1000000000000000000); (-498965776072346455#10000000000000000000); (498965776072346455#10000000000000000000); (123647257211230889#1000000000000000000); (132872636521176152#1000000000000000000); (729065524408057924#10000000000000000000)];
  [(558803608856467869#10000000000000000000); (628248958358037484#10000000000000000000); (-168075255096368314#10000000000000000000); (-101897731211813704#1000000000000000000); (-101897731211813704#1000000000000000000); (-168075255096368314#10000000000000000000); (628248958358037484#10000000000000000000); (558803608856467869#10000000000000000000)];
  [(-34252352853801863#1000000000000000000); (-671954455549504025#100000000000000000000); (583900937544787907#10000000000000000000); (412110608369853696#10000000000000000000); (-412110608369853696#10000000000000000000); (-583900937544787907#10000000000000000000); (671954455549504025#100000000000000000000); (34252352853801863#1000000000000000000)];
  [(181440885836096219#10000000000000000000); (-151810119673773486#10000000000000000000); (-288490826622831518#10000000000000000000); (258860060460508784#10000000000000000000); (258860060460508784#10000000000000000000); (-288490826622831518#10000000000000000000); (-151810119673773486#10000000000000000000); (181440885836096219#10000000000000000000)];
  [(-840091746183293354#100000000000000000000); (154154805206855273#10000000000000000000); (-16739315939126376#10000000000000000000); (-181752769827913028#10000000000000000000); (181752769827913028#10000000000000000000); (16739315939126376#10000000000000000000); (-154154805206855273#10000000000000000000); (840091746183293354#100000000000000000000)];
  [(327956548542237956#100000000000000000000); (-87360528616150719#10000000000000000000); (963445099222712305#100000000000000000000); (-417796361603443074#100000000000000000000); (-417796361603443074#100000000000000000000); (963445099222712305#100000000000000000000); (-87360528616150719#10000000000000000000); (327956548542237956#100000000000000000000)];
  [(-919472315997762188#1000000000000000000000); (2952319820973376#1000000000000000000); (-493573869624222504#100000000000000000000); (613208248376416534#100000000000000000000); (-613208248376416534#100000000000000000000); (493573869624222504#100000000000000000000); (-2952319820973376#1000000000000000000); (919472315997762188#1000000000000000000000)]].
(** util/legendre_data.h:10 *)
Definition nodes10 : list Q := [(-97390652851717172#100000000000000000); (-865063366688984511#1000000000000000000); (-679409568299024406#1000000000000000000); (-433395394129247191#1000000000000000000); (-148874338981631211#1000000000000000000); (148874338981631211#1000000000000000000); (433395394129247191#1000000000000000000); (679409568299024406#1000000000000000000); (865063366688984511#1000000000000000000); (97390652851717172#100000000000000000)].
(** util/legendre_data.h:11 *)
Definition weights10 : list (list Q) := [[(333356721543440686#10000000000000000000); (747256745752902963#10000000000000000000); (109543181257991021#1000000000000000000); (134633359654998178#1000000000000000000); (147762112357376435#1000000000000000000); (147762112357376435#1000000000000000000); (134633359654998178#1000000000000000000); (109543181257991021#1000000000000000000); (747256745752902963#10000000000000000000); (333356721543440686#10000000000000000000)];
  [(-486987431154356683#10000000000000000000); (-969636654393091148#10000000000000000000); (-111637028232890192#1000000000000000000); (-875242169559339342#10000000000000000000); (-329969802056009062#10000000000000000000); (329969802056009062#10000000000000000000); (875242169559339342#10000000000000000000); (111637028232890192#1000000000000000000); (969636654393091148#10000000000000000000); (486987431154356683#10000000000000000000)];
  [(384502347169142917#10000000000000000000); (581460969797349087#10000000000000000000); (263445931611230173#10000000000000000000); (-36730109155035452#1000000000000000000); (-862108157027367664#10000000000000000000); (-862108157027367664#10000000000000000000); (-36730109155035452#1000000000000000000); (263445931611230173#10000000000000000000); (581460969797349087#10000000000000000000); (384502347169142917#10000000000000000000)];
  [(-247496902823433028#10000000000000000000); (-209753093666790751#10000000000000000000); (225325030906321623#10000000000000000000); (526089656387962002#10000000000000000000); (278058335364589932#10000000000000000000); (-278058335364589932#10000000000000000000); (-526089656387962002#10000000000000000000); (-225325030906321623#10000000000000000000); (209753093666790751#10000000000000000000); (247496902823433028#10000000000000000000)];
  [(141399163458875904#10000000000000000000); (788785474682159593#1000000000000000000000); (-261136981640697028#10000000000000000000); (-132541319826533996#10000000000000000000); (244391283261533524#10000000000000000000); (244391283261533524#10000000000000000000); (-132541319826533996#10000000000000000000); (-261136981640697028#10000000000000000000); (788785474682159593#1000000000000000000000); (141399163458875904#10000000000000000000)];
  [(-736957843740478804#100000000000000000000); (584165572651425697#100000000000000000000); (124344422074913914#10000000000000000000); (-102155386137122193#10000000000000000000); (-127411712366433571#10000000000000000000); (127411712366433571#10000000000000000000); (102155386137122193#10000000000000000000); (-124344422074913914#10000000000000000000); (-584165572651425697#100000000000000000000); (736957843740478804#100000000000000000000)];
  [(352031984642386677#100000000000000000000); (-571188523329342618#100000000000000000000); (-12937967972106416#10000000000000000000); (878482660493444929#100000000000000000000); (-529946442085424828#100000000000000000000); (-529946442085424828#100000000000000000000); (878482660493444929#100000000000000000000); (-12937967972106416#10000000000000000000); (-571188523329342618#100000000000000000000); (352031984642386677#100000000000000000000)];
  [(-151990441341176482#100000000000000000000); (358710410951787718#100000000000000000000); (-269163598679407866#100000000000000000000); (-109419364633369733#100000000000000000000); (456837765571314092#100000000000000000000); (-456837765571314092#100000000000000000000); (109419364633369733#100000000000000000000); (269163598679407866#100000000000000000000); (-358710410951787718#100000000000000000000); (151990441341176482#100000000000000000000)];
  [(565745561424785223#1000000000000000000000); (-166308567143383861#100000000000000000000); (231311897266891075#100000000000000000000); (-200911008391135015#100000000000000000000); (793331221251492766#1000000000000000000000); (793331221251492766#1000000000000000000000); (-200911008391135015#100000000000000000000); (231311897266891075#100000000000000000000); (-166308567143383861#100000000000000000000); (565745561424785223#1000000000000000000000)];
  [(-153768532851114762#1000000000000000000000); (508897471604184645#1000000000000000000000); (-901218097620560207#1000000000000000000000); (122710869730042695#100000000000000000000); (-141058185282974436#100000000000000000000); (141058185282974436#100000000000000000000); (-122710869730042695#100000000000000000000); (901218097620560207#1000000000000000000000); (-508897471604184645#1000000000000000000000); (153768532851114762#1000000000000000000000)]].
(** util/legendre_data.h:12 *)
Definition nodes12 : list Q := [(-981560634246719251#1000000000000000000); (-904117256370474857#1000000000000000000); (-769902674194304687#1000000000000000000); (-587317954286617447#1000000000000000000); (-367831498998180194#1000000000000000000); (-125233408511468915#1000000000000000000); (125233408511468915#1000000000000000000); (367831498998180194#1000000000000000000); (587317954286617447#1000000000000000000); (769902674194304687#1000000000000000000); (904117256370474857#1000000000000000000); (981560634246719251#1000000000000000000)].
(** util/legendre_data.h:13 *)
Definition weights12 : list (list Q) := [[(235876681932559133#10000000000000000000); (534696629976592147#10000000000000000000); (80039164271673113#1000000000000000000); (101583713361532961#1000000000000000000); (116746268269177404#1000000000000000000); (124573522906701393#1000000000000000000); (124573522906701393#1000000000000000000); (116746268269177404#1000000000000000000); (101583713361532961#1000000000000000000); (80039164271673113#1000000000000000000); (534696629976592147#10000000000000000000); (235876681932559133#10000000000000000000)];
  [(-347290898282601609#10000000000000000000); (-72514267512746324#1000000000000000000); (-924335499195575654#10000000000000000000); (-894929080805004984#10000000000000000000); (-644144322898428068#10000000000000000000); (-234011503258316491#10000000000000000000); (234011503258316491#10000000000000000000); (644144322898428068#10000000000000000000); (894929080805004984#10000000000000000000); (924335499195575654#10000000000000000000); (72514267512746324#1000000000000000000); (347290898282601609#10000000000000000000)];
  [(278685916775129662#10000000000000000000); (485332113656365712#10000000000000000000); (389315689156294625#10000000000000000000); (221116877029171045#100000000000000000000); (-433493461853738023#10000000000000000000); (-741951945436969093#10000000000000000000); (-741951945436969093#10000000000000000000); (-433493461853738023#10000000000000000000); (221116877029171045#100000000000000000000); (389315689156294625#10000000000000000000); (485332113656365712#10000000000000000000); (278685916775129662#10000000000000000000)];
  [(-184080741208650399#10000000000000000000); (-229930066315820609#10000000000000000000); (977275002428898362#1000000000000000000000); (332876952816527582#10000000000000000000); (436528544875554745#10000000000000000000); (199407839747930189#10000000000000000000); (-199407839747930189#10000000000000000000); (-436528544875554745#10000000000000000000); (-332876952816527582#10000000000000000000); (-977275002428898362#1000000000000000000000); (229930066315820609#10000000000000000000); (184080741208650399#10000000000000000000)];
  [(109215713318433947#10000000000000000000); (700696199448352723#100000000000000000000); (-139858619765423548#10000000000000000000); (-227405381926771114#10000000000000000000); (-343360242685667993#100000000000000000000); (22231469269749224#1000000000000000000); (22231469269749224#1000000000000000000); (-343360242685667993#100000000000000000000); (-227405381926771114#10000000000000000000); (-139858619765423548#10000000000000000000); (700696199448352723#100000000000000000000); (109215713318433947#10000000000000000000)];
  [(-60068082081000466#10000000000000000000); (257746733443832718#1000000000000000000000); (115373842181257036#10000000000000000000); (422967191925035698#100000000000000000000); (-123301827128337904#10000000000000000000); (-93296384750904881#10000000000000000000); (93296384750904881#10000000000000000000); (123301827128337904#10000000000000000000); (-422967191925035698#100000000000000000000); (-115373842181257036#10000000000000000000); (-257746733443832718#1000000000000000000000); (60068082081000466#10000000000000000000)];
  [(310079971515181608#100000000000000000000); (-236102923472072576#100000000000000000000); (-54141764111407832#10000000000000000000); (415204173119109867#100000000000000000000); (594664204559504564#100000000000000000000); (-542427784607645143#100000000000000000000); (-542427784607645143#100000000000000000000); (594664204559504564#100000000000000000000); (415204173119109867#100000000000000000000); (-54141764111407832#10000000000000000000); (-236102923472072576#100000000000000000000); (310079971515181608#100000000000000000000)];
  [(-150578840859165126#100000000000000000000); (221180647525680497#100000000000000000000); (109481739137240491#100000000000000000000); (-384869522436867947#100000000000000000000); (125937304913924401#100000000000000000000); (345401535023599643#100000000000000000000); (-345401535023599643#100000000000000000000); (-125937304913924401#100000000000000000000); (384869522436867947#100000000000000000000); (-109481739137240491#100000000000000000000); (-221180647525680497#100000000000000000000); (150578840859165126#100000000000000000000)];
  [(683391428640062292#1000000000000000000000); (-144932510280340255#100000000000000000000); (653182545209875797#1000000000000000000000); (1213959817724681#1000000000000000000); (-219327209428453532#100000000000000000000); (109206340551331879#100000000000000000000); (109206340551331879#100000000000000000000); (-219327209428453532#100000000000000000000); (1213959817724681#1000000000000000000); (653182545209875797#1000000000000000000000); (-144932510280340255#100000000000000000000); (683391428640062292#1000000000000000000000)];
  [(-284204690094174714#1000000000000000000000); (760575040770708929#1000000000000000000000); (-838995975585661462#1000000000000000000000); (330746014753105427#1000000000000000000000); (49708406843930246#100000000000000000000); (-111660211501523042#100000000000000000000); (111660211501523042#100000000000000000000); (-49708406843930246#100000000000000000000); (-330746014753105427#1000000000000000000000); (838995975585661462#1000000000000000000000); (-760575040770708929#1000000000000000000000); (284204690094174714#1000000000000000000000)];
  [(102969724991831989#1000000000000000000000); (-319204345920215234#1000000000000000000000); (49669618243805728#100000000000000000000); (-541375146338326228#1000000000000000000000); (41761528928230492#100000000000000000000); (-156701704453652721#1000000000000000000000); (-156701704453652721#1000000000000000000000); (41761528928230492#100000000000000000000); (-541375146338326228#1000000000000000000000); (49669618243805728#100000000000000000000); (-319204345920215234#1000000000000000000000); (102969724991831989#1000000000000000000000)];
  [(-274748806812946948#10000000000000000000000); (924671414334143302#10000000000000000000000); (-168965636515782197#1000000000000000000000); (241417323901016905#1000000000000000000000); (-297352002765297323#1000000000000000000000); (327715448160510166#1000000000000000000000); (-327715448160510166#1000000000000000000000); (297352002765297323#1000000000000000000000); (-241417323901016905#1000000000000000000000); (168965636515782197#1000000000000000000000); (-924671414334143302#10000000000000000000000); (274748806812946948#10000000000000000000000)]].
(** util/legendre_data.h:14 *)
Definition nodes14 : list Q := [(-986283808696812339#1000000000000000000); (-928434883663573517#1000000000000000000); (-827201315069764993#1000000000000000000); (-68729290481168547#100000000000000000); (-515248636358154092#1000000000000000000); (-31911236892788976#100000000000000000); (-108054948707343662#1000000000000000000); (108054948707343662#1000000000000000000); (31911236892788976#100000000000000000); (515248636358154092#1000000000000000000); (68729290481168547#100000000000000000); (827201315069764993#1000000000000000000); (928434883663573517#1000000000000000000); (986283808696812339#1000000000000000000)].
(** util/legendre_data.h:15 *)
Definition weights14 : list (list Q) := [[(175597301658759323#10000000000000000000); (400790435798800949#10000000000000000000); (607592853439515943#10000000000000000000); (786015835790967608#10000000000000000000); (927691987389689063#10000000000000000000); (102599231860647802#1000000000000000000); (107631926731578895#1000000000000000000); (107631926731578895#1000000000000000000); (102599231860647802#1000000000000000000); (927691987389689063#10000000000000000000); (786015835790967608#10000000000000000000); (607592853439515943#10000000000000000000); (400790435798800949#10000000000000000000); (175597301658759323#10000000000000000000)];
  [(-259783163215326343#10000000000000000000); (-558161732451499035#10000000000000000000); (-753902411088237858#10000000000000000000); (-810334660513138347#10000000000000000000); (-716988047194384758#10000000000000000000); (-491110258938497142#10000000000000000000); (-17445243483379993#1000000000000000000); (17445243483379993#1000000000000000000); (491110258938497142#10000000000000000000); (716988047194384758#10000000000000000000); (810334660513138347#10000000000000000000); (753902411088237858#10000000000000000000); (558161732451499035#10000000000000000000); (259783163215326343#10000000000000000000)];
  [(210526596027422552#10000000000000000000); (397277006543332099#10000000000000000000); (399790798958373703#10000000000000000000); (204911680997727563#10000000000000000000); (-118023600116052444#10000000000000000000); (-4453460014607323#100000000000000000); (-649136480950071264#10000000000000000000); (-649136480950071264#10000000000000000000); (-4453460014607323#100000000000000000); (-118023600116052444#10000000000000000000); (204911680997727563#10000000000000000000); (399790798958373703#10000000000000000000); (397277006543332099#10000000000000000000); (210526596027422552#10000000000000000000)];
  [(-141218682760702636#10000000000000000000); (-213257240624289082#10000000000000000000); (-926411161142593861#100000000000000000000); (150823410548540124#10000000000000000000); (349775433874227299#10000000000000000000); (35678864335900736#1000000000000000000); (149675424225124187#10000000000000000000); (-149675424225124187#10000000000000000000); (-35678864335900736#1000000000000000000); (-349775433874227299#10000000000000000000); (-150823410548540124#10000000000000000000); (926411161142593861#100000000000000000000); (213257240624289082#10000000000000000000); (141218682760702636#10000000000000000000)];
  [(856391866696641414#100000000000000000000); (886639043547302718#100000000000000000000); (-487174349342991935#100000000000000000000); (-185775034779933541#10000000000000000000); (-162916014713019279#10000000000000000000); (222166476555287044#100000000000000000000); (200888745747328893#10000000000000000000); (200888745747328893#10000000000000000000); (222166476555287044#100000000000000000000); (-162916014713019279#10000000000000000000); (-185775034779933541#10000000000000000000); (-487174349342991935#100000000000000000000); (886639043547302718#100000000000000000000); (856391866696641414#100000000000000000000)];
  [(-485279829405438783#100000000000000000000); (-235268237010112902#100000000000000000000); (734448182191216103#100000000000000000000); (930484063096761955#100000000000000000000); (-175929422107901838#100000000000000000000); (-119932141396407813#10000000000000000000); (-70918573042981707#10000000000000000000); (70918573042981707#10000000000000000000); (119932141396407813#10000000000000000000); (175929422107901838#100000000000000000000); (-930484063096761955#100000000000000000000); (-734448182191216103#100000000000000000000); (235268237010112902#100000000000000000000); (485279829405438783#100000000000000000000)];
  [(260798426191094527#100000000000000000000); (-301788336951463645#1000000000000000000000); (-511561151842369656#100000000000000000000); (-133762775606589979#100000000000000000000); (588457870162843362#100000000000000000000); (34775583630859164#10000000000000000000); (-521509371518423518#100000000000000000000); (-521509371518423518#100000000000000000000); (34775583630859164#10000000000000000000); (588457870162843362#100000000000000000000); (-133762775606589979#100000000000000000000); (-511561151842369656#100000000000000000000); (-301788336951463645#1000000000000000000000); (260798426191094527#100000000000000000000)];
  [(-133791665038484701#100000000000000000000); (987676570606899083#1000000000000000000000); (23877857984367689#10000000000000000000); (-173393758116690592#100000000000000000000); (-273451461076773756#100000000000000000000); (231551217450970022#100000000000000000000); (2676063841146912#1000000000000000000); (-2676063841146912#1000000000000000000); (-231551217450970022#100000000000000000000); (273451461076773756#100000000000000000000); (173393758116690592#100000000000000000000); (-23877857984367689#10000000000000000000); (-987676570606899083#1000000000000000000000); (133791665038484701#100000000000000000000)];
  [(65600441572720122#100000000000000000000); (-887976593065482499#1000000000000000000000); (-635268248904609355#1000000000000000000000); (164884439329692539#100000000000000000000); (-186314396522580344#1000000000000000000000); (-17798726814544054#10000000000000000000); (118458311092295109#100000000000000000000); (118458311092295109#100000000000000000000); (-17798726814544054#10000000000000000000); (-186314396522580344#1000000000000000000000); (164884439329692539#100000000000000000000); (-635268248904609355#1000000000000000000000); (-887976593065482499#1000000000000000000000); (65600441572720122#100000000000000000000)];
  [(-306352580242135869#1000000000000000000000); (592217360830789032#1000000000000000000000); (-117428601370910872#1000000000000000000000); (-708125458655533633#1000000000000000000000); (871046697999486498#1000000000000000000000); (-522399990688381052#10000000000000000000000); (-888373596684886505#1000000000000000000000); (888373596684886505#1000000000000000000000); (522399990688381052#10000000000000000000000); (-871046697999486498#1000000000000000000000); (708125458655533633#1000000000000000000000); (117428601370910872#1000000000000000000000); (-592217360830789032#1000000000000000000000); (306352580242135869#1000000000000000000000)];
  [(134927480050455906#1000000000000000000000); (-330521760376841277#1000000000000000000000); (278561152629819321#1000000000000000000000); (527423331331114984#10000000000000000000000); (-419461461953040046#1000000000000000000000); (512203858399728038#1000000000000000000000); (-22845160188323334#100000000000000000000); (-22845160188323334#100000000000000000000); (512203858399728038#1000000000000000000000); (-419461461953040046#1000000000000000000000); (527423331331114984#10000000000000000000000); (278561152629819321#1000000000000000000000); (-330521760376841277#1000000000000000000000); (134927480050455906#1000000000000000000000)];
  [(-548421292609571635#10000000000000000000000); (157885860888227147#1000000000000000000000); (-208593155912442364#1000000000000000000000); (156922072362101384#1000000000000000000000); (-13691135759053924#1000000000000000000000); (-15650791019974771#100000000000000000000); (270216390274585116#1000000000000000000000); (-270216390274585116#1000000000000000000000); (15650791019974771#100000000000000000000); (13691135759053924#1000000000000000000000); (-156922072362101384#1000000000000000000000); (208593155912442364#1000000000000000000000); (-157885860888227147#1000000000000000000000); (548421292609571635#10000000000000000000000)];
  [(19533077695328713#1000000000000000000000); (-625224145104634922#10000000000000000000000); (103741708885308314#1000000000000000000000); (-126734265775361844#1000000000000000000000); (121784680574042909#1000000000000000000000); (-877135620844648132#10000000000000000000000); (319107752156102425#10000000000000000000000); (319107752156102425#10000000000000000000000); (-877135620844648132#10000000000000000000000); (121784680574042909#1000000000000000000000); (-126734265775361844#1000000000000000000000); (103741708885308314#1000000000000000000000); (-625224145104634922#10000000000000000000000); (19533077695328713#1000000000000000000000)];
  [(-514922799705681446#100000000000000000000000); (175088507107526461#10000000000000000000000); (-326073518245136104#10000000000000000000000); (479430369074193331#10000000000000000000000); (-614538588069958623#10000000000000000000000); (714655035734896443#10000000000000000000000); (-767831705563966769#10000000000000000000000); (767831705563966769#10000000000000000000000); (-714655035734896443#10000000000000000000000); (614538588069958623#10000000000000000000000); (-479430369074193331#10000000000000000000000); (326073518245136104#10000000000000000000000); (-175088507107526461#10000000000000000000000); (514922799705681446#100000000000000000000000)]].
(** util/legendre_data.h:16 *)
Definition nodes16 : list Q := [(-989400934991649933#1000000000000000000); (-944575023073232576#1000000000000000000); (-865631202387831744#1000000000000000000); (-755404408355003034#1000000000000000000); (-617876244402643748#1000000000000000000); (-458016777657227386#1000000000000000000); (-281603550779258913#1000000000000000000); (-950125098376374402#10000000000000000000); (950125098376374402#10000000000000000000); (281603550779258913#1000000000000000000); (458016777657227386#1000000000000000000); (617876244402643748#1000000000000000000); (755404408355003034#1000000000000000000); (865631202387831744#1000000000000000000); (944575023073232576#1000000000000000000); (989400934991649933#1000000000000000000)].
(** util/legendre_data.h:17 *)
Definition weights16 : list (list Q) := [[(135762297058770422#10000000000000000000); (311267619693239925#10000000000000000000); (475792558412463729#10000000000000000000); (623144856277669231#10000000000000000000); (747979944082883786#10000000000000000000); (845782596975012687#10000000000000000000); (913017075224617945#10000000000000000000); (947253052275342481#10000000000000000000); (947253052275342481#10000000000000000000); (913017075224617945#10000000000000000000); (845782596975012687#10000000000000000000); (747979944082883786#10000000000000000000); (623144856277669231#10000000000000000000); (475792558412463729#10000000000000000000); (311267619693239925#10000000000000000000); (135762297058770422#10000000000000000000)];
  [(-201485015469842371#10000000000000000000); (-441023428580538427#10000000000000000000); (-61779132663864547#1000000000000000000); (-706089557213844185#10000000000000000000); (-69323855810764756#1000000000000000000); (-581073929497585119#10000000000000000000); (-385663275458019232#10000000000000000000); (-135001334922064605#10000000000000000000); (135001334922064605#10000000000000000000); (385663275458019232#10000000000000000000); (581073929497585119#10000000000000000000); (69323855810764756#1000000000000000000); (706089557213844185#10000000000000000000); (61779132663864547#1000000000000000000); (441023428580538427#10000000000000000000); (201485015469842371#10000000000000000000)];
  [(164335392704104853#10000000000000000000); (326182381725847827#10000000000000000000); (371103962120940652#10000000000000000000); (27726342009241927#1000000000000000000); (67932080896519126#10000000000000000000); (-195937112147999348#10000000000000000000); (-43488048729771417#1000000000000000000); (-575999638094117988#10000000000000000000); (-575999638094117988#10000000000000000000); (-43488048729771417#1000000000000000000); (-195937112147999348#10000000000000000000); (67932080896519126#10000000000000000000); (27726342009241927#1000000000000000000); (371103962120940652#10000000000000000000); (326182381725847827#10000000000000000000); (164335392704104853#10000000000000000000)];
  [(-111337239265443937#10000000000000000000); (-187945241420916612#10000000000000000000); (-134526847850215799#10000000000000000000); (302367052453076599#100000000000000000000); (220623550408821041#10000000000000000000); (33067276032235412#1000000000000000000); (292854700297044422#10000000000000000000); (116348885630733613#10000000000000000000); (-116348885630733613#10000000000000000000); (-292854700297044422#10000000000000000000); (-33067276032235412#1000000000000000000); (-220623550408821041#10000000000000000000); (-302367052453076599#100000000000000000000); (134526847850215799#10000000000000000000); (187945241420916612#10000000000000000000); (111337239265443937#10000000000000000000)];
  [(684636196695612923#100000000000000000000); (896328745131512558#100000000000000000000); (575937947446312999#1000000000000000000000); (-119272462272182284#10000000000000000000); (-176284884400127371#10000000000000000000); (-104256605809648693#10000000000000000000); (539946255636797082#100000000000000000000); (181963453261103061#10000000000000000000); (181963453261103061#10000000000000000000); (539946255636797082#100000000000000000000); (-104256605809648693#10000000000000000000); (-176284884400127371#10000000000000000000); (-119272462272182284#10000000000000000000); (575937947446312999#1000000000000000000000); (896328745131512558#100000000000000000000); (684636196695612923#100000000000000000000)];
  [(-395200624762348005#100000000000000000000); (-340629675159442161#100000000000000000000); (367958180297746302#100000000000000000000); (896058736696703856#100000000000000000000); (504756364214287766#100000000000000000000); (-513993225660832933#100000000000000000000); (-108765634774687015#10000000000000000000); (-555844774591691314#100000000000000000000); (555844774591691314#100000000000000000000); (108765634774687015#10000000000000000000); (513993225660832933#100000000000000000000); (-504756364214287766#100000000000000000000); (-896058736696703856#100000000000000000000); (-367958180297746302#100000000000000000000); (340629675159442161#100000000000000000000); (395200624762348005#100000000000000000000)];
  [(217571408540215593#100000000000000000000); (788342493165305929#1000000000000000000000); (-362390554887324005#100000000000000000000); (-374372185032298566#100000000000000000000); (192620206767886215#100000000000000000000); (568770804072681732#100000000000000000000); (169328053421472429#100000000000000000000); (-490361982199163703#100000000000000000000); (-490361982199163703#100000000000000000000); (169328053421472429#100000000000000000000); (568770804072681732#100000000000000000000); (192620206767886215#100000000000000000000); (-374372185032298566#100000000000000000000); (-362390554887324005#100000000000000000000); (788342493165305929#1000000000000000000000); (217571408540215593#100000000000000000000)];
  [(-115160749784560823#100000000000000000000); (197508636954521191#1000000000000000000000); (228583222254442894#100000000000000000000); (411672251530240773#1000000000000000000000); (-27501029631182025#10000000000000000000); (-12892135743440067#10000000000000000000); (266732323173732175#100000000000000000000); (212340591526927572#100000000000000000000); (-212340591526927572#100000000000000000000); (-266732323173732175#100000000000000000000); (12892135743440067#10000000000000000000); (27501029631182025#10000000000000000000); (-411672251530240773#1000000000000000000000); (-228583222254442894#100000000000000000000); (-197508636954521191#1000000000000000000000); (115160749784560823#100000000000000000000)];
  [(588234380664847116#1000000000000000000000); (-423733267483219645#1000000000000000000000); (-10657096177598877#10000000000000000000); (740505209941692774#1000000000000000000000); (125441982783429017#100000000000000000000); (-99962609917765868#100000000000000000000); (-12824490960010657#10000000000000000000); (118835866198100131#100000000000000000000); (118835866198100131#100000000000000000000); (-12824490960010657#10000000000000000000); (-99962609917765868#100000000000000000000); (125441982783429017#100000000000000000000); (740505209941692774#1000000000000000000000); (-10657096177598877#10000000000000000000); (-423733267483219645#1000000000000000000000); (588234380664847116#1000000000000000000000)];
  [(-290176775324383053#1000000000000000000000); (36688882944728164#100000000000000000000); (330342696165508606#1000000000000000000000); (-706335731912006646#1000000000000000000000); (-440329454039197288#10000000000000000000000); (846171134149103144#1000000000000000000000); (-36959641911364621#100000000000000000000); (-716881100715432399#1000000000000000000000); (716881100715432399#1000000000000000000000); (36959641911364621#100000000000000000000); (-846171134149103144#1000000000000000000000); (440329454039197288#10000000000000000000000); (706335731912006646#1000000000000000000000); (-330342696165508606#1000000000000000000000); (-36688882944728164#100000000000000000000); (290176775324383053#1000000000000000000000)];
  [(137961675657311407#1000000000000000000000); (-246108802893488691#1000000000000000000000); (-404810760967268025#100000000000000000000000); (354430692714442766#1000000000000000000000); (-320087666253326751#1000000000000000000000); (-129101350983867019#1000000000000000000000); (465729057682765582#1000000000000000000000); (-258775498314165154#1000000000000000000000); (-258775498314165154#1000000000000000000000); (465729057682765582#1000000000000000000000); (-129101350983867019#1000000000000000000000); (-320087666253326751#1000000000000000000000); (354430692714442766#1000000000000000000000); (-404810760967268025#100000000000000000000000); (-246108802893488691#1000000000000000000000); (137961675657311407#1000000000000000000000)];
  [(-628706062103078418#10000000000000000000000); (142096651494187786#1000000000000000000000); (-87220307489189929#1000000000000000000000); (-855816237065935981#10000000000000000000000); (218878645148305217#1000000000000000000000); (-17097993991189024#100000000000000000000); (-35429138096882503#1000000000000000000000); (222932550402954565#1000000000000000000000); (-222932550402954565#1000000000000000000000); (35429138096882503#1000000000000000000000); (17097993991189024#100000000000000000000); (-218878645148305217#1000000000000000000000); (855816237065935981#10000000000000000000000); (87220307489189929#1000000000000000000000); (-142096651494187786#1000000000000000000000); (628706062103078418#10000000000000000000000)];
  [(27157725784333646#1000000000000000000000); (-726707087909024665#10000000000000000000000); (797508732335209046#10000000000000000000000); (-293524482968501299#10000000000000000000000); (-535494075265055554#10000000000000000000000); (116795770534878252#1000000000000000000000); (-116666340495211473#1000000000000000000000); (485345355567366825#10000000000000000000000); (485345355567366825#10000000000000000000000); (-116666340495211473#1000000000000000000000); (116795770534878252#1000000000000000000000); (-535494075265055554#10000000000000000000000); (-293524482968501299#10000000000000000000000); (797508732335209046#10000000000000000000000); (-726707087909024665#10000000000000000000000); (27157725784333646#1000000000000000000000)];
  [(-10871499713776996#1000000000000000000000); (327886387671934847#10000000000000000000000); (-480617867725408486#10000000000000000000000); (462100947989438279#10000000000000000000000); (-24935403651313297#1000000000000000000000); (-923291987400074539#100000000000000000000000); (437151180370509494#10000000000000000000000); (-651818480539907128#10000000000000000000000); (651818480539907128#10000000000000000000000); (-437151180370509494#10000000000000000000000); (923291987400074539#100000000000000000000000); (24935403651313297#1000000000000000000000); (-462100947989438279#10000000000000000000000); (480617867725408486#10000000000000000000000); (-327886387671934847#10000000000000000000000); (10871499713776996#1000000000000000000000)];
  [(382723696613302561#100000000000000000000000); (-125082643963708688#10000000000000000000000); (216138607761105079#10000000000000000000000); (-282498039346024346#10000000000000000000000); (303773337861156209#10000000000000000000000); (-270715705632258339#10000000000000000000000); (186665916406008306#10000000000000000000000); (-665538427476086873#100000000000000000000000); (-665538427476086873#100000000000000000000000); (186665916406008306#10000000000000000000000); (-270715705632258339#10000000000000000000000); (303773337861156209#10000000000000000000000); (-282498039346024346#10000000000000000000000); (216138607761105079#10000000000000000000000); (-125082643963708688#10000000000000000000000); (382723696613302561#100000000000000000000000)];
  [(-100040603222537638#100000000000000000000000); (342471046296962659#100000000000000000000000); (-64574746896937366#10000000000000000000000); (967161919547182019#100000000000000000000000); (-127148552559192332#10000000000000000000000); (152860519322498913#10000000000000000000000); (-1714313186124509#100000000000000000000); (181157204877564029#10000000000000000000000); (-181157204877564029#10000000000000000000000); (1714313186124509#100000000000000000000); (-152860519322498913#10000000000000000000000); (127148552559192332#10000000000000000000000); (-967161919547182019#100000000000000000000000); (64574746896937366#10000000000000000000000); (-342471046296962659#100000000000000000000000); (100040603222537638#100000000000000000000000)]].
(** util/legendre_data.h:18 *)
Definition nodes18 : list Q := [(-991565168420930947#1000000000000000000); (-955823949571397755#1000000000000000000); (-892602466497555739#1000000000000000000); (-803704958972523116#1000000000000000000); (-691687043060353208#1000000000000000000); (-559770831073947535#1000000000000000000); (-411751161462842646#1000000000000000000); (-25188622569150551#100000000000000000); (-847750130417353012#10000000000000000000); (847750130417353012#10000000000000000000); (25188622569150551#100000000000000000); (411751161462842646#1000000000000000000); (559770831073947535#1000000000000000000); (691687043060353208#1000000000000000000); (803704958972523116#1000000000000000000); (892602466497555739#1000000000000000000); (955823949571397755#1000000000000000000); (991565168420930947#1000000000000000000)].
(** util/legendre_data.h:19 *)
Definition weights18 : list (list Q) := [[(10808006763241684#1000000000000000000); (248572744474850834#10000000000000000000); (382128651274443966#10000000000000000000); (504710220531437558#10000000000000000000); (612776033557392191#10000000000000000000); (70321457335325322#1000000000000000000); (773423375631326234#10000000000000000000); (821382418729163614#10000000000000000000); (845711914815717959#10000000000000000000); (845711914815717959#10000000000000000000); (821382418729163614#10000000000000000000); (773423375631326234#10000000000000000000); (70321457335325322#1000000000000000000); (612776033557392191#10000000000000000000); (504710220531437558#10000000000000000000); (382128651274443966#10000000000000000000); (248572744474850834#10000000000000000000); (10808006763241684#1000000000000000000)];
  [(-160752645697324517#10000000000000000000); (-356387673569630645#10000000000000000000); (-511633464970429546#10000000000000000000); (-608457160627848174#10000000000000000000); (-635773864064346562#10000000000000000000); (-590458509223892993#10000000000000000000); (-47768695982806651#1000000000000000000); (-310342375954573182#10000000000000000000); (-107542857912080136#10000000000000000000); (107542857912080136#10000000000000000000); (310342375954573182#10000000000000000000); (47768695982806651#1000000000000000000); (590458509223892993#10000000000000000000); (635773864064346562#10000000000000000000); (608457160627848174#10000000000000000000); (511633464970429546#10000000000000000000); (356387673569630645#10000000000000000000); (160752645697324517#10000000000000000000)];
  [(131695862985961756#10000000000000000000); (270446876865576237#10000000000000000000); (332026208922592767#10000000000000000000); (295831158816529807#10000000000000000000); (166710659138783415#10000000000000000000); (-263572953171048913#100000000000000000000); (-237529409113503093#10000000000000000000); (-415650299516562667#10000000000000000000); (-517173762782271125#10000000000000000000); (-517173762782271125#10000000000000000000); (-415650299516562667#10000000000000000000); (-237529409113503093#10000000000000000000); (-263572953171048913#100000000000000000000); (166710659138783415#10000000000000000000); (295831158816529807#10000000000000000000); (332026208922592767#10000000000000000000); (270446876865576237#10000000000000000000); (131695862985961756#10000000000000000000)];
  [(-898342845511690942#100000000000000000000); (-162987662605865624#10000000000000000000); (-146793412153106294#10000000000000000000); (-407655684529531668#100000000000000000000); (112715188236507077#10000000000000000000); (246835806209006313#10000000000000000000); (299870662808993644#10000000000000000000); (242834717771677688#10000000000000000000); (929728704201932432#100000000000000000000); (-929728704201932432#100000000000000000000); (-242834717771677688#10000000000000000000); (-299870662808993644#10000000000000000000); (-246835806209006313#10000000000000000000); (-112715188236507077#10000000000000000000); (407655684529531668#100000000000000000000); (146793412153106294#10000000000000000000); (162987662605865624#10000000000000000000); (898342845511690942#100000000000000000000)];
  [(557637621695609523#100000000000000000000); (839851293866355275#100000000000000000000); (35347836461261762#10000000000000000000); (-629840903894849637#100000000000000000000); (-143973937126052676#10000000000000000000); (-146547332758453337#10000000000000000000); (-587399298369577391#100000000000000000000); (714694154946738188#100000000000000000000); (165679146598817125#10000000000000000000); (165679146598817125#10000000000000000000); (714694154946738188#100000000000000000000); (-587399298369577391#100000000000000000000); (-146547332758453337#10000000000000000000); (-143973937126052676#10000000000000000000); (-629840903894849637#100000000000000000000); (35347836461261762#10000000000000000000); (839851293866355275#100000000000000000000); (557637621695609523#100000000000000000000)];
  [(-32589112362679701#10000000000000000000); (-370778039213152337#100000000000000000000); (114283497792343344#100000000000000000000); (68494724160142537#10000000000000000000); (741186240875648742#100000000000000000000); (126592468091690386#100000000000000000000); (-676402076861805874#100000000000000000000); (-961218601817060886#100000000000000000000); (-44670041984227717#10000000000000000000); (44670041984227717#10000000000000000000); (961218601817060886#100000000000000000000); (676402076861805874#100000000000000000000); (-126592468091690386#100000000000000000000); (-741186240875648742#100000000000000000000); (-68494724160142537#10000000000000000000); (-114283497792343344#100000000000000000000); (370778039213152337#100000000000000000000); (32589112362679701#10000000000000000000)];
  [(182263193153166528#100000000000000000000); (131198712429488472#100000000000000000000); (-216881347176032111#100000000000000000000); (-406834662078171408#100000000000000000000); (-122136425862069748#100000000000000000000); (364230916029120114#100000000000000000000); (478482130244142467#100000000000000000000); (472242024846516681#1000000000000000000000); (-457546719224295157#100000000000000000000); (-457546719224295157#100000000000000000000); (472242024846516681#1000000000000000000000); (478482130244142467#100000000000000000000); (364230916029120114#100000000000000000000); (-122136425862069748#100000000000000000000); (-406834662078171408#100000000000000000000); (-216881347176032111#100000000000000000000); (131198712429488472#100000000000000000000); (182263193153166528#100000000000000000000)];
  [(-984068962104572303#1000000000000000000000); (-260159872192145211#1000000000000000000000); (174022070095714139#100000000000000000000); (150183473817977096#100000000000000000000); (-12606591300267861#10000000000000000000); (-255440422648828692#100000000000000000000); (-134381562617757745#1000000000000000000000); (268130787474791793#100000000000000000000); (172088481770522976#100000000000000000000); (-172088481770522976#100000000000000000000); (-268130787474791793#100000000000000000000); (134381562617757745#1000000000000000000000); (255440422648828692#100000000000000000000); (12606591300267861#10000000000000000000); (-150183473817977096#100000000000000000000); (-174022070095714139#100000000000000000000); (260159872192145211#1000000000000000000000); (984068962104572303#1000000000000000000000)];
  [(515376153520960366#1000000000000000000000); (-111095282769596016#1000000000000000000000); (-103000234376713602#100000000000000000000); (-118689682448185168#1000000000000000000000); (127586107636560129#100000000000000000000); (477337984743592448#1000000000000000000000); (-13099449401135863#10000000000000000000); (-852684516855919313#1000000000000000000000); (115384155132427214#100000000000000000000); (115384155132427214#100000000000000000000); (-852684516855919313#1000000000000000000000); (-13099449401135863#10000000000000000000); (477337984743592448#1000000000000000000000); (127586107636560129#100000000000000000000); (-118689682448185168#1000000000000000000000); (-103000234376713602#100000000000000000000); (-111095282769596016#1000000000000000000000); (515376153520960366#1000000000000000000000)];
  [(-262422355492233904#1000000000000000000000); (18531702553313035#100000000000000000000); (480619544453806648#1000000000000000000000); (-322047653660576532#1000000000000000000000); (-576671963218867029#1000000000000000000000); (436973167750114282#1000000000000000000000); (607162346903816103#1000000000000000000000); (-528026834643560636#1000000000000000000000); (-587648414539469154#1000000000000000000000); (587648414539469154#1000000000000000000000); (528026834643560636#1000000000000000000000); (-607162346903816103#1000000000000000000000); (-436973167750114282#1000000000000000000000); (576671963218867029#1000000000000000000000); (322047653660576532#1000000000000000000000); (-480619544453806648#1000000000000000000000); (-18531702553313035#100000000000000000000); (262422355492233904#1000000000000000000000)];
  [(129975056042625821#1000000000000000000000); (-155109020237981035#1000000000000000000000); (-164172237173618393#1000000000000000000000); (304761611060663658#1000000000000000000000); (64206022729314006#1000000000000000000000); (-389506955985655591#1000000000000000000000); (101587846156005183#1000000000000000000000); (376648958537498472#1000000000000000000000); (-268391281128851316#1000000000000000000000); (-268391281128851316#1000000000000000000000); (376648958537498472#1000000000000000000000); (101587846156005183#1000000000000000000000); (-389506955985655591#1000000000000000000000); (64206022729314006#1000000000000000000000); (304761611060663658#1000000000000000000000); (-164172237173618393#1000000000000000000000); (-155109020237981035#1000000000000000000000); (129975056042625821#1000000000000000000000)];
  [(-625393248109434337#10000000000000000000000); (104011517950725831#1000000000000000000000); (209736125411927918#10000000000000000000000); (-167470355370365285#1000000000000000000000); (112224637867321553#1000000000000000000000); (10772540692409059#100000000000000000000); (-210772500375383618#1000000000000000000000); (460854613014708221#10000000000000000000000); (185460702790619657#1000000000000000000000); (-185460702790619657#1000000000000000000000); (-460854613014708221#10000000000000000000000); (210772500375383618#1000000000000000000000); (-10772540692409059#100000000000000000000); (-112224637867321553#1000000000000000000000); (167470355370365285#1000000000000000000000); (-209736125411927918#10000000000000000000000); (-104011517950725831#1000000000000000000000); (625393248109434337#10000000000000000000000)];
  [(291361771173879439#10000000000000000000000); (-612426134102810122#10000000000000000000000); (25287908752808193#1000000000000000000000); (570606644890609651#10000000000000000000000); (-983751989799367749#10000000000000000000000); (43450193756244094#1000000000000000000000); (626869595563390864#10000000000000000000000); (-114848384076999478#1000000000000000000000); (568442927953767134#10000000000000000000000); (568442927953767134#10000000000000000000000); (-114848384076999478#1000000000000000000000); (626869595563390864#10000000000000000000000); (43450193756244094#1000000000000000000000); (-983751989799367749#10000000000000000000000); (570606644890609651#10000000000000000000000); (25287908752808193#1000000000000000000000); (-612426134102810122#10000000000000000000000); (291361771173879439#10000000000000000000000)];
  [(-13059496971129639#1000000000000000000000); (326115524421162356#10000000000000000000000); (-291220202526722901#10000000000000000000000); (-22555594590816985#10000000000000000000000); (402599679290781731#10000000000000000000000); (-544407554108882111#10000000000000000000000); (30294729131689289#1000000000000000000000); (175566791139571998#10000000000000000000000); (-552461835097838709#10000000000000000000000); (552461835097838709#10000000000000000000000); (-175566791139571998#10000000000000000000000); (-30294729131689289#1000000000000000000000); (544407554108882111#10000000000000000000000); (-402599679290781731#10000000000000000000000); (22555594590816985#10000000000000000000000); (291220202526722901#10000000000000000000000); (-326115524421162356#10000000000000000000000); (13059496971129639#1000000000000000000000)];
  [(556586255826242222#100000000000000000000000); (-15792388490569726#1000000000000000000000); (201130855037396678#10000000000000000000000); (-134880744605143143#10000000000000000000000); (-235080880849178459#100000000000000000000000); (19862199971309469#1000000000000000000000); (-298000886547814218#10000000000000000000000); (263468047302685964#10000000000000000000000); (-104565923492231274#10000000000000000000000); (-104565923492231274#10000000000000000000000); (263468047302685964#10000000000000000000000); (-298000886547814218#10000000000000000000000); (19862199971309469#1000000000000000000000); (-235080880849178459#100000000000000000000000); (-134880744605143143#10000000000000000000000); (201130855037396678#10000000000000000000000); (-15792388490569726#1000000000000000000000); (556586255826242222#100000000000000000000000)];
  [(-220422393175620563#100000000000000000000000); (686122608447752145#100000000000000000000000); (-107495975416957419#10000000000000000000000); (118060472389988269#10000000000000000000000); (-910547031853337513#100000000000000000000000); (309585606099270174#100000000000000000000000); (456323315053227177#100000000000000000000000); (-115610664521646962#10000000000000000000000); (157165271119726761#10000000000000000000000); (-157165271119726761#10000000000000000000000); (115610664521646962#10000000000000000000000); (-456323315053227177#100000000000000000000000); (-309585606099270174#100000000000000000000000); (910547031853337513#100000000000000000000000); (-118060472389988269#10000000000000000000000); (107495975416957419#10000000000000000000000); (-686122608447752145#100000000000000000000000); (220422393175620563#100000000000000000000000)];
  [(769502725185119987#1000000000000000000000000); (-255119474386635849#100000000000000000000000); (45307527741125575#10000000000000000000000); (-618779245502207962#100000000000000000000000); (712191937421225425#100000000000000000000000); (-708442533025858427#100000000000000000000000); (601012802148767343#100000000000000000000000); (-40236852726961416#10000000000000000000000); (141479490684552756#100000000000000000000000); (141479490684552756#100000000000000000000000); (-40236852726961416#10000000000000000000000); (601012802148767343#100000000000000000000000); (-708442533025858427#100000000000000000000000); (712191937421225425#100000000000000000000000); (-618779245502207962#100000000000000000000000); (45307527741125575#10000000000000000000000); (-255119474386635849#100000000000000000000000); (769502725185119987#1000000000000000000000000)];
  [(-199891296818930567#1000000000000000000000000); (687496812743951431#1000000000000000000000000); (-130742645464527114#100000000000000000000000); (198309754286132022#100000000000000000000000); (-265211528336540206#100000000000000000000000); (325986300130951714#100000000000000000000000); (-375970591743352549#100000000000000000000000); (411457109064173241#100000000000000000000000); (-429863537461982207#100000000000000000000000); (429863537461982207#100000000000000000000000); (-411457109064173241#100000000000000000000000); (375970591743352549#100000000000000000000000); (-325986300130951714#100000000000000000000000); (265211528336540206#100000000000000000000000); (-198309754286132022#100000000000000000000000); (130742645464527114#100000000000000000000000); (-687496812743951431#1000000000000000000000000); (199891296818930567#1000000000000000000000000)]].
(** util/legendre.h:15-35: row i holds the coefficients of the i-th shifted Legendre polynomial, constant first. *)
Definition shifted_legendre : list (list Z) := ([[1; 0; 0; 0; 0; 0; 0; 0; 0; 0; 0; 0; 0; 0; 0; 0];
  [(-1); 2; 0; 0; 0; 0; 0; 0; 0; 0; 0; 0; 0; 0; 0; 0];
  [1; (-6); 6; 0; 0; 0; 0; 0; 0; 0; 0; 0; 0; 0; 0; 0];
  [(-1); 12; (-30); 20; 0; 0; 0; 0; 0; 0; 0; 0; 0; 0; 0; 0];
  [1; (-20); 90; (-140); 70; 0; 0; 0; 0; 0; 0; 0; 0; 0; 0; 0];
  [(-1); 30; (-210); 560; (-630); 252; 0; 0; 0; 0; 0; 0; 0; 0; 0; 0];
  [1; (-42); 420; (-1680); 3150; (-2772); 924; 0; 0; 0; 0; 0; 0; 0; 0; 0];
  [(-1); 56; (-756); 4200; (-11550); 16632; (-12012); 3432; 0; 0; 0; 0; 0; 0; 0; 0];
  [1; (-72); 1260; (-9240); 34650; (-72072); 84084; (-51480); 12870; 0; 0; 0; 0; 0; 0; 0];
  [(-1); 90; (-1980); 18480; (-90090); 252252; (-420420); 411840; (-218790); 48620; 0; 0; 0; 0; 0; 0];
  [1; (-110); 2970; (-34320); 210210; (-756756); 1681680; (-2333760); 1969110; (-923780); 184756; 0; 0; 0; 0; 0];
  [(-1); 132; (-4290); 60060; (-450450); 2018016; (-5717712); 10501920; (-12471030); 9237800; (-3879876); 705432; 0; 0; 0; 0];
  [1; (-156); 6006; (-100100); 900900; (-4900896); 17153136; (-39907296); 62355150; (-64664600); 42678636; (-16224936); 2704156; 0; 0; 0];
  [(-1); 182; (-8190); 160160; (-1701700); 11027016; (-46558512); 133024320; (-261891630); 355655300; (-327202876); 194699232; (-67603900); 10400600; 0; 0];
  [1; (-210); 10920; (-247520); 3063060; (-23279256); 116396280; (-399072960); 960269310; (-1636014380); 1963217256; (-1622493600); 878850700; (-280816200); 40116600; 0];
  [(-1); 240; (-14280); 371280; (-5290740); 46558512; (-271591320); 1097450640; (-3155170590); 6544057520; (-9816086280); 10546208400; (-7909656300); 3931426800; (-1163381400); 155117520]])%Z.

(** nodes<Scalar, k> and weights<Scalar, k> as functions of k (util/legendre.h:11-14). *)
Definition nodes (k : nat) : list Q :=
  match k with 2%nat => nodes2 | 4%nat => nodes4 | 6%nat => nodes6 | 8%nat => nodes8 | 10%nat => nodes10
  | 12%nat => nodes12 | 14%nat => nodes14 | 16%nat => nodes16 | 18%nat => nodes18 | _ => [] end.
Definition weights (k : nat) : list (list Q) :=
  match k with 2%nat => weights2 | 4%nat => weights4 | 6%nat => weights6 | 8%nat => weights8 | 10%nat => weights10
  | 12%nat => weights12 | 14%nat => weights14 | 16%nat => weights16 | 18%nat => weights18 | _ => [] end.
