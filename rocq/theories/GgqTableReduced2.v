(** Tables of the generalized Gauss rules, transcribed from the C++ sources (decimal literals as exact rationals).
    Sources: /repo/queso/quadrature/integration_points_1d/precomputed_ggq_rules_{optimal,reduced1,reduced2}.cpp and
    gauss_legendre_integration_points.cpp. Generated file; every table cites its lines. *)
From Coq Require Import QArith List.
Import ListNotations.
Local Open Scope Q_scope.

(** precomputed_ggq_rules_reduced2.cpp:19-45 *)
Definition S_2_0_base_even : list (list (Q * Q)) := [
  [(0.3333333333333370, 0.7500000000000053); (1.2222222222222270, 0.9642857142857159); (2.2121212121212142, 0.9972527472527469); (3.2113821138211396, 0.9998017446471051);
   (4.2113289760348609, 0.9999857606652619); (5.2113251605370694, 0.9999989776347376); (6.2113248865947162, 0.9999999265973376); (7.2113248669265282, 0.9999999947299241);
   (8.2113248655144169, 0.9999999996216260); (9.2113248654130295, 0.9999999999728333); (10.211324865405752, 0.9999999999980502); (11.211324865405229, 0.9999999999998590);
   (12.211324865405192, 0.9999999999999882); (13.211324865405187, 0.9999999999999996)];
  [(0.2113248654051887, 1.0000000000000000)];
  [((-1.2886751345948078), 1.0000000000000027); ((-0.3799178428257939), 0.7886751345948098)]].
(** precomputed_ggq_rules_reduced2.cpp:47-72 *)
Definition S_2_0_base_odd : list (list (Q * Q)) := [
  [(0.3333333333333370, 0.7500000000000053); (1.2222222222222270, 0.9642857142857159); (2.2121212121212142, 0.9972527472527469); (3.2113821138211396, 0.9998017446471051);
   (4.2113289760348609, 0.9999857606652619); (5.2113251605370694, 0.9999989776347376); (6.2113248865947162, 0.9999999265973376); (7.2113248669265282, 0.9999999947299241);
   (8.2113248655144169, 0.9999999996216260); (9.2113248654130295, 0.9999999999728333); (10.211324865405752, 0.9999999999980502); (11.211324865405229, 0.9999999999998590);
   (12.211324865405192, 0.9999999999999882); (13.211324865405187, 0.9999999999999996)];
  [(0.2113248654051887, 1.0000000000000000)];
  [((-0.0000000000000000), 0.5773502691896105)]].
(** precomputed_ggq_rules_reduced2.cpp:74-98 *)
Definition S_4_1_base_even : list (list (Q * Q)) := [
  [(0.1692090819876588, 0.4113445407548102); (0.7141610829854759, 0.6048397443542948); (1.3402701505133132, 0.6614526649285688); (2.0008147177467093, 0.6473675287086823);
   (2.6666691683021102, 0.6749963785625228); (3.3333336905458983, 0.6749992766459292); (4.0000000412168735, 0.6499998660451992); (4.6666666666666723, 0.6749999999999946);
   (5.3333333333333384, 0.6750000000000023)];
  [(0.0000000000000000, 0.6499999999999909); (0.6666666666666679, 0.6750000000000023); (1.3333333333333339, 0.6750000000000060)];
  [((-1.0000000000000000), 0.6500000000000000); ((-0.3333333333333333), 0.6750000000000000)]].
(** precomputed_ggq_rules_reduced2.cpp:100-130 *)
Definition S_4_1_base_even_2 : list (list (Q * Q)) := [
  [(0.1692090819876588, 0.4113445407548102); (0.7141610829854759, 0.6048397443542948); (1.3402701505133132, 0.6614526649285688); (2.0008147177467093, 0.6473675287086823);
   (2.6666691683021102, 0.6749963785625228); (3.3333336905458983, 0.6749992766459292); (4.0000000412168735, 0.6499998660451992); (4.6666666666666723, 0.6749999999999946);
   (5.3333333333333384, 0.6750000000000023)];
  [(0.0000000000000000, 0.6499999999999909); (0.6666666666666679, 0.6750000000000023); (1.3333333333333339, 0.6750000000000060)];
  [((-5.5000000000000071), 0.6499999999999792); ((-4.8333333333333783), 0.6749999999999071); ((-4.1666666666669805), 0.6749999999995382); ((-3.5000002902732774), 0.6499990566137979);
   ((-2.8333358490190399), 0.6749949058037343); ((-2.1666842975171807), 0.6749744427932157); ((-1.5021736997028086), 0.6430446967882004); ((-0.8513130671389835), 0.6418297426559864);
   ((-0.2726599831851182), 0.5401571553456341)]].
(** precomputed_ggq_rules_reduced2.cpp:133-165 *)
Definition S_4_1_base_odd : list (list (Q * Q)) := [
  [(0.1692090819876588, 0.4113445407548102); (0.7141610829854759, 0.6048397443542948); (1.3402701505133132, 0.6614526649285688); (2.0008147177467093, 0.6473675287086823);
   (2.6666691683021102, 0.6749963785625228); (3.3333336905458983, 0.6749992766459292); (4.0000000412168735, 0.6499998660451992); (4.6666666666666723, 0.6749999999999946);
   (5.3333333333333384, 0.6750000000000023)];
  [(0.0000000000000000, 0.6499999999999909); (0.6666666666666679, 0.6750000000000023); (1.3333333333333339, 0.6750000000000060)];
  [((-6.5000000000000018), 0.6499999999999901); ((-5.8333333333333393), 0.6750000000000020); ((-5.1666666666666661), 0.6750000000000058); ((-4.5000000002023626), 0.6499999993423077);
   ((-3.8333333350871719), 0.6749999964484868); ((-3.1666666789439031), 0.6749999822408161); ((-2.5000569150445884), 0.6498151011128205); ((-1.8338259819138969), 0.6740049625066586);
   ((-1.1701502494202920), 0.6698472907881330); ((-0.5338179958671638), 0.5646660008940997); ((-0.0000000000000000), 0.5333333333333475)]].
(** precomputed_ggq_rules_reduced2.cpp:168-226 *)
Definition S_6_2_base_odd : list (list (Q * Q)) := [
  [(0.0990753049261918, 0.2466917491984454); (0.4593981395375434, 0.4384611139643027); (0.9094007975838164, 0.4489635029922912); (1.3818355233240884, 0.5041789560104182);
   (1.8850355371655398, 0.4867032971245457); (2.3768007017020318, 0.5106365572434155); (2.8836806531579868, 0.4888747497338207); (3.3765368278905390, 0.5109875735265973);
   (3.8836106404122281, 0.4889872315103893); (4.3765232397735057, 0.5110056835053225); (4.8836070377711485, 0.4889930201907193); (5.3765225406950954, 0.5110066153148917);
   (5.8836068524302858, 0.4889933179960750); (6.3765225047307554, 0.5110066632524118); (6.8836068428953769, 0.4889933333167540); (7.3765225028805608, 0.5110066657185705);
   (7.8836068424048511, 0.4889933341049294); (8.3765225027853774, 0.5110066658454424); (8.8836068423796135, 0.4889933341454775); (9.3765225027804799, 0.5110066658519686);
   (9.8836068423783168, 0.4889933341475641); (10.376522502780227, 0.5110066658523043); (10.883606842378251, 0.4889933341476710)];
  [(0.3765225027802135, 0.5110066658523233); (0.8836068423782475, 0.4889933341476766)];
  [((-12.123477497219784), 0.5110066658523214); ((-11.616393157621754), 0.4889933341476743); ((-11.123477497219791), 0.5110066658523135); ((-10.616393157621782), 0.4889933341476280);
   ((-10.123477497219919), 0.5110066658521648); ((-9.6163931576222303), 0.4889933341469131); ((-9.1234774972218950), 0.5110066658498260); ((-8.6163931576292611), 0.4889933341356547);
   ((-8.1234774972529955), 0.5110066658129873); ((-7.6163931577400028), 0.4889933339583423); ((-7.1234774977428010), 0.5110066652328024); ((-6.6163931594841045), 0.4889933311657711);
   ((-6.1234775054569219), 0.5110066560952699); ((-5.6163931869526422), 0.4889932871844833); ((-5.1234776269496435), 0.5110065121847298); ((-4.6163936195644339), 0.4889925945088577);
   ((-4.1234795403785362), 0.5110042456931729); ((-3.6164004327095078), 0.4889816859850412); ((-3.1235096738954482), 0.5109685527195378); ((-2.6165076794282491), 0.4888100556303404);
   ((-2.1239838050888621), 0.5104071323376741); ((-1.6181830097608944), 0.4861494445950436); ((-1.1313332633619808), 0.5017642420862913); ((-0.6417404789511174), 0.4533498994810962);
   ((-0.2157477199005519), 0.4240823306497334)]].
(** precomputed_ggq_rules_reduced2.cpp:228-285 *)
Definition S_6_2_base_even : list (list (Q * Q)) := [
  [(0.0990753049261918, 0.2466917491984454); (0.4593981395375434, 0.4384611139643027); (0.9094007975838164, 0.4489635029922912); (1.3818355233240884, 0.5041789560104182);
   (1.8850355371655398, 0.4867032971245457); (2.3768007017020318, 0.5106365572434155); (2.8836806531579868, 0.4888747497338207); (3.3765368278905390, 0.5109875735265973);
   (3.8836106404122281, 0.4889872315103893); (4.3765232397735057, 0.5110056835053225); (4.8836070377711485, 0.4889930201907193); (5.3765225406950954, 0.5110066153148917);
   (5.8836068524302858, 0.4889933179960750); (6.3765225047307554, 0.5110066632524118); (6.8836068428953769, 0.4889933333167540); (7.3765225028805608, 0.5110066657185705);
   (7.8836068424048511, 0.4889933341049294); (8.3765225027853774, 0.5110066658454424); (8.8836068423796135, 0.4889933341454775); (9.3765225027804799, 0.5110066658519686);
   (9.8836068423783168, 0.4889933341475641); (10.376522502780227, 0.5110066658523043); (10.883606842378251, 0.4889933341476710)];
  [(0.3765225027802135, 0.5110066658523233); (0.8836068423782475, 0.4889933341476766)];
  [((-11.623477497219786), 0.5110066658523196); ((-11.116393157621759), 0.4889933341476650); ((-10.623477497219818), 0.5110066658522837); ((-10.116393157621871), 0.4889933341474841);
   ((-9.6234774972203176), 0.5110066658516926); ((-9.1163931576236443), 0.4889933341446474); ((-8.6234774972281549), 0.5110066658424073); ((-8.1163931576515579), 0.4889933340999540);
   ((-7.6234774973516117), 0.5110066656961687); ((-7.1163931580911743), 0.4889933333960632); ((-6.6234774992960225), 0.5110066633929773); ((-6.1163931650148448), 0.4889933223102200);
   ((-5.6234775299192598), 0.5110066271191447); ((-5.1163932740583497), 0.4889931477151246); ((-4.6234780122160685), 0.5110060558291554); ((-4.1163949914126582), 0.4889903979930557);
   ((-3.6234856079808324), 0.5109970585436571); ((-3.1164220351245646), 0.4889471024937990); ((-2.6236052079294012), 0.5108554023417311); ((-2.1168470745035037), 0.4882679363267630);
   ((-1.6254816102060054), 0.5086360811092284); ((-1.1233336793262189), 0.4782235093354931); ((-0.6530273814961162), 0.4773803721271868); ((-0.1947408577179103), 0.4122129596374497)]].
(** precomputed_ggq_rules_reduced2.cpp:364-888 *)
Definition S_2_0_precomputed : list (list (Q * Q)) := [
  [(0.2113248654051872, 0.5000000000000000); (0.7886751345948128, 0.5000000000000000)];
  [(0.1666666666666669, 0.3750000000000002); (0.5000000000000000, 0.2499999999999997); (0.8333333333333331, 0.3750000000000002)];
  [(0.1111111111111111, 0.2500000000000001); (0.3757740012500117, 0.2499999999999999); (0.6242259987499884, 0.2499999999999999); (0.8888888888888890, 0.2500000000000001)];
  [(0.0833333333333334, 0.1875000000000001); (0.3055555555555556, 0.2410714285714286); (0.5000000000000000, 0.1428571428571426); (0.6944444444444444, 0.2410714285714286);
   (0.9166666666666666, 0.1875000000000001)];
  [(0.0666666666666666, 0.1500000000000001); (0.2444444444444444, 0.1928571428571429); (0.4241213089360672, 0.1571428571428571); (0.5758786910639329, 0.1571428571428571);
   (0.7555555555555555, 0.1928571428571429); (0.9333333333333333, 0.1500000000000001)];
  [(0.0555555555555556, 0.1250000000000001); (0.2037037037037037, 0.1607142857142857); (0.3686868686868688, 0.1662087912087913); (0.5000000000000000, 0.0961538461538459);
   (0.6313131313131313, 0.1662087912087913); (0.7962962962962963, 0.1607142857142857); (0.9444444444444444, 0.1250000000000001)];
  [(0.0476190476190476, 0.1071428571428573); (0.1746031746031746, 0.1377551020408163); (0.3160173160173161, 0.1424646781789639); (0.4457314043740501, 0.1126373626373625);
   (0.5542685956259500, 0.1126373626373625); (0.6839826839826839, 0.1424646781789639); (0.8253968253968254, 0.1377551020408163); (0.9523809523809524, 0.1071428571428573)];
  [(0.0416666666666667, 0.0937500000000003); (0.1527777777777778, 0.1205357142857139); (0.2765151515151516, 0.1246565934065933); (0.4014227642276424, 0.1249752180808885);
   (0.5000000000000000, 0.0721649484536081); (0.5985772357723576, 0.1249752180808885); (0.7234848484848485, 0.1246565934065933); (0.8472222222222221, 0.1205357142857139);
   (0.9583333333333333, 0.0937500000000003)];
  [(0.0370370370370371, 0.0833333333333334); (0.1358024691358025, 0.1071428571428571); (0.2457912457912458, 0.1108058608058608); (0.3568202348690154, 0.1110890827385674);
   (0.4577872069033641, 0.0876288659793813); (0.5422127930966359, 0.0876288659793813); (0.6431797651309846, 0.1110890827385674); (0.7542087542087541, 0.1108058608058608);
   (0.8641975308641975, 0.1071428571428571); (0.9629629629629630, 0.0833333333333334)];
  [(0.0333333333333333, 0.0750000000000001); (0.1222222222222222, 0.0964285714285715); (0.2212121212121212, 0.0997252747252746); (0.3211382113821138, 0.0999801744647107);
   (0.4211328976034859, 0.0999985760665262); (0.5000000000000000, 0.0577348066298341); (0.5788671023965142, 0.0999985760665262); (0.6788617886178862, 0.0999801744647107);
   (0.7787878787878789, 0.0997252747252746); (0.8777777777777779, 0.0964285714285715); (0.9666666666666667, 0.0750000000000001)];
  [(0.0303030303030302, 0.0681818181818184); (0.1111111111111111, 0.0876623376623377); (0.2011019283746557, 0.0906593406593406); (0.2919438285291944, 0.0908910676951914);
   (0.3828480887304417, 0.0909077964241146); (0.4654620319438140, 0.0716976393771973); (0.5345379680561860, 0.0716976393771973); (0.6171519112695584, 0.0909077964241146);
   (0.7080561714708056, 0.0908910676951914); (0.7988980716253444, 0.0906593406593406); (0.8888888888888890, 0.0876623376623377); (0.9696969696969697, 0.0681818181818184)];
  [(0.0277777777777779, 0.0624999999999999); (0.1018518518518518, 0.0803571428571429); (0.1843434343434344, 0.0831043956043956); (0.2676151761517614, 0.0833168120539254);
   (0.3509440813362382, 0.0833321467221054); (0.4342770967114224, 0.0833332481362282); (0.5000000000000000, 0.0481125092524053); (0.5657229032885775, 0.0833332481362282);
   (0.6490559186637619, 0.0833321467221054); (0.7323848238482387, 0.0833168120539254); (0.8156565656565656, 0.0831043956043956); (0.8981481481481483, 0.0803571428571429);
   (0.9722222222222221, 0.0624999999999999)];
  [(0.0256410256410257, 0.0576923076923079); (0.0940170940170941, 0.0741758241758242); (0.1701631701631702, 0.0767117497886728); (0.2470293933708569, 0.0769078265113158);
   (0.3239483827719122, 0.0769219815896355); (0.4008711661951591, 0.0769229982795952); (0.4707755516244382, 0.0606673119626487); (0.5292244483755618, 0.0606673119626487);
   (0.5991288338048408, 0.0769229982795952); (0.6760516172280878, 0.0769219815896355); (0.7529706066291432, 0.0769078265113158); (0.8298368298368298, 0.0767117497886728);
   (0.9059829059829060, 0.0741758241758242); (0.9743589743589745, 0.0576923076923079)];
  [(0.0238095238095239, 0.0535714285714287); (0.0873015873015874, 0.0688775510204081); (0.1580086580086581, 0.0712323390894819); (0.2293844367015099, 0.0714144103319361);
   (0.3008092125739185, 0.0714275543332330); (0.3722375114669336, 0.0714284984024813); (0.4436660633281938, 0.0714285661855242); (0.5000000000000000, 0.0412393041310135);
   (0.5563339366718062, 0.0714285661855242); (0.6277624885330664, 0.0714284984024813); (0.6991907874260815, 0.0714275543332330); (0.7706155632984901, 0.0714144103319361);
   (0.8419913419913420, 0.0712323390894819); (0.9126984126984127, 0.0688775510204081); (0.9761904761904762, 0.0535714285714287)];
  [(0.0222222222222222, 0.0500000000000001); (0.0814814814814815, 0.0642857142857143); (0.1474747474747475, 0.0664835164835165); (0.2140921409214093, 0.0666534496431404);
   (0.2807552650689906, 0.0666657173776841); (0.3474216773691380, 0.0666665985089825); (0.4140883257729809, 0.0666666617731558); (0.4746721438783534, 0.0525783419278063);
   (0.5253278561216466, 0.0525783419278063); (0.5859116742270191, 0.0666666617731558); (0.6525783226308620, 0.0666665985089825); (0.7192447349310094, 0.0666657173776841);
   (0.7859078590785908, 0.0666534496431404); (0.8525252525252526, 0.0664835164835165); (0.9185185185185185, 0.0642857142857143); (0.9777777777777777, 0.0500000000000001)];
  [(0.0208333333333332, 0.0468750000000000); (0.0763888888888889, 0.0602678571428572); (0.1382575757575757, 0.0623282967032967); (0.2007113821138211, 0.0624876090404441);
   (0.2632080610021785, 0.0624991100415788); (0.3257078225335668, 0.0624999361021711); (0.3882078054121695, 0.0624999954123336); (0.4507078041829080, 0.0624999996706206);
   (0.5000000000000000, 0.0360843917733961); (0.5492921958170920, 0.0624999996706206); (0.6117921945878305, 0.0624999954123336); (0.6742921774664331, 0.0624999361021711);
   (0.7367919389978215, 0.0624991100415788); (0.7992886178861789, 0.0624876090404441); (0.8617424242424242, 0.0623282967032967); (0.9236111111111112, 0.0602678571428572);
   (0.9791666666666669, 0.0468750000000000)];
  [(0.0196078431372549, 0.0441176470588237); (0.0718954248366012, 0.0567226890756302); (0.1301247771836007, 0.0586619263089851); (0.1889048302247728, 0.0588118673321827);
   (0.2477252338844034, 0.0588226918038389); (0.3065485388551218, 0.0588234692726316); (0.3653720521526301, 0.0588235250939610); (0.4241955804074428, 0.0588235291017603);
   (0.4776518916027105, 0.0463926549521864); (0.5223481083972894, 0.0463926549521864); (0.5758044195925572, 0.0588235291017603); (0.6346279478473699, 0.0588235250939610);
   (0.6934514611448783, 0.0588234692726316); (0.7522747661155965, 0.0588226918038389); (0.8110951697752272, 0.0588118673321827); (0.8698752228163993, 0.0586619263089851);
   (0.9281045751633987, 0.0567226890756302); (0.9803921568627451, 0.0441176470588237)];
  [(0.0185185185185185, 0.0416666666666668); (0.0679012345679013, 0.0535714285714286); (0.1228956228956229, 0.0554029304029304); (0.1784101174345077, 0.0555445413692836);
   (0.2339627208908255, 0.0555547644814034); (0.2895180644742817, 0.0555554987574854); (0.3450736048108174, 0.0555555514776299); (0.4006291592736959, 0.0555555552627736);
   (0.4561847147508007, 0.0555555555345347); (0.5000000000000000, 0.0320750149517271); (0.5438152852491992, 0.0555555555345347); (0.5993708407263041, 0.0555555552627736);
   (0.6549263951891826, 0.0555555514776299); (0.7104819355257184, 0.0555554987574854); (0.7660372791091745, 0.0555547644814034); (0.8215898825654924, 0.0555445413692836);
   (0.8771043771043772, 0.0554029304029304); (0.9320987654320988, 0.0535714285714286); (0.9814814814814815, 0.0416666666666668)];
  [(0.0175438596491228, 0.0394736842105264); (0.0643274853801169, 0.0507518796992481); (0.1164274322169060, 0.0524869866975130); (0.1690201112537441, 0.0526211444551108);
   (0.2216488934755189, 0.0526308295086980); (0.2742802716072142, 0.0526315251386704); (0.3269118361365638, 0.0526315750840704); (0.3795434140487646, 0.0526315786699960);
   (0.4321749929218113, 0.0526315789274539); (0.4800043240620718, 0.0415092176087128); (0.5199956759379283, 0.0415092176087128); (0.5678250070781888, 0.0526315789274539);
   (0.6204565859512354, 0.0526315786699960); (0.6730881638634362, 0.0526315750840704); (0.7257197283927859, 0.0526315251386704); (0.7783511065244813, 0.0526308295086980);
   (0.8309798887462558, 0.0526211444551108); (0.8835725677830940, 0.0524869866975130); (0.9356725146198831, 0.0507518796992481); (0.9824561403508771, 0.0394736842105264)];
  [(0.0166666666666667, 0.0375000000000000); (0.0611111111111112, 0.0482142857142858); (0.1106060606060605, 0.0498626373626374); (0.1605691056910570, 0.0499900872323555);
   (0.2105664488017430, 0.0499992880332630); (0.2605662580268535, 0.0499999488817368); (0.3105662443297356, 0.0499999963298667); (0.3605662433463263, 0.0499999997364962);
   (0.4105662432757206, 0.0499999999810812); (0.4605662432706514, 0.0499999999986418); (0.5000000000000000, 0.0288675134592710); (0.5394337567293486, 0.0499999999986418);
   (0.5894337567242793, 0.0499999999810812); (0.6394337566536737, 0.0499999997364962); (0.6894337556702644, 0.0499999963298667); (0.7394337419731466, 0.0499999488817368);
   (0.7894335511982571, 0.0499992880332630); (0.8394308943089430, 0.0499900872323555); (0.8893939393939394, 0.0498626373626374); (0.9388888888888889, 0.0482142857142858);
   (0.9833333333333333, 0.0375000000000000)];
  [(0.0158730158730159, 0.0357142857142858); (0.0582010582010582, 0.0459183673469388); (0.1053391053391053, 0.0474882260596547); (0.1529229578010066, 0.0476096068879574);
   (0.2005394750492790, 0.0476183695554886); (0.2481583409779557, 0.0476189989349875); (0.2957773755521292, 0.0476190441236827); (0.3433964222345965, 0.0476190473680917);
   (0.3910154697864007, 0.0476190476010297); (0.4386345174006205, 0.0476190476177540); (0.4819086741511702, 0.0375559587901290); (0.5180913258488298, 0.0375559587901290);
   (0.5613654825993795, 0.0476190476177540); (0.6089845302135993, 0.0476190476010297); (0.6566035777654035, 0.0476190473680917); (0.7042226244478708, 0.0476190441236827);
   (0.7518416590220443, 0.0476189989349875); (0.7994605249507211, 0.0476183695554886); (0.8470770421989934, 0.0476096068879574); (0.8946608946608946, 0.0474882260596547);
   (0.9417989417989417, 0.0459183673469388); (0.9841269841269842, 0.0357142857142858)];
  [(0.0151515151515152, 0.0340909090909092); (0.0555555555555556, 0.0438311688311688); (0.1005509641873277, 0.0453296703296703); (0.1459719142645972, 0.0454455338475958);
   (0.1914240443652208, 0.0454538982120574); (0.2368784163880486, 0.0454544989833970); (0.2823329493906688, 0.0454545421180608); (0.3277874939512058, 0.0454545452149966);
   (0.3732420393415644, 0.0454545454373466); (0.4186965847915014, 0.0454545454533107); (0.4641511302457160, 0.0454545454544568); (0.5000000000000000, 0.0262431940540598);
   (0.5358488697542839, 0.0454545454544568); (0.5813034152084987, 0.0454545454533107); (0.6267579606584357, 0.0454545454373466); (0.6722125060487942, 0.0454545452149966);
   (0.7176670506093313, 0.0454545421180608); (0.7631215836119514, 0.0454544989833970); (0.8085759556347792, 0.0454538982120574); (0.8540280857354028, 0.0454455338475958);
   (0.8994490358126722, 0.0453296703296703); (0.9444444444444444, 0.0438311688311688); (0.9848484848484849, 0.0340909090909092)];
  [(0.0144927536231884, 0.0326086956521740); (0.0531400966183576, 0.0419254658385093); (0.0961791831357050, 0.0433588150979456); (0.1396253092965713, 0.0434696410716133);
   (0.1831012598276026, 0.0434776417680549); (0.2265793548059596, 0.0434782164189017); (0.2700576037649877, 0.0434782576781448); (0.3135358637794143, 0.0434782606404317);
   (0.3570141245875834, 0.0434782608531142); (0.4004923854527404, 0.0434782608683840); (0.4439706463219891, 0.0434782608694803); (0.4834818329206187, 0.0342902232432462);
   (0.5165181670793814, 0.0342902232432462); (0.5560293536780110, 0.0434782608694803); (0.5995076145472596, 0.0434782608683840); (0.6429858754124166, 0.0434782608531142);
   (0.6864641362205858, 0.0434782606404317); (0.7299423962350123, 0.0434782576781448); (0.7734206451940404, 0.0434782164189017); (0.8168987401723974, 0.0434776417680549);
   (0.8603746907034288, 0.0434696410716133); (0.9038208168642951, 0.0433588150979456); (0.9468599033816425, 0.0419254658385093); (0.9855072463768116, 0.0326086956521740)];
  [(0.0138888888888888, 0.0312500000000002); (0.0509259259259260, 0.0401785714285714); (0.0921717171717172, 0.0415521978021978); (0.1338075880758808, 0.0416584060269627);
   (0.1754720406681191, 0.0416660733610526); (0.2171385483557112, 0.0416666240681141); (0.2588052036081130, 0.0416666636082223); (0.3004718694552720, 0.0416666664470803);
   (0.3421385360631006, 0.0416666666509010); (0.3838052027255429, 0.0416666666655348); (0.4254718693919062, 0.0416666666665854); (0.4671385360585512, 0.0416666666666609);
   (0.5000000000000000, 0.0240562612162332); (0.5328614639414488, 0.0416666666666609); (0.5745281306080938, 0.0416666666665854); (0.6161947972744571, 0.0416666666655348);
   (0.6578614639368995, 0.0416666666509010); (0.6995281305447281, 0.0416666664470803); (0.7411947963918870, 0.0416666636082223); (0.7828614516442888, 0.0416666240681141);
   (0.8245279593318809, 0.0416660733610526); (0.8661924119241192, 0.0416584060269627); (0.9078282828282829, 0.0415521978021978); (0.9490740740740741, 0.0401785714285714);
   (0.9861111111111112, 0.0312500000000002)];
  [(0.0133333333333334, 0.0300000000000001); (0.0488888888888890, 0.0385714285714286); (0.0884848484848485, 0.0398901098901099); (0.1284552845528456, 0.0399920697858842);
   (0.1684531590413943, 0.0399994304266105); (0.2084530064214828, 0.0399999591053895); (0.2484529954637885, 0.0399999970638935); (0.2884529946770610, 0.0399999997891970);
   (0.3284529946205766, 0.0399999999848650); (0.3684529946165212, 0.0399999999989134); (0.4084529946162300, 0.0399999999999220); (0.4484529946162091, 0.0399999999999944);
   (0.4848032862869683, 0.0315470053837919); (0.5151967137130318, 0.0315470053837919); (0.5515470053837910, 0.0399999999999944); (0.5915470053837699, 0.0399999999999220);
   (0.6315470053834789, 0.0399999999989134); (0.6715470053794235, 0.0399999999848650); (0.7115470053229389, 0.0399999997891970); (0.7515470045362115, 0.0399999970638935);
   (0.7915469935785172, 0.0399999591053895); (0.8315468409586056, 0.0399994304266105); (0.8715447154471545, 0.0399920697858842); (0.9115151515151515, 0.0398901098901099);
   (0.9511111111111111, 0.0385714285714286); (0.9866666666666667, 0.0300000000000001)];
  [(0.0128205128205128, 0.0288461538461540); (0.0470085470085470, 0.0370879120879123); (0.0850815850815850, 0.0383558748943363); (0.1235146966854283, 0.0384539132556578);
   (0.1619741913859561, 0.0384609907948179); (0.2004355830975796, 0.0384614991397975); (0.2388971110228736, 0.0384615356383591); (0.2773586487279433, 0.0384615382588433);
   (0.3158201871351698, 0.0384615384469856); (0.3542817255928088, 0.0384615384604936); (0.3927432640540673, 0.0384615384614636); (0.4312048025155856, 0.0384615384615330);
   (0.4696663409771227, 0.0384615384615381); (0.5000000000000000, 0.0222057795842160); (0.5303336590228772, 0.0384615384615381); (0.5687951974844143, 0.0384615384615330);
   (0.6072567359459327, 0.0384615384614636); (0.6457182744071912, 0.0384615384604936); (0.6841798128648302, 0.0384615384469856); (0.7226413512720566, 0.0384615382588433);
   (0.7611028889771264, 0.0384615356383591); (0.7995644169024204, 0.0384614991397975); (0.8380258086140440, 0.0384609907948179); (0.8764853033145716, 0.0384539132556578);
   (0.9149184149184150, 0.0383558748943363); (0.9529914529914530, 0.0370879120879123); (0.9871794871794872, 0.0288461538461540)];
  [(0.0123456790123457, 0.0277777777777779); (0.0452674897119342, 0.0357142857142856); (0.0819304152637487, 0.0369352869352870); (0.1189400782896717, 0.0370296942461890);
   (0.1559751472605503, 0.0370365096542690); (0.1930120429828544, 0.0370369991716569); (0.2300490698738784, 0.0370370343184199); (0.2670861061824639, 0.0370370368418492);
   (0.3041231431672005, 0.0370370370230232); (0.3411601802004825, 0.0370370370360309); (0.3781972172372501, 0.0370370370369648); (0.4152342542742677, 0.0370370370370319);
   (0.4522712913113033, 0.0370370370370367); (0.4859289687842298, 0.0292101901701781); (0.5140710312157702, 0.0292101901701781); (0.5477287086886967, 0.0370370370370367);
   (0.5847657457257323, 0.0370370370370319); (0.6218027827627500, 0.0370370370369648); (0.6588398197995174, 0.0370370370360309); (0.6958768568327995, 0.0370370370230232);
   (0.7329138938175360, 0.0370370368418492); (0.7699509301261217, 0.0370370343184199); (0.8069879570171455, 0.0370369991716569); (0.8440248527394497, 0.0370365096542690);
   (0.8810599217103283, 0.0370296942461890); (0.9180695847362513, 0.0369352869352870); (0.9547325102880658, 0.0357142857142856); (0.9876543209876544, 0.0277777777777779)];
  [(0.0119047619047619, 0.0267857142857144); (0.0436507936507937, 0.0344387755102040); (0.0790043290043290, 0.0356161695447410); (0.1146922183507549, 0.0357072051659680);
   (0.1504046062869592, 0.0357137771666165); (0.1861187557334667, 0.0357142492012406); (0.2218330316640969, 0.0357142830927621); (0.2575473166759474, 0.0357142855260688);
   (0.2932616023398006, 0.0357142857007723); (0.3289758880504654, 0.0357142857133155); (0.3646901737644910, 0.0357142857142161); (0.4004044594787581, 0.0357142857142807);
   (0.4361187451930424, 0.0357142857142854); (0.4718330309073281, 0.0357142857142858); (0.5000000000000000, 0.0206196524710578); (0.5281669690926719, 0.0357142857142858);
   (0.5638812548069575, 0.0357142857142854); (0.5995955405212419, 0.0357142857142807); (0.6353098262355089, 0.0357142857142161); (0.6710241119495347, 0.0357142857133155);
   (0.7067383976601995, 0.0357142857007723); (0.7424526833240527, 0.0357142855260688); (0.7781669683359030, 0.0357142830927621); (0.8138812442665333, 0.0357142492012406);
   (0.8495953937130408, 0.0357137771666165); (0.8853077816492451, 0.0357072051659680); (0.9209956709956710, 0.0356161695447410); (0.9563492063492064, 0.0344387755102040);
   (0.9880952380952381, 0.0267857142857144)];
  [(0.0114942528735632, 0.0258620689655174); (0.0421455938697318, 0.0332512315270936); (0.0762800417972832, 0.0343880257673362); (0.1107373142696944, 0.0344759222292106);
   (0.1452182405529262, 0.0344822676091470); (0.1797008676047266, 0.0344827233667151); (0.2141836167791281, 0.0344827560895634); (0.2486663747216044, 0.0344827584389629);
   (0.2831491332936006, 0.0344827586076423); (0.3176318919107941, 0.0344827586197529); (0.3521146505312329, 0.0344827586206225); (0.3865974091519044, 0.0344827586206847);
   (0.4210801677725928, 0.0344827586206892); (0.4555629263932824, 0.0344827586206897); (0.4868993847301450, 0.0271956942963728); (0.5131006152698551, 0.0271956942963728);
   (0.5444370736067177, 0.0344827586206897); (0.5789198322274073, 0.0344827586206892); (0.6134025908480957, 0.0344827586206847); (0.6478853494687672, 0.0344827586206225);
   (0.6823681080892059, 0.0344827586197529); (0.7168508667063995, 0.0344827586076423); (0.7513336252783956, 0.0344827584389629); (0.7858163832208720, 0.0344827560895634);
   (0.8202991323952734, 0.0344827233667151); (0.8547817594470738, 0.0344822676091470); (0.8892626857303055, 0.0344759222292106); (0.9237199582027168, 0.0343880257673362);
   (0.9578544061302682, 0.0332512315270936); (0.9885057471264368, 0.0258620689655174)]].
(** precomputed_ggq_rules_reduced2.cpp:890-1461 *)
Definition S_4_1_precomputed : list (list (Q * Q)) := [
  [(0.1127016653792578, 0.2777777777777771); (0.5000000000000000, 0.4444444444444459); (0.8872983346207423, 0.2777777777777771)];
  [(0.0840015957404974, 0.2041661856725904); (0.3536674364363113, 0.2958338143274097); (0.6463325635636886, 0.2958338143274097); (0.9159984042595026, 0.2041661856725904)];
  [(0.0553079595389641, 0.1343836701290835); (0.2320081270127601, 0.1907192105293529); (0.4106981135795873, 0.1748971193415636); (0.5893018864204127, 0.1748971193415636);
   (0.7679918729872398, 0.1907192105293529); (0.9446920404610359, 0.1343836701290835)];
  [(0.0423022704969140, 0.1028361351887020); (0.1785402707463676, 0.1512099360885742); (0.3350675376283279, 0.1653631662321409); (0.5000000000000000, 0.1611815249811657);
   (0.6649324623716721, 0.1653631662321409); (0.8214597292536323, 0.1512099360885742); (0.9576977295030860, 0.1028361351887020)];
  [(0.0338256470496926, 0.0822284884842790); (0.1427394131071868, 0.1207817402256454); (0.2673835465338997, 0.1313059881339376); (0.3934343482548174, 0.1123504498228044);
   (0.5000000000000000, 0.1066666666666672); (0.6065656517451826, 0.1123504498228044); (0.7326164534661004, 0.1313059881339376); (0.8572605868928133, 0.1207817402256454);
   (0.9661743529503075, 0.0822284884842790)];
  [(0.0282015136646093, 0.0685574234591346); (0.1190268471642450, 0.1008066240590495); (0.2233783584188851, 0.1102421108214273); (0.3334691127117553, 0.1078945657191661);
   (0.4444448018122920, 0.1124992759412225); (0.5555551981877079, 0.1124992759412225); (0.6665308872882447, 0.1078945657191661); (0.7766216415811148, 0.1102421108214273);
   (0.8809731528357549, 0.1008066240590495); (0.9717984863353908, 0.0685574234591346)];
  [(0.0241727018273491, 0.0587634453972662); (0.1020228729884465, 0.0864053983334328); (0.1914661702265409, 0.0944918080343504); (0.2855213768377192, 0.0914840770918623);
   (0.3783838475515739, 0.0916899632365686); (0.4610485738306974, 0.0771653079065196); (0.5389514261693026, 0.0771653079065196); (0.6216161524484261, 0.0916899632365686);
   (0.7144786231622809, 0.0914840770918623); (0.8085338297734591, 0.0944918080343504); (0.8979771270115536, 0.0864053983334328); (0.9758272981726509, 0.0587634453972662)];
  [(0.0211511352484570, 0.0514180675943510); (0.0892701353731838, 0.0756049680442872); (0.1675337688141639, 0.0826815831160705); (0.2501018397183385, 0.0809209410885865);
   (0.3333336460377636, 0.0843745473203148); (0.4166667113182367, 0.0843749095807406); (0.5000000000000000, 0.0812499665112991); (0.5833332886817634, 0.0843749095807406);
   (0.6666663539622365, 0.0843745473203148); (0.7498981602816616, 0.0809209410885865); (0.8324662311858361, 0.0826815831160705); (0.9107298646268163, 0.0756049680442872);
   (0.9788488647515431, 0.0514180675943510)];
  [(0.0188010091097396, 0.0457049489727567); (0.0793512314428302, 0.0672044160393660); (0.1489189056125902, 0.0734947405476181); (0.2223063849341778, 0.0719091116812246);
   (0.2962417983127736, 0.0748890922972168); (0.3699833406102173, 0.0744274083067184); (0.4406868941858704, 0.0627406525254699); (0.5000000000000000, 0.0592592592592591);
   (0.5593131058141295, 0.0627406525254699); (0.6300166593897828, 0.0744274083067184); (0.7037582016872265, 0.0748890922972168); (0.7776936150658221, 0.0719091116812246);
   (0.8510810943874098, 0.0734947405476181); (0.9206487685571698, 0.0672044160393660); (0.9811989908902604, 0.0457049489727567)];
  [(0.0169209081987656, 0.0411344540754807); (0.0714161082985470, 0.0604839744354298); (0.1340270150513310, 0.0661452664928564); (0.2000814717746707, 0.0647367528708691);
   (0.2666669168302107, 0.0674996378562519); (0.3333333690545894, 0.0674999276645926); (0.4000000041216871, 0.0649999866045206); (0.4666666666666672, 0.0674999999999990);
   (0.5333333333333329, 0.0674999999999990); (0.5999999958783130, 0.0649999866045206); (0.6666666309454107, 0.0674999276645926); (0.7333330831697893, 0.0674996378562519);
   (0.7999185282253293, 0.0647367528708691); (0.8659729849486689, 0.0661452664928564); (0.9285838917014529, 0.0604839744354298); (0.9830790918012345, 0.0411344540754807)];
  [(0.0153826438170597, 0.0373949582504371); (0.0649237348168610, 0.0549854313049360); (0.1218427409557556, 0.0601320604480514); (0.1818922205117582, 0.0588515074701435);
   (0.2424242409943288, 0.0613628442849668); (0.3030287327364478, 0.0613612473562063); (0.3634387583802788, 0.0584585965214755); (0.4226079029873653, 0.0583481584232708);
   (0.4752127288013529, 0.0491051959405125); (0.5247872711986472, 0.0491051959405125); (0.5773920970126348, 0.0583481584232708); (0.6365612416197213, 0.0584585965214755);
   (0.6969712672635522, 0.0613612473562063); (0.7575757590056712, 0.0613628442849668); (0.8181077794882419, 0.0588515074701435); (0.8781572590442445, 0.0601320604480514);
   (0.9350762651831390, 0.0549854313049360); (0.9846173561829403, 0.0373949582504371)];
  [(0.0141007568323047, 0.0342787117295673); (0.0595134235821226, 0.0504033120295248); (0.1116891792094427, 0.0551210554107138); (0.1667345598122257, 0.0539472940590575);
   (0.2222224306918423, 0.0562496982135433); (0.2777778075454911, 0.0562499397204938); (0.3333333367680726, 0.0541666555037672); (0.3888888888888893, 0.0562499999999993);
   (0.4444444444444446, 0.0562500000000000); (0.5000000000000000, 0.0541666666666664); (0.5555555555555555, 0.0562500000000000); (0.6111111111111107, 0.0562499999999993);
   (0.6666666632319275, 0.0541666555037672); (0.7222221924545089, 0.0562499397204938); (0.7777775693081577, 0.0562496982135433); (0.8332654401877743, 0.0539472940590575);
   (0.8883108207905573, 0.0551210554107138); (0.9404865764178775, 0.0504033120295248); (0.9858992431676954, 0.0342787117295673)];
  [(0.0130160832298197, 0.0316418877503698); (0.0549354679219592, 0.0465261341810998); (0.1030977038856393, 0.0508809742252742); (0.1539088244264110, 0.0497975021576721);
   (0.2051283974268905, 0.0519227980783031); (0.2564102829450959, 0.0519230199163695); (0.3076879327839014, 0.0499857667020221); (0.3589364629297005, 0.0518465355774351);
   (0.4099884423522853, 0.0515267146760099); (0.4589370772409875, 0.0434358462226238); (0.5000000000000000, 0.0410256410256416); (0.5410629227590126, 0.0434358462226238);
   (0.5900115576477148, 0.0515267146760099); (0.6410635370702996, 0.0518465355774351); (0.6923120672160987, 0.0499857667020221); (0.7435897170549042, 0.0519230199163695);
   (0.7948716025731094, 0.0519227980783031); (0.8460911755735890, 0.0497975021576721); (0.8969022961143608, 0.0508809742252742); (0.9450645320780409, 0.0465261341810998);
   (0.9869839167701804, 0.0316418877503698)];
  [(0.0120863629991182, 0.0293817529110576); (0.0510115059275336, 0.0432028388824498); (0.0957335821795223, 0.0472466189234688); (0.1429153369819078, 0.0462405377649065);
   (0.1904763691644363, 0.0482140270401801); (0.2380952636104209, 0.0482142340461374); (0.2857142886583480, 0.0464285618603718); (0.3333333333333338, 0.0482142857142852);
   (0.3809523809523811, 0.0482142857142857); (0.4285714285714285, 0.0464285714285712); (0.4761904761904761, 0.0482142857142859); (0.5238095238095238, 0.0482142857142859);
   (0.5714285714285714, 0.0464285714285712); (0.6190476190476190, 0.0482142857142857); (0.6666666666666663, 0.0482142857142852); (0.7142857113416521, 0.0464285618603718);
   (0.7619047363895790, 0.0482142340461374); (0.8095236308355637, 0.0482140270401801); (0.8570846630180923, 0.0462405377649065); (0.9042664178204778, 0.0472466189234688);
   (0.9489884940724664, 0.0432028388824498); (0.9879136370008818, 0.0293817529110576)];
  [(0.0112806054658437, 0.0274229693836538); (0.0476107388656981, 0.0403226496236199); (0.0893513433675541, 0.0440968443285710); (0.1333876478497802, 0.0431578352472451);
   (0.1777779445534716, 0.0449997585708302); (0.2222222460363773, 0.0449999517763724); (0.2666666500629117, 0.0433332615105899); (0.3111109433987309, 0.0449996603869154);
   (0.3555543801655214, 0.0449982961862144); (0.3998550866864795, 0.0428696464525467); (0.4432457955240677, 0.0427886495103987); (0.4818226677876589, 0.0360104770230425);
   (0.5181773322123412, 0.0360104770230425); (0.5567542044759323, 0.0427886495103987); (0.6001449133135205, 0.0428696464525467); (0.6444456198344786, 0.0449982961862144);
   (0.6888890566012692, 0.0449996603869154); (0.7333333499370882, 0.0433332615105899); (0.7777777539636228, 0.0449999517763724); (0.8222220554465285, 0.0449997585708302);
   (0.8666123521502198, 0.0431578352472451); (0.9106486566324459, 0.0440968443285710); (0.9523892611343019, 0.0403226496236199); (0.9887193945341564, 0.0274229693836538)];
  [(0.0105755676242284, 0.0257090337971755); (0.0446350676865920, 0.0378024840221435); (0.0837668844070820, 0.0413407915580354); (0.1250509198591693, 0.0404604705442931);
   (0.1666668230188818, 0.0421872736601574); (0.2083333556591185, 0.0421874547903705); (0.2500000025760544, 0.0406249916278252); (0.2916666666666670, 0.0421874999999995);
   (0.3333333333333334, 0.0421875000000001); (0.3750000000000000, 0.0406249999999997); (0.4166666666666666, 0.0421875000000001); (0.4583333333333334, 0.0421875000000002);
   (0.5000000000000000, 0.0406249999999997); (0.5416666666666666, 0.0421875000000002); (0.5833333333333334, 0.0421875000000001); (0.6250000000000001, 0.0406249999999997);
   (0.6666666666666666, 0.0421875000000001); (0.7083333333333330, 0.0421874999999995); (0.7499999974239455, 0.0406249916278252); (0.7916666443408816, 0.0421874547903705);
   (0.8333331769811182, 0.0421872736601574); (0.8749490801408307, 0.0404604705442931); (0.9162331155929180, 0.0413407915580354); (0.9553649323134080, 0.0378024840221435);
   (0.9894244323757716, 0.0257090337971755)];
  [(0.0099534754110386, 0.0241967376914594); (0.0420094754697336, 0.0355788084914294); (0.0788394206184304, 0.0389089802899156); (0.1176949833968653, 0.0380804428652170);
   (0.1568628922530653, 0.0397056693272068); (0.1960784523850526, 0.0397058398027016); (0.2352941200596768, 0.0382352861992658); (0.2745098038184023, 0.0397058821440278);
   (0.3137254894738879, 0.0397058813082831); (0.3529378285267889, 0.0382244177125194); (0.3921278834168297, 0.0396473507356856); (0.4311676323870417, 0.0394027818110662);
   (0.4685989414195788, 0.0332156471114183); (0.5000000000000000, 0.0313725490196078); (0.5314010585804212, 0.0332156471114183); (0.5688323676129584, 0.0394027818110662);
   (0.6078721165831702, 0.0396473507356856); (0.6470621714732112, 0.0382244177125194); (0.6862745105261121, 0.0397058813082831); (0.7254901961815976, 0.0397058821440278);
   (0.7647058799403232, 0.0382352861992658); (0.8039215476149475, 0.0397058398027016); (0.8431371077469347, 0.0397056693272068); (0.8823050166031348, 0.0380804428652170);
   (0.9211605793815697, 0.0389089802899156); (0.9579905245302663, 0.0355788084914294); (0.9900465245889614, 0.0241967376914594)];
  [(0.0094005045548696, 0.0228524744863780); (0.0396756157214149, 0.0336022080196833); (0.0744594528062952, 0.0367473702738092); (0.1111563732081505, 0.0359648627060383);
   (0.1481482871278949, 0.0374997988090288); (0.1851852050303274, 0.0374999598136624); (0.2222222245120484, 0.0361111036691780); (0.2592592592592595, 0.0374999999999996);
   (0.2962962962962964, 0.0375000000000000); (0.3333333333333335, 0.0361111111111109); (0.3703703703703703, 0.0375000000000001); (0.4074074074074075, 0.0375000000000002);
   (0.4444444444444445, 0.0361111111111109); (0.4814814814814815, 0.0375000000000001); (0.5185185185185186, 0.0375000000000001); (0.5555555555555556, 0.0361111111111109);
   (0.5925925925925924, 0.0375000000000002); (0.6296296296296297, 0.0375000000000001); (0.6666666666666666, 0.0361111111111109); (0.7037037037037036, 0.0375000000000000);
   (0.7407407407407406, 0.0374999999999996); (0.7777777754879517, 0.0361111036691780); (0.8148147949696726, 0.0374999598136624); (0.8518517128721050, 0.0374997988090288);
   (0.8888436267918495, 0.0359648627060383); (0.9255405471937049, 0.0367473702738092); (0.9603243842785851, 0.0336022080196833); (0.9905994954451305, 0.0228524744863780)];
  [(0.0089057411572450, 0.0216497126713056); (0.0375874254202880, 0.0318336707554893); (0.0705405342375428, 0.0348132981541350); (0.1053060377761427, 0.0340719751951942);
   (0.1403510088580058, 0.0355261251875010); (0.1754386152918891, 0.0355262777182065); (0.2105263179587824, 0.0342105192655362); (0.2456140350877173, 0.0355263157894685);
   (0.2807017543859482, 0.0355263157894494); (0.3157894584066698, 0.0342104766638843); (0.3508770605779454, 0.0355260476738807); (0.3859639843412012, 0.0355249706733272);
   (0.4209382263314311, 0.0338444577256949); (0.4551940490979483, 0.0337805127713674); (0.4856494745692042, 0.0284293239655599); (0.5143505254307957, 0.0284293239655599);
   (0.5448059509020517, 0.0337805127713674); (0.5790617736685688, 0.0338444577256949); (0.6140360156587990, 0.0355249706733272); (0.6491229394220546, 0.0355260476738807);
   (0.6842105415933303, 0.0342104766638843); (0.7192982456140518, 0.0355263157894494); (0.7543859649122828, 0.0355263157894685); (0.7894736820412176, 0.0342105192655362);
   (0.8245613847081109, 0.0355262777182065); (0.8596489911419942, 0.0355261251875010); (0.8946939622238574, 0.0340719751951942); (0.9294594657624573, 0.0348132981541350);
   (0.9624125745797121, 0.0318336707554893); (0.9910942588427549, 0.0216497126713056)];
  [(0.0084604540993826, 0.0205672270377399); (0.0357080541492732, 0.0302419872177151); (0.0670135075256656, 0.0330726332464283); (0.1000407358873354, 0.0323683764354345);
   (0.1333334584151053, 0.0337498189281260); (0.1666666845272946, 0.0337499638322963); (0.2000000020608436, 0.0324999933022603); (0.2333333333333336, 0.0337499999999996);
   (0.2666666666666668, 0.0337500000000001); (0.3000000000000000, 0.0324999999999997); (0.3333333333333333, 0.0337500000000002); (0.3666666666666666, 0.0337500000000000);
   (0.4000000000000000, 0.0325000000000000); (0.4333333333333333, 0.0337500000000000); (0.4666666666666667, 0.0337500000000001); (0.5000000000000000, 0.0324999999999997);
   (0.5333333333333333, 0.0337500000000001); (0.5666666666666667, 0.0337500000000000); (0.6000000000000000, 0.0325000000000000); (0.6333333333333334, 0.0337500000000000);
   (0.6666666666666667, 0.0337500000000002); (0.7000000000000000, 0.0324999999999997); (0.7333333333333333, 0.0337500000000001); (0.7666666666666664, 0.0337499999999996);
   (0.7999999979391564, 0.0324999933022603); (0.8333333154727054, 0.0337499638322963); (0.8666665415848948, 0.0337498189281260); (0.8999592641126647, 0.0323683764354345);
   (0.9329864924743345, 0.0330726332464283); (0.9642919458507269, 0.0302419872177151); (0.9915395459006174, 0.0205672270377399)];
  [(0.0080575753327455, 0.0195878352740384); (0.0340076706183558, 0.0288018925882998); (0.0638223881196815, 0.0314977459489793); (0.0952768913212719, 0.0308270251766043);
   (0.1269842461096242, 0.0321426846934533); (0.1587301757402807, 0.0321428226974250); (0.1904761924388986, 0.0309523745735812); (0.2222222222222225, 0.0321428571428568);
   (0.2539682539682541, 0.0321428571428571); (0.2857142857046494, 0.0309523809210623); (0.3174603173768016, 0.0321428569737375); (0.3492063486217189, 0.0321428562971816);
   (0.3809496707121624, 0.0309435762434679); (0.4126749532421955, 0.0320954744050790); (0.4442785595514147, 0.0318974900375300); (0.4745800954348970, 0.0268888571854335);
   (0.5000000000000000, 0.0253968253968259); (0.5254199045651029, 0.0268888571854335); (0.5557214404485853, 0.0318974900375300); (0.5873250467578045, 0.0320954744050790);
   (0.6190503292878377, 0.0309435762434679); (0.6507936513782812, 0.0321428562971816); (0.6825396826231985, 0.0321428569737375); (0.7142857142953507, 0.0309523809210623);
   (0.7460317460317459, 0.0321428571428571); (0.7777777777777776, 0.0321428571428568); (0.8095238075611014, 0.0309523745735812); (0.8412698242597193, 0.0321428226974250);
   (0.8730157538903758, 0.0321426846934533); (0.9047231086787281, 0.0308270251766043); (0.9361776118803184, 0.0314977459489793); (0.9659923293816443, 0.0288018925882998);
   (0.9919424246672545, 0.0195878352740384)];
  [(0.0076913219085297, 0.0186974791252184); (0.0324618674084304, 0.0274927156524681); (0.0609213704778778, 0.0300660302240257); (0.0909461235339412, 0.0294257967594859);
   (0.1212122349228230, 0.0306816535710236); (0.1515151677520861, 0.0306817853020876); (0.1818181836916760, 0.0295454484566001); (0.2121212121212123, 0.0306818181818179);
   (0.2424242424242425, 0.0306818181818183); (0.2727272727272728, 0.0295454545454543); (0.3030303030303030, 0.0306818181818183); (0.3333333333333334, 0.0306818181818183);
   (0.3636363636363636, 0.0295454545454543); (0.3939393939393939, 0.0306818181818183); (0.4242424242424244, 0.0306818181818183); (0.4545454545454545, 0.0295454545454544);
   (0.4848484848484848, 0.0306818181818183); (0.5151515151515152, 0.0306818181818183); (0.5454545454545454, 0.0295454545454544); (0.5757575757575757, 0.0306818181818183);
   (0.6060606060606062, 0.0306818181818183); (0.6363636363636364, 0.0295454545454543); (0.6666666666666666, 0.0306818181818183); (0.6969696969696970, 0.0306818181818183);
   (0.7272727272727273, 0.0295454545454543); (0.7575757575757575, 0.0306818181818183); (0.7878787878787876, 0.0306818181818179); (0.8181818163083241, 0.0295454484566001);
   (0.8484848322479139, 0.0306817853020876); (0.8787877650771769, 0.0306816535710236); (0.9090538764660587, 0.0294257967594859); (0.9390786295221223, 0.0300660302240257);
   (0.9675381325915696, 0.0274927156524681); (0.9923086780914703, 0.0186974791252184)];
  [(0.0073569166081589, 0.0178845452502090); (0.0310504818689334, 0.0262973801893173); (0.0582726152397092, 0.0287588115186333); (0.0869919442498569, 0.0281464142916821);
   (0.1159421377522656, 0.0293476686331530); (0.1449275517628650, 0.0293477946367794); (0.1739130452702988, 0.0282608637410958); (0.2028985507246379, 0.0293478260869562);
   (0.2318840579710146, 0.0293478260869566); (0.2608695652173911, 0.0282608695652164); (0.2898550724637661, 0.0293478260869526); (0.3188405797101311, 0.0293478260869366);
   (0.3478260743359445, 0.0282608285484261); (0.3768114848252592, 0.0293476046001623); (0.4057963348905575, 0.0293467149040529); (0.4346881000129215, 0.0279584650777478);
   (0.4629863883852616, 0.0279056409850427); (0.4881452181223862, 0.0234850937106799); (0.5118547818776138, 0.0234850937106799); (0.5370136116147384, 0.0279056409850427);
   (0.5653118999870785, 0.0279584650777478); (0.5942036651094426, 0.0293467149040529); (0.6231885151747408, 0.0293476046001623); (0.6521739256640555, 0.0282608285484261);
   (0.6811594202898689, 0.0293478260869366); (0.7101449275362339, 0.0293478260869526); (0.7391304347826089, 0.0282608695652164); (0.7681159420289854, 0.0293478260869566);
   (0.7971014492753621, 0.0293478260869562); (0.8260869547297013, 0.0282608637410958); (0.8550724482371350, 0.0293477946367794); (0.8840578622477344, 0.0293476686331530);
   (0.9130080557501431, 0.0281464142916821); (0.9417273847602907, 0.0287588115186333); (0.9689495181310666, 0.0262973801893173); (0.9926430833918410, 0.0178845452502090)];
  [(0.0070503784161523, 0.0171393558647836); (0.0297567117910613, 0.0252016560147624); (0.0558445896047214, 0.0275605277053570); (0.0833672799061129, 0.0269736470295286);
   (0.1111112153459211, 0.0281248491067717); (0.1388889037727457, 0.0281249698602469); (0.1666666683840363, 0.0270833277518835); (0.1944444444444446, 0.0281249999999997);
   (0.2222222222222224, 0.0281250000000001); (0.2500000000000001, 0.0270833333333331); (0.2777777777777778, 0.0281250000000001); (0.3055555555555556, 0.0281250000000001);
   (0.3333333333333333, 0.0270833333333331); (0.3611111111111110, 0.0281250000000002); (0.3888888888888890, 0.0281250000000001); (0.4166666666666667, 0.0270833333333331);
   (0.4444444444444444, 0.0281250000000001); (0.4722222222222223, 0.0281250000000001); (0.5000000000000000, 0.0270833333333331); (0.5277777777777778, 0.0281250000000001);
   (0.5555555555555556, 0.0281250000000001); (0.5833333333333333, 0.0270833333333331); (0.6111111111111110, 0.0281250000000001); (0.6388888888888890, 0.0281250000000002);
   (0.6666666666666667, 0.0270833333333331); (0.6944444444444444, 0.0281250000000001); (0.7222222222222222, 0.0281250000000001); (0.7500000000000000, 0.0270833333333331);
   (0.7777777777777777, 0.0281250000000001); (0.8055555555555554, 0.0281249999999997); (0.8333333316159637, 0.0270833277518835); (0.8611110962272545, 0.0281249698602469);
   (0.8888887846540788, 0.0281248491067717); (0.9166327200938872, 0.0269736470295286); (0.9441554103952786, 0.0275605277053570); (0.9702432882089387, 0.0252016560147624);
   (0.9929496215838477, 0.0171393558647836)];
  [(0.0067683632795062, 0.0164537816301923); (0.0285664433194188, 0.0241935897741719); (0.0536108060205324, 0.0264581065971425); (0.0800325887098683, 0.0258947011483477);
   (0.1066667667320844, 0.0269998551425007); (0.1333333476218357, 0.0269999710658369); (0.1600000016486748, 0.0259999946418083); (0.1866666666666669, 0.0269999999999996);
   (0.2133333333333334, 0.0269999999999999); (0.2400000000000000, 0.0260000000000000); (0.2666666666666667, 0.0270000000000000); (0.2933333333333333, 0.0270000000000000);
   (0.3199999999919054, 0.0259999999736925); (0.3466666665965133, 0.0269999998579394); (0.3733333328422437, 0.0269999992896324); (0.3999977233982164, 0.0259926040445132);
   (0.4266469607234443, 0.0269601985002662); (0.4531939900231883, 0.0267938916315251); (0.4786472801653135, 0.0225866400357645); (0.5000000000000000, 0.0213333333333333);
   (0.5213527198346865, 0.0225866400357645); (0.5468060099768117, 0.0267938916315251); (0.5733530392765558, 0.0269601985002662); (0.6000022766017835, 0.0259926040445132);
   (0.6266666671577562, 0.0269999992896324); (0.6533333334034868, 0.0269999998579394); (0.6800000000080947, 0.0259999999736925); (0.7066666666666667, 0.0270000000000000);
   (0.7333333333333333, 0.0270000000000000); (0.7600000000000000, 0.0260000000000000); (0.7866666666666666, 0.0269999999999999); (0.8133333333333331, 0.0269999999999996);
   (0.8399999983513251, 0.0259999946418084); (0.8666666523781643, 0.0269999710658370); (0.8933332332679157, 0.0269998551425007); (0.9199674112901317, 0.0258947011483478);
   (0.9463891939794675, 0.0264581065971425); (0.9714335566805812, 0.0241935897741718); (0.9932316367204937, 0.0164537816301923)]].
(** precomputed_ggq_rules_reduced2.cpp:1463-3715 *)
Definition S_6_2_precomputed : list (list (Q * Q)) := [
  [(0.0694318442029719, 0.1739274225687231); (0.3300094782075688, 0.3260725774312769); (0.6699905217924312, 0.3260725774312769); (0.9305681557970281, 0.1739274225687231)];
  [(0.0462127372182609, 0.1150241814446763); (0.2137978506000205, 0.2030726134378338); (0.4139622006490055, 0.1819032051174899); (0.5860377993509945, 0.1819032051174899);
   (0.7862021493999795, 0.2030726134378338); (0.9537872627817391, 0.1150241814446763)];
  [(0.0325092123323450, 0.0809355032343454); (0.1506179860251612, 0.1434976690388520); (0.2949149000847149, 0.1371362698156598); (0.4291938758886458, 0.1384305579111429);
   (0.5708061241113542, 0.1384305579111429); (0.7050850999152851, 0.1371362698156598); (0.8493820139748388, 0.1434976690388520); (0.9674907876676551, 0.0809355032343454)];
  [(0.0246743500615348, 0.0614357020936559); (0.1143880665168554, 0.1091255809737415); (0.2256962483337999, 0.1094400655199395); (0.3380344004213716, 0.1176185439661087);
   (0.4516228501881734, 0.1023801074465545); (0.5483771498118265, 0.1023801074465545); (0.6619655995786285, 0.1176185439661087); (0.7743037516662000, 0.1094400655199395);
   (0.8856119334831447, 0.1091255809737415); (0.9753256499384653, 0.0614357020936559)];
  [(0.0197962209047663, 0.0492910399788134); (0.0917875792865923, 0.0875944748749091); (0.1815412160208139, 0.0892041709450743); (0.2747970522897314, 0.0989931042677409);
   (0.3719430379274394, 0.0901945075467439); (0.4568852453898801, 0.0847227023867184); (0.5431147546101200, 0.0847227023867184); (0.6280569620725606, 0.0901945075467439);
   (0.7252029477102687, 0.0989931042677409); (0.8184587839791861, 0.0892041709450743); (0.9082124207134077, 0.0875944748749091); (0.9802037790952337, 0.0492910399788134)];
  [(0.0165086061641536, 0.0411053859515186); (0.0765470828930845, 0.0730563823828533); (0.1514953240874572, 0.0747023894092147); (0.2299728116229653, 0.0836367712948904);
   (0.3130182983890429, 0.0793189528196777); (0.3912070509149185, 0.0795010947099664); (0.4675537626451365, 0.0686790234318789); (0.5324462373548635, 0.0686790234318789);
   (0.6087929490850814, 0.0795010947099664); (0.6869817016109572, 0.0793189528196777); (0.7700271883770348, 0.0836367712948904); (0.8485046759125429, 0.0747023894092147);
   (0.9234529171069155, 0.0730563823828533); (0.9834913938358465, 0.0411053859515186)];
  [(0.0141527640593265, 0.0352395416512497); (0.0656241479349966, 0.0626328860805046); (0.1298989530885073, 0.0641106189878872); (0.1973329881068672, 0.0719404156736926);
   (0.2690357321806054, 0.0691221339466394); (0.3384207110697816, 0.0716279568548666); (0.4083335202423711, 0.0647467062394991); (0.4691801756588799, 0.0605797405656608);
   (0.5308198243411202, 0.0605797405656608); (0.5916664797576290, 0.0647467062394991); (0.6615792889302183, 0.0716279568548666); (0.7309642678193947, 0.0691221339466394);
   (0.8026670118931329, 0.0719404156736926); (0.8701010469114927, 0.0641106189878872); (0.9343758520650034, 0.0626328860805046); (0.9858472359406735, 0.0352395416512497)];
  [(0.0123842254916740, 0.0308359974991078); (0.0574238506932073, 0.0548066655568389); (0.1136716922746292, 0.0561144742242661); (0.1727135332326787, 0.0630035751698247);
   (0.2355728497767903, 0.0607471034919373); (0.2968496010578795, 0.0635333276876171); (0.3595926090502788, 0.0597629922562986); (0.4183733125901552, 0.0596701367897489);
   (0.4756578006423278, 0.0515257273243608); (0.5243421993576721, 0.0515257273243608); (0.5816266874098448, 0.0596701367897489); (0.6404073909497213, 0.0597629922562986);
   (0.7031503989421205, 0.0635333276876171); (0.7644271502232098, 0.0607471034919373); (0.8272864667673213, 0.0630035751698247); (0.8863283077253709, 0.0561144742242661);
   (0.9425761493067928, 0.0548066655568389); (0.9876157745083260, 0.0308359974991078)];
  [(0.0110083252052309, 0.0274100888653530); (0.0510440324673568, 0.0487176835433671); (0.1010437700588771, 0.0498834981311229); (0.1535337180640659, 0.0560156748845749);
   (0.2094357018380856, 0.0540577503849562); (0.2640327184413491, 0.0566708008696970); (0.3202101138571241, 0.0540034041711162); (0.3742978958417995, 0.0557494701522596);
   (0.4286959317868070, 0.0503715080641259); (0.4760280822766443, 0.0471201209334273); (0.5239719177233556, 0.0471201209334273); (0.5713040682131929, 0.0503715080641259);
   (0.6257021041582006, 0.0557494701522596); (0.6797898861428759, 0.0540034041711162); (0.7359672815586510, 0.0566708008696970); (0.7905642981619145, 0.0540577503849562);
   (0.8464662819359341, 0.0560156748845749); (0.8989562299411229, 0.0498834981311229); (0.9489559675326431, 0.0487176835433671); (0.9889916747947690, 0.0274100888653530)];
  [(0.0099075209630147, 0.0246691509896562); (0.0459397673911727, 0.0438460619416983); (0.0909399066670567, 0.0448960473199729); (0.1381827441906794, 0.0504169407097952);
   (0.1885006735903879, 0.0486656999009454); (0.2376673010433920, 0.0510485341678295); (0.2883226795690291, 0.0488149298632478); (0.3374532725872590, 0.0508617022455699);
   (0.3876670156729576, 0.0478217356080308); (0.4346973332690804, 0.0477379380261923); (0.4805259310137197, 0.0412212592270617); (0.5194740689862805, 0.0412212592270617);
   (0.5653026667309196, 0.0477379380261923); (0.6123329843270423, 0.0478217356080308); (0.6625467274127409, 0.0508617022455699); (0.7116773204309710, 0.0488149298632478);
   (0.7623326989566080, 0.0510485341678295); (0.8114993264096121, 0.0486656999009454); (0.8618172558093207, 0.0504169407097952); (0.9090600933329434, 0.0448960473199729);
   (0.9540602326088273, 0.0438460619416983); (0.9900924790369854, 0.0246691509896562)];
  [(0.0090068437200758, 0.0224265171743261); (0.0417634565677290, 0.0398600899442149); (0.0826727601416787, 0.0408147945244019); (0.1256212261423299, 0.0458342318701641);
   (0.1713662073914778, 0.0442446938406666); (0.2160698663649208, 0.0464180414816996); (0.2621423769589210, 0.0444264961852894); (0.3069118657861695, 0.0463989135958871);
   (0.3528927999779221, 0.0441948482310763); (0.3971515885152901, 0.0456148421766927); (0.4416599745351742, 0.0412135976353905); (0.4803865730712920, 0.0385529333401908);
   (0.5196134269287082, 0.0385529333401908); (0.5583400254648259, 0.0412135976353905); (0.6028484114847100, 0.0456148421766927); (0.6471072000220780, 0.0441948482310763);
   (0.6930881342138304, 0.0463989135958871); (0.7378576230410790, 0.0444264961852894); (0.7839301336350792, 0.0464180414816996); (0.8286337926085223, 0.0442446938406666);
   (0.8743787738576702, 0.0458342318701641); (0.9173272398583213, 0.0408147945244019); (0.9582365434322709, 0.0398600899442149); (0.9909931562799243, 0.0224265171743261)];
  [(0.0082562749062877, 0.0205576445003487); (0.0382831758310874, 0.0365384235469556); (0.0757833906400025, 0.0374136092179268); (0.1151529175161406, 0.0420148624748648);
   (0.1570861423519105, 0.0405583630632360); (0.1980660493503783, 0.0425522460845486); (0.2403043149585332, 0.0407357095647705); (0.2813674265133105, 0.0425696927083914);
   (0.3235963938817525, 0.0406884859131650); (0.3645432606125088, 0.0423862583746659); (0.4063888765018603, 0.0398519327312606); (0.4455810546037840, 0.0397816934250160);
   (0.4837715959097854, 0.0343510783948499); (0.5162284040902146, 0.0343510783948499); (0.5544189453962159, 0.0397816934250160); (0.5936111234981397, 0.0398519327312606);
   (0.6354567393874913, 0.0423862583746659); (0.6764036061182476, 0.0406884859131650); (0.7186325734866896, 0.0425696927083914); (0.7596956850414668, 0.0407357095647705);
   (0.8019339506496218, 0.0425522460845486); (0.8429138576480895, 0.0405583630632360); (0.8848470824838593, 0.0420148624748648); (0.9242166093599975, 0.0374136092179268);
   (0.9617168241689126, 0.0365384235469556); (0.9917437250937123, 0.0205576445003487)];
  [(0.0076211771847677, 0.0189762881054567); (0.0353383178530858, 0.0337277773887929); (0.0699539053768136, 0.0345356503485875); (0.1062950303126377, 0.0387829848675171);
   (0.1450026981880212, 0.0374386581865439); (0.1828306660663088, 0.0392795490662018); (0.2218210291569653, 0.0376048539031246); (0.2597311270358528, 0.0393038046942613);
   (0.2987304707220009, 0.0376003040244224); (0.3366166870838942, 0.0392620115755373); (0.3755243989402082, 0.0373960869269960); (0.4129743672734444, 0.0385972455203983);
   (0.4506353485598576, 0.0348730679027761); (0.4834040216398395, 0.0326217174893840); (0.5165959783601605, 0.0326217174893840); (0.5493646514401423, 0.0348730679027761);
   (0.5870256327265557, 0.0385972455203983); (0.6244756010597917, 0.0373960869269960); (0.6633833129161059, 0.0392620115755373); (0.7012695292779990, 0.0376003040244224);
   (0.7402688729641471, 0.0393038046942613); (0.7781789708430347, 0.0376048539031246); (0.8171693339336913, 0.0392795490662018); (0.8549973018119789, 0.0374386581865439);
   (0.8937049696873625, 0.0387829848675171); (0.9300460946231864, 0.0345356503485875); (0.9646616821469142, 0.0337277773887929); (0.9923788228152324, 0.0189762881054567)];
  [(0.0070768074672855, 0.0176208391595487); (0.0328141526900252, 0.0313186508550379); (0.0649571993289661, 0.0320688207698135); (0.0987025350530786, 0.0360127798223496);
   (0.1346453872169155, 0.0347645078874753); (0.1697714419132942, 0.0364739962439980); (0.2059770585436959, 0.0349194152407106); (0.2411806226566529, 0.0364984261698234);
   (0.2773986973647828, 0.0349243571205147); (0.3125996806510112, 0.0364896014373324); (0.3487966515033080, 0.0348762587306658); (0.3838941734098445, 0.0363311450472142);
   (0.4197618807733162, 0.0341588209321399); (0.4533551871710046, 0.0340985978215782); (0.4860899387661670, 0.0294437827617978); (0.5139100612338330, 0.0294437827617978);
   (0.5466448128289955, 0.0340985978215782); (0.5802381192266838, 0.0341588209321399); (0.6161058265901554, 0.0363311450472142); (0.6512033484966920, 0.0348762587306658);
   (0.6874003193489888, 0.0364896014373324); (0.7226013026352173, 0.0349243571205147); (0.7588193773433470, 0.0364984261698234); (0.7940229414563041, 0.0349194152407106);
   (0.8302285580867057, 0.0364739962439980); (0.8653546127830845, 0.0347645078874753); (0.9012974649469213, 0.0360127798223496); (0.9350428006710340, 0.0320688207698135);
   (0.9671858473099748, 0.0313186508550379); (0.9929231925327144, 0.0176208391595487)];
  [(0.0066050203219607, 0.0164461165970277); (0.0306265426043116, 0.0292307408974715); (0.0606267197217306, 0.0299308999943533); (0.0921223676744533, 0.0336119297541818);
   (0.1256690338608138, 0.0324468833396006); (0.1584533714661614, 0.0340424269083420); (0.1922453460851296, 0.0325916006694863); (0.2251023189831897, 0.0340656768938453);
   (0.2589068910249528, 0.0325983722203450); (0.2917660708740494, 0.0340645046936703); (0.3255661677336524, 0.0325873161092425); (0.3584010821890397, 0.0340271387883682);
   (0.3921211333547689, 0.0324099618942156); (0.4245777825725773, 0.0334509492998341); (0.4572173014383420, 0.0302233265746428); (0.4856168186774753, 0.0282721553653731);
   (0.5143831813225247, 0.0282721553653731); (0.5427826985616581, 0.0302233265746428); (0.5754222174274227, 0.0334509492998341); (0.6078788666452311, 0.0324099618942156);
   (0.6415989178109603, 0.0340271387883682); (0.6744338322663476, 0.0325873161092425); (0.7082339291259506, 0.0340645046936703); (0.7410931089750471, 0.0325983722203450);
   (0.7748976810168103, 0.0340656768938453); (0.8077546539148703, 0.0325916006694863); (0.8415466285338387, 0.0340424269083420); (0.8743309661391861, 0.0324468833396006);
   (0.9078776323255467, 0.0336119297541818); (0.9393732802782694, 0.0299308999943533); (0.9693734573956885, 0.0292307408974715); (0.9933949796780394, 0.0164461165970277)];
  [(0.0061922065563618, 0.0154182343210733); (0.0287123837136461, 0.0274038196148574); (0.0568375498212955, 0.0280602188885447); (0.0863647200784608, 0.0315111845978775);
   (0.1178147206119998, 0.0304189553293821); (0.1485500418129789, 0.0319147824076668); (0.1802300335460579, 0.0305546602054989); (0.2110335195561443, 0.0319366852195984);
   (0.2427255504146180, 0.0305615184590649); (0.2735321955634830, 0.0319372547628046); (0.3052236350174062, 0.0305591742830081); (0.3360246768742541, 0.0319284594881803);
   (0.3676970584722880, 0.0305167450104959); (0.3984073994841265, 0.0317897549071191); (0.4297916450747554, 0.0298889692811049); (0.4591857886625704, 0.0298362732495090);
   (0.4878286963940591, 0.0257633099742141); (0.5121713036059409, 0.0257633099742141); (0.5408142113374296, 0.0298362732495090); (0.5702083549252446, 0.0298889692811049);
   (0.6015926005158736, 0.0317897549071191); (0.6323029415277119, 0.0305167450104959); (0.6639753231257459, 0.0319284594881803); (0.6947763649825939, 0.0305591742830081);
   (0.7264678044365170, 0.0319372547628046); (0.7572744495853819, 0.0305615184590649); (0.7889664804438556, 0.0319366852195984); (0.8197699664539421, 0.0305546602054989);
   (0.8514499581870211, 0.0319147824076668); (0.8821852793880002, 0.0304189553293821); (0.9136352799215393, 0.0315111845978775); (0.9431624501787046, 0.0280602188885447);
   (0.9712876162863538, 0.0274038196148574); (0.9938077934436382, 0.0154182343210733)];
  [(0.0058279591129439, 0.0145112793637064); (0.0270234199710307, 0.0257918302313191); (0.0534941645571887, 0.0264096178115832); (0.0812844425178220, 0.0296575856114510);
   (0.1108844432534185, 0.0286296055375506); (0.1398118054980106, 0.0300374439699702); (0.1696282719900595, 0.0287573354568988); (0.1986198057742176, 0.0300580835212682);
   (0.2284476575572185, 0.0287639112864040); (0.2574424233303282, 0.0300590154910733); (0.2872705742756444, 0.0287636101191701); (0.3162641390600056, 0.0300569707166932);
   (0.3460877841544620, 0.0287535317339381); (0.3750597762860099, 0.0300239488081803); (0.4048127641622234, 0.0285970261036803); (0.4334509845140220, 0.0295155436443008);
   (0.4622505600632915, 0.0266676411433397); (0.4873089576530983, 0.0249460194494725); (0.5126910423469018, 0.0249460194494725); (0.5377494399367084, 0.0266676411433397);
   (0.5665490154859780, 0.0295155436443008); (0.5951872358377766, 0.0285970261036803); (0.6249402237139901, 0.0300239488081803); (0.6539122158455380, 0.0287535317339381);
   (0.6837358609399944, 0.0300569707166932); (0.7127294257243556, 0.0287636101191701); (0.7425575766696717, 0.0300590154910733); (0.7715523424427815, 0.0287639112864040);
   (0.8013801942257824, 0.0300580835212682); (0.8303717280099405, 0.0287573354568988); (0.8601881945019895, 0.0300374439699702); (0.8891155567465815, 0.0286296055375506);
   (0.9187155574821780, 0.0296575856114510); (0.9465058354428113, 0.0264096178115832); (0.9729765800289693, 0.0257918302313191); (0.9941720408870561, 0.0145112793637064)];
  [(0.0055041836069241, 0.0137050971774743); (0.0255221188627758, 0.0243589507753488); (0.0505222665308711, 0.0249424168301693); (0.0767686401773742, 0.0280099419919566);
   (0.1047241964831868, 0.0270390720206585); (0.1320444833125623, 0.0283686974880479); (0.1602044803203269, 0.0271597076608620); (0.1875853775106291, 0.0283881963774481);
   (0.2157561402209128, 0.0271659469487307); (0.2431401513765240, 0.0283891707490376); (0.2713114002211607, 0.0271661157797525); (0.2986952461074565, 0.0283887226670361);
   (0.3268654430515553, 0.0271637270189859); (0.3542441552234041, 0.0283808555412313); (0.3823973847785581, 0.0271259964164147); (0.4096954661052453, 0.0282575600542063);
   (0.4375925733722584, 0.0265679727384662); (0.4637207010282717, 0.0265211317844580); (0.4891810634601815, 0.0229007199797150); (0.5108189365398185, 0.0229007199797150);
   (0.5362792989717283, 0.0265211317844580); (0.5624074266277416, 0.0265679727384662); (0.5903045338947548, 0.0282575600542063); (0.6176026152214420, 0.0271259964164147);
   (0.6457558447765959, 0.0283808555412313); (0.6731345569484447, 0.0271637270189859); (0.7013047538925434, 0.0283887226670361); (0.7286885997788393, 0.0271661157797525);
   (0.7568598486234761, 0.0283891707490376); (0.7842438597790873, 0.0271659469487307); (0.8124146224893709, 0.0283881963774481); (0.8397955196796730, 0.0271597076608620);
   (0.8679555166874376, 0.0283686974880479); (0.8952758035168132, 0.0270390720206585); (0.9232313598226258, 0.0280099419919566); (0.9494777334691289, 0.0249424168301693);
   (0.9744778811372243, 0.0243589507753488); (0.9944958163930759, 0.0137050971774743)];
  [(0.0052144897329365, 0.0129837762735502); (0.0241788494492437, 0.0230769007348572); (0.0478631998724596, 0.0236296580515731); (0.0727281854363687, 0.0265357345248066);
   (0.0992123966867161, 0.0256159629965757); (0.1250947737462686, 0.0268756082433735); (0.1517726658576780, 0.0257302498290367); (0.1777124641922875, 0.0268940823036688);
   (0.2044005584779757, 0.0257361676077381); (0.2303433215812473, 0.0268950278862034); (0.2570319250436123, 0.0257364358185138); (0.2829747630282311, 0.0268949576397816);
   (0.3096631356496138, 0.0257358773596487); (0.3356047541081647, 0.0268930815852483); (0.3622890695309995, 0.0257268449894382); (0.3882113786848165, 0.0268635332738942);
   (0.4148324731718838, 0.0255868128711688); (0.4404561440338518, 0.0264086443199708); (0.4662241853184356, 0.0238605210252005); (0.4886448568473479, 0.0223201226657519);
   (0.5113551431526521, 0.0223201226657519); (0.5337758146815645, 0.0238605210252005); (0.5595438559661483, 0.0264086443199708); (0.5851675268281162, 0.0255868128711688);
   (0.6117886213151834, 0.0268635332738942); (0.6377109304690005, 0.0257268449894382); (0.6643952458918354, 0.0268930815852483); (0.6903368643503862, 0.0257358773596487);
   (0.7170252369717690, 0.0268949576397816); (0.7429680749563876, 0.0257364358185138); (0.7696566784187527, 0.0268950278862034); (0.7955994415220243, 0.0257361676077381);
   (0.8222875358077125, 0.0268940823036688); (0.8482273341423220, 0.0257302498290367); (0.8749052262537315, 0.0268756082433735); (0.9007876033132840, 0.0256159629965757);
   (0.9272718145636314, 0.0265357345248066); (0.9521368001275405, 0.0236296580515731); (0.9758211505507562, 0.0230769007348572); (0.9947855102670635, 0.0129837762735502)];
  [(0.0049537652463044, 0.0123345874599093); (0.0229699069768529, 0.0219230556981903); (0.0454700398791016, 0.0224481751494583); (0.0690917761657875, 0.0252089478000282);
   (0.0942517768567906, 0.0243351648538374); (0.1188400350785110, 0.0255318278543656); (0.1441840326344314, 0.0244437374491076); (0.1688268412907158, 0.0255493785533648);
   (0.1941805316509594, 0.0244493609836443); (0.2188261603537022, 0.0255502822386091); (0.2441803460667296, 0.0244496416879066); (0.2688261012849413, 0.0255503002645877);
   (0.2941802509319708, 0.0244495190920711); (0.3188257196984859, 0.0255498527971884); (0.3441788982696297, 0.0244473550831426); (0.3688197396085477, 0.0255427701104000);
   (0.3941576462761562, 0.0244133968141998); (0.4187259194899581, 0.0254318040551181); (0.4438333160337583, 0.0239111754666637); (0.4673486309252074, 0.0238690186063417);
   (0.4902629571141078, 0.0206106479818654); (0.5097370428858922, 0.0206106479818654); (0.5326513690747926, 0.0238690186063417); (0.5561666839662417, 0.0239111754666637);
   (0.5812740805100418, 0.0254318040551181); (0.6058423537238439, 0.0244133968141998); (0.6311802603914523, 0.0255427701104000); (0.6558211017303703, 0.0244473550831426);
   (0.6811742803015142, 0.0255498527971884); (0.7058197490680291, 0.0244495190920711); (0.7311738987150588, 0.0255503002645877); (0.7558196539332704, 0.0244496416879066);
   (0.7811738396462978, 0.0255502822386091); (0.8058194683490406, 0.0244493609836443); (0.8311731587092842, 0.0255493785533648); (0.8558159673655688, 0.0244437374491076);
   (0.8811599649214891, 0.0255318278543656); (0.9057482231432095, 0.0243351648538374); (0.9309082238342125, 0.0252089478000282); (0.9545299601208984, 0.0224481751494583);
   (0.9770300930231471, 0.0219230556981903); (0.9950462347536956, 0.0123345874599093)];
  [(0.0047178716631508, 0.0117472261523039); (0.0218761018827344, 0.0208791006649607); (0.0433047998849222, 0.0213792144281668); (0.0658016915867613, 0.0240085217146636);
   (0.0897635970075263, 0.0231763474815479); (0.1131809857937537, 0.0243160265335282); (0.1373181263352263, 0.0232797499783082); (0.1607874679698824, 0.0243327415670042);
   (0.1849338399309471, 0.0232851061204034); (0.2084058681683986, 0.0243336035118227); (0.2325527146876319, 0.0232853796775008); (0.2560248767126304, 0.0243336410308240);
   (0.2801717328803626, 0.0232853608741547); (0.3036438315034289, 0.0243335353853938); (0.3277904556098870, 0.0232848421501958); (0.3512614441049952, 0.0243318358374185);
   (0.3754043962189695, 0.0232766693136947); (0.3988579140436333, 0.0243051015395617); (0.4229436662019275, 0.0231499735520400); (0.4461269874589661, 0.0238935353374257);
   (0.4694409295737597, 0.0215880904514752); (0.4897262990523550, 0.0201943966976052); (0.5102737009476450, 0.0201943966976052); (0.5305590704262402, 0.0215880904514751);
   (0.5538730125410338, 0.0238935353374257); (0.5770563337980724, 0.0231499735520400); (0.6011420859563666, 0.0243051015395617); (0.6245956037810305, 0.0232766693136948);
   (0.6487385558950048, 0.0243318358374185); (0.6722095443901129, 0.0232848421501959); (0.6963561684965710, 0.0243335353853937); (0.7198282671196372, 0.0232853608741547);
   (0.7439751232873695, 0.0243336410308241); (0.7674472853123679, 0.0232853796775008); (0.7915941318316013, 0.0243336035118228); (0.8150661600690529, 0.0232851061204035);
   (0.8392125320301176, 0.0243327415670041); (0.8626818736647736, 0.0232797499783083); (0.8868190142062462, 0.0243160265335281); (0.9102364029924735, 0.0231763474815479);
   (0.9341983084132386, 0.0240085217146636); (0.9566952001150777, 0.0213792144281668); (0.9781238981172655, 0.0208791006649608); (0.9952821283368493, 0.0117472261523039)];
  [(0.0045034229511903, 0.0112132613272014); (0.0208817336153415, 0.0199300506347396); (0.0413363998901683, 0.0204074319541860); (0.0628107056056163, 0.0229172252731724);
   (0.0856834335074387, 0.0221228771418869); (0.1080363955315301, 0.0232107526015229); (0.1310763933240084, 0.0222215795311861); (0.1534789467163050, 0.0232267078804748);
   (0.1765277563610369, 0.0222266923072170); (0.1989328744407849, 0.0232275309566354); (0.2219821377444574, 0.0222269549251482); (0.2443873867270738, 0.0232275716628052);
   (0.2674366698178950, 0.0222269605256146); (0.2898419086242943, 0.0232275478740566); (0.3128911367774761, 0.0222268362346423); (0.3352961087327053, 0.0232271390186321);
   (0.3583444529500929, 0.0222248682932295); (0.3807452178216257, 0.0232207001061297); (0.4037796784317213, 0.0221939971056619); (0.4261144722633755, 0.0231198218685852);
   (0.4489393782124479, 0.0217374322425172); (0.4703169372047227, 0.0216991078239622); (0.4911481428310042, 0.0187369527107928); (0.5088518571689958, 0.0187369527107928);
   (0.5296830627952773, 0.0216991078239623); (0.5510606217875522, 0.0217374322425172); (0.5738855277366246, 0.0231198218685852); (0.5962203215682788, 0.0221939971056619);
   (0.6192547821783744, 0.0232207001061297); (0.6416555470499072, 0.0222248682932295); (0.6647038912672948, 0.0232271390186321); (0.6871088632225240, 0.0222268362346423);
   (0.7101580913757057, 0.0232275478740567); (0.7325633301821051, 0.0222269605256145); (0.7556126132729263, 0.0232275716628053); (0.7780178622555427, 0.0222269549251481);
   (0.8010671255592151, 0.0232275309566354); (0.8234722436389632, 0.0222266923072169); (0.8465210532836950, 0.0232267078804748); (0.8689236066759917, 0.0222215795311861);
   (0.8919636044684699, 0.0232107526015229); (0.9143165664925613, 0.0221228771418868); (0.9371892943943837, 0.0229172252731725); (0.9586636001098318, 0.0204074319541859);
   (0.9791182663846585, 0.0199300506347396); (0.9954965770488097, 0.0112132613272013)];
  [(0.0043076219533126, 0.0107257282260192); (0.0199738321538059, 0.0190635266940998); (0.0395391651123386, 0.0195201523040105); (0.0600798053619111, 0.0219208241743592);
   (0.0819580668332637, 0.0211610129184253); (0.1033391609434749, 0.0222015894452573); (0.1253774197021947, 0.0212554239009478); (0.1468059490372752, 0.0222168510211853);
   (0.1688526365345209, 0.0212603144052632); (0.1902836190978475, 0.0222176383863393); (0.2123307406916869, 0.0212605659656006); (0.2337618492373025, 0.0222176785025147);
   (0.2558089923086694, 0.0212605770014296); (0.2772401032609085, 0.0222176743297747); (0.2992872339544652, 0.0212605475512146); (0.3207182808574701, 0.0222175758938879);
   (0.3427651985790041, 0.0212600733018388); (0.3641952315699875, 0.0222160240309851); (0.3862387965466573, 0.0212526111142670); (0.4076528780396261, 0.0221916144494487);
   (0.4296442169669207, 0.0211369323736927); (0.4508115972451320, 0.0218158366124466); (0.4720982400456037, 0.0197108651948300); (0.4906196643521499, 0.0184383622021622);
   (0.5093803356478502, 0.0184383622021623); (0.5279017599543963, 0.0197108651948300); (0.5491884027548680, 0.0218158366124466); (0.5703557830330793, 0.0211369323736926);
   (0.5923471219603739, 0.0221916144494487); (0.6137612034533427, 0.0212526111142671); (0.6358047684300125, 0.0222160240309850); (0.6572348014209959, 0.0212600733018389);
   (0.6792817191425300, 0.0222175758938878); (0.7007127660455349, 0.0212605475512146); (0.7227598967390916, 0.0222176743297747); (0.7441910076913305, 0.0212605770014297);
   (0.7662381507626975, 0.0222176785025147); (0.7876692593083131, 0.0212605659656005); (0.8097163809021525, 0.0222176383863393); (0.8311473634654791, 0.0212603144052633);
   (0.8531940509627248, 0.0222168510211853); (0.8746225802978053, 0.0212554239009478); (0.8966608390565250, 0.0222015894452573); (0.9180419331667363, 0.0211610129184252);
   (0.9399201946380888, 0.0219208241743592); (0.9604608348876614, 0.0195201523040105); (0.9800261678461941, 0.0190635266940996); (0.9956923780466873, 0.0107257282260193)];
  [(0.0041281377052580, 0.0102788228832685); (0.0191415891473976, 0.0182692130818459); (0.0378916998993254, 0.0187068126246783); (0.0575764801385023, 0.0210074565004324);
   (0.0785431473818925, 0.0202793040468481); (0.0990333625708958, 0.0212765232184494); (0.1201533605481706, 0.0203697812387829); (0.1406890344950903, 0.0212911488965284);
   (0.1618171100159343, 0.0203744679776111); (0.1823551349850698, 0.0212919034728820); (0.2034836265542387, 0.0203747091432961); (0.2240217724424524, 0.0212919422023144);
   (0.2451502852098831, 0.0203747210899424); (0.2656884363346367, 0.0212919426883015); (0.2868169469357824, 0.0203747144535084); (0.3073550828285116, 0.0212919189873084);
   (0.3284835420255811, 0.0203745999145962); (0.3490214330010138, 0.0212915441056990); (0.3701490818698669, 0.0203727959371500); (0.3906831163362861, 0.0212856417642241);
   (0.4117980385623570, 0.0203444973469437); (0.4322715995747503, 0.0211931700462170); (0.4531944300280744, 0.0199259795556453); (0.4727905257709952, 0.0198908488386328);
   (0.4918857975950870, 0.0171755399848936); (0.5081142024049130, 0.0171755399848937); (0.5272094742290048, 0.0198908488386328); (0.5468055699719256, 0.0199259795556453);
   (0.5677284004252496, 0.0211931700462171); (0.5882019614376429, 0.0203444973469437); (0.6093168836637138, 0.0212856417642241); (0.6298509181301331, 0.0203727959371499);
   (0.6509785669989862, 0.0212915441056991); (0.6715164579744188, 0.0203745999145962); (0.6926449171714884, 0.0212919189873084); (0.7131830530642175, 0.0203747144535084);
   (0.7343115636653633, 0.0212919426883014); (0.7548497147901169, 0.0203747210899424); (0.7759782275575475, 0.0212919422023145); (0.7965163734457613, 0.0203747091432960);
   (0.8176448650149302, 0.0212919034728820); (0.8381828899840656, 0.0203744679776111); (0.8593109655049097, 0.0212911488965284); (0.8798466394518294, 0.0203697812387829);
   (0.9009666374291041, 0.0212765232184495); (0.9214568526181075, 0.0202793040468480); (0.9424235198614976, 0.0210074565004325); (0.9621083001006746, 0.0187068126246783);
   (0.9808584108526024, 0.0182692130818458); (0.9958718622947420, 0.0102788228832686)];
  [(0.0039630121970477, 0.0098676699679378); (0.0183759255815017, 0.0175384445585721); (0.0363760319033526, 0.0179585401196915); (0.0552734209329632, 0.0201671582404163);
   (0.0754014214866204, 0.0194681318849799); (0.0950720280680759, 0.0204254622897303); (0.1153472261263004, 0.0195549899893223); (0.1350614731155372, 0.0204395029409640);
   (0.1553444256161888, 0.0195594892599347); (0.1750609295896119, 0.0204402273386395); (0.1953442815061160, 0.0195597208000554); (0.2150609016068833, 0.0204402645878149);
   (0.2353442740227174, 0.0195597326005668); (0.2550608998597447, 0.0204402661398144); (0.2753442725425795, 0.0195597314541424); (0.2950608949260281, 0.0204402604820390);
   (0.3153442552184869, 0.0195597037786445); (0.3350608183850651, 0.0204401698274517); (0.3553439826916744, 0.0195592674393137); (0.3750596130441927, 0.0204387421087674);
   (0.3953396928228728, 0.0195524022252091); (0.4150406477964460, 0.0204162852935062); (0.4352726796095644, 0.0194459777838015); (0.4547466694655209, 0.0200705696834516);
   (0.4743303808419553, 0.0181339959792439); (0.4913700912039778, 0.0169632932259892); (0.5086299087960222, 0.0169632932259893); (0.5256696191580448, 0.0181339959792439);
   (0.5452533305344792, 0.0200705696834516); (0.5647273203904357, 0.0194459777838015); (0.5849593522035540, 0.0204162852935062); (0.6046603071771272, 0.0195524022252091);
   (0.6249403869558074, 0.0204387421087673); (0.6446560173083257, 0.0195592674393137); (0.6649391816149349, 0.0204401698274517); (0.6846557447815131, 0.0195597037786444);
   (0.7049391050739719, 0.0204402604820391); (0.7246557274574205, 0.0195597314541425); (0.7449391001402553, 0.0204402661398143); (0.7646557259772827, 0.0195597326005668);
   (0.7849390983931168, 0.0204402645878148); (0.8046557184938841, 0.0195597208000554); (0.8249390704103882, 0.0204402273386395); (0.8446555743838112, 0.0195594892599347);
   (0.8649385268844628, 0.0204395029409640); (0.8846527738736997, 0.0195549899893223); (0.9049279719319242, 0.0204254622897302); (0.9245985785133797, 0.0194681318849799);
   (0.9447265790670368, 0.0201671582404164); (0.9636239680966474, 0.0179585401196915); (0.9816240744184983, 0.0175384445585720); (0.9960369878029522, 0.0098676699679379)];
  [(0.0038105886510074, 0.0094881441999402); (0.0176691592129824, 0.0168638889986270); (0.0349769537532237, 0.0172678270381650); (0.0531475201278495, 0.0193914983080929);
   (0.0725013668140590, 0.0187193575817128); (0.0914154116039230, 0.0196398675862837); (0.1109107943522256, 0.0188028749897549); (0.1298668010726926, 0.0196533682125372);
   (0.1493696400157822, 0.0188072012118215); (0.1683278169140436, 0.0196540647498234); (0.1878310399131286, 0.0188074238516537); (0.2067893284832025, 0.0196541005830283);
   (0.2262925712292641, 0.0188074352786331); (0.2452508654867122, 0.0196541023381949); (0.2647541090577803, 0.0188074354415114); (0.2837124026992726, 0.0196541010378997);
   (0.3032156433064713, 0.0188074287566299); (0.3221739226072729, 0.0196540790700874); (0.3416771157149505, 0.0188073229996483); (0.3606351689238244, 0.0196537330208963);
   (0.3801376140336734, 0.0188056577882187); (0.3990921073873314, 0.0196482847054505); (0.4185828048267886, 0.0187795360125676); (0.4374814765305383, 0.0195629261965087);
   (0.4567948584874532, 0.0183932118975190); (0.4748835622501495, 0.0183607835433533); (0.4925099670108496, 0.0158543446014403); (0.5074900329891504, 0.0158543446014403);
   (0.5251164377498505, 0.0183607835433534); (0.5432051415125470, 0.0183932118975189); (0.5625185234694619, 0.0195629261965088); (0.5814171951732116, 0.0187795360125676);
   (0.6009078926126686, 0.0196482847054505); (0.6198623859663267, 0.0188056577882186); (0.6393648310761756, 0.0196537330208963); (0.6583228842850495, 0.0188073229996484);
   (0.6778260773927270, 0.0196540790700874); (0.6967843566935287, 0.0188074287566299); (0.7162875973007274, 0.0196541010378997); (0.7352458909422198, 0.0188074354415114);
   (0.7547491345132878, 0.0196541023381949); (0.7737074287707361, 0.0188074352786332); (0.7932106715167975, 0.0196541005830283); (0.8121689600868714, 0.0188074238516537);
   (0.8316721830859564, 0.0196540647498234); (0.8506303599842179, 0.0188072012118215); (0.8701331989273074, 0.0196533682125373); (0.8890892056477745, 0.0188028749897550);
   (0.9085845883960770, 0.0196398675862836); (0.9274986331859411, 0.0187193575817128); (0.9468524798721506, 0.0193914983080929); (0.9650230462467764, 0.0172678270381651);
   (0.9823308407870176, 0.0168638889986270); (0.9961894113489926, 0.0094881441999402)];
  [(0.0036694557380071, 0.0091367314517943); (0.0170147459087979, 0.0162393005171964); (0.0336815110216228, 0.0166282778886034); (0.0511790934564477, 0.0186732946670525);
   (0.0698161310061310, 0.0180260480416497); (0.0880296556185935, 0.0189124650830891); (0.1068029871539984, 0.0181064722123619); (0.1250569195514965, 0.0189254656861644);
   (0.1438374311263612, 0.0181106382040602); (0.1620934533248665, 0.0189261364260306); (0.1808743347319867, 0.0181108525992110); (0.1991304644689588, 0.0189261709361317);
   (0.2179113649004458, 0.0181108636224718); (0.2361675001558423, 0.0189261726901072); (0.2549484015197417, 0.0181108640864758); (0.2732045368386453, 0.0189261724430191);
   (0.2919854375212578, 0.0181108624867310); (0.3102415693724265, 0.0189261671176981); (0.3290224585347014, 0.0181108368335800); (0.3472785355415456, 0.0189260831738081);
   (0.3660592432329837, 0.0181104328142566); (0.3843144565223912, 0.0189247612118340); (0.4030923081693242, 0.0181040761344569); (0.4213339331448568, 0.0189039678643582);
   (0.4400672959347817, 0.0180055349850016); (0.4580987680236304, 0.0185838608180108); (0.4762318341129215, 0.0167907370178184); (0.4920093437073869, 0.0157067529870272);
   (0.5079906562926131, 0.0157067529870271); (0.5237681658870784, 0.0167907370178184); (0.5419012319763696, 0.0185838608180107); (0.5599327040652183, 0.0180055349850016);
   (0.5786660668551431, 0.0189039678643582); (0.5969076918306757, 0.0181040761344569); (0.6156855434776086, 0.0189247612118340); (0.6339407567670161, 0.0181104328142566);
   (0.6527214644584544, 0.0189260831738081); (0.6709775414652985, 0.0181108368335800); (0.6897584306275735, 0.0189261671176980); (0.7080145624787422, 0.0181108624867310);
   (0.7267954631613547, 0.0189261724430191); (0.7450515984802583, 0.0181108640864759); (0.7638324998441577, 0.0189261726901071); (0.7820886350995541, 0.0181108636224719);
   (0.8008695355310412, 0.0189261709361316); (0.8191256652680132, 0.0181108525992111); (0.8379065466751334, 0.0189261364260305); (0.8561625688736388, 0.0181106382040602);
   (0.8749430804485034, 0.0189254656861644); (0.8931970128460015, 0.0181064722123620); (0.9119703443814065, 0.0189124650830891); (0.9301838689938688, 0.0180260480416498);
   (0.9488209065435522, 0.0186732946670524); (0.9663184889783771, 0.0166282778886035); (0.9829852540912021, 0.0162393005171963); (0.9963305442619930, 0.0091367314517943)];
  [(0.0035384037473640, 0.0088104196142302); (0.0164070764120551, 0.0156593254987251); (0.0324785999137077, 0.0160344108211533); (0.0493512686901460, 0.0180063912860864);
   (0.0673226977559121, 0.0173822606115909); (0.0848857393465011, 0.0182370199015505); (0.1029885947556421, 0.0174598124904932); (0.1205906009960895, 0.0182495561973770);
   (0.1387003800147182, 0.0174638296967928); (0.1563044014204633, 0.0182502029823104); (0.1744145370631877, 0.0174640364352746); (0.1920186621673830, 0.0182502362608920);
   (0.2101288161571600, 0.0174640470695840); (0.2277329465928188, 0.0182502379677235); (0.2458431015152127, 0.0174640475916121); (0.2634472321715829, 0.0182502379735438);
   (0.2815573869647057, 0.0174640472238383); (0.2991615167887822, 0.0182502366825809); (0.3172716687836792, 0.0174640409897473); (0.3348757852780070, 0.0182502162796000);
   (0.3529858931638362, 0.0174639427854622); (0.3705897997149707, 0.0182498949479871); (0.3886992130312657, 0.0174623965176355); (0.4062998140025215, 0.0182448357979190);
   (0.4243983187677321, 0.0174381405830986); (0.4419470853497854, 0.0181655743253296); (0.4598809400240636, 0.0170794110476962); (0.4766775935179959, 0.0170492990045424);
   (0.4930449693672175, 0.0147218914156232); (0.5069550306327826, 0.0147218914156231); (0.5233224064820040, 0.0170492990045425); (0.5401190599759363, 0.0170794110476961);
   (0.5580529146502144, 0.0181655743253296); (0.5756016812322678, 0.0174381405830986); (0.5937001859974784, 0.0182448357979190); (0.6113007869687342, 0.0174623965176354);
   (0.6294102002850290, 0.0182498949479872); (0.6470141068361638, 0.0174639427854622); (0.6651242147219928, 0.0182502162796001); (0.6827283312163207, 0.0174640409897472);
   (0.7008384832112176, 0.0182502366825809); (0.7184426130352942, 0.0174640472238383); (0.7365527678284169, 0.0182502379735438); (0.7541568984847873, 0.0174640475916121);
   (0.7722670534071812, 0.0182502379677236); (0.7898711838428401, 0.0174640470695839); (0.8079813378326169, 0.0182502362608921); (0.8255854629368122, 0.0174640364352745);
   (0.8436955985795366, 0.0182502029823105); (0.8612996199852818, 0.0174638296967927); (0.8794093990039105, 0.0182495561973771); (0.8970114052443579, 0.0174598124904931);
   (0.9151142606534989, 0.0182370199015505); (0.9326773022440878, 0.0173822606115908); (0.9506487313098538, 0.0180063912860864); (0.9675214000862922, 0.0160344108211532);
   (0.9835929235879448, 0.0156593254987251); (0.9964615962526360, 0.0088104196142302)];
  [(0.0034163898250411, 0.0085066120413257); (0.0158413151564670, 0.0151193487573897); (0.0313586481925454, 0.0154815001031825); (0.0476495008042789, 0.0173854812417386);
   (0.0650012254195014, 0.0167828723146395); (0.0819586448862769, 0.0176081571463246); (0.0994372639019995, 0.0168577499908213); (0.1164323044100183, 0.0176202611560892);
   (0.1339176082900758, 0.0168616286727704); (0.1509145944749438, 0.0176208856381091); (0.1684002426817473, 0.0168618282824123); (0.1853973289894133, 0.0176209177693929);
   (0.2028829949111302, 0.0168618385511743); (0.2198800863688809, 0.0176209194211406); (0.2373657531992113, 0.0168618390733593); (0.2543628449088809, 0.0176209194861742);
   (0.2718485117428448, 0.0168618390042422); (0.2888456032602841, 0.0176209191754617); (0.3063312694154733, 0.0168618374890443); (0.3233283576914007, 0.0176209142132543);
   (0.3408140131184703, 0.0168618136037498); (0.3578110503317751, 0.0176208360583847); (0.3752965368031205, 0.0168614374477598); (0.3922927698656742, 0.0176196052661909);
   (0.4097755972610948, 0.0168555191596669); (0.4267591791348668, 0.0176002459426784); (0.4442005858703140, 0.0167637739515532); (0.4609885081599318, 0.0173022152443548);
   (0.4778710179672028, 0.0156327551545206); (0.4925604234517050, 0.0146235286430942); (0.5074395765482950, 0.0146235286430942); (0.5221289820327972, 0.0156327551545205);
   (0.5390114918400681, 0.0173022152443549); (0.5557994141296860, 0.0167637739515532); (0.5732408208651332, 0.0176002459426785); (0.5902244027389052, 0.0168555191596669);
   (0.6077072301343258, 0.0176196052661909); (0.6247034631968795, 0.0168614374477597); (0.6421889496682248, 0.0176208360583847); (0.6591859868815296, 0.0168618136037499);
   (0.6766716423085993, 0.0176209142132543); (0.6936687305845267, 0.0168618374890442); (0.7111543967397159, 0.0176209191754617); (0.7281514882571551, 0.0168618390042421);
   (0.7456371550911189, 0.0176209194861742); (0.7626342468007887, 0.0168618390733593); (0.7801199136311191, 0.0176209194211406); (0.7971170050888697, 0.0168618385511742);
   (0.8146026710105867, 0.0176209177693930); (0.8315997573182526, 0.0168618282824122); (0.8490854055250561, 0.0176208856381091); (0.8660823917099242, 0.0168616286727704);
   (0.8835676955899817, 0.0176202611560892); (0.9005627360980005, 0.0168577499908212); (0.9180413551137230, 0.0176081571463247); (0.9349987745804986, 0.0167828723146394);
   (0.9523504991957210, 0.0173854812417386); (0.9686413518074546, 0.0154815001031825); (0.9841586848435330, 0.0151193487573897); (0.9965836101749589, 0.0085066120413257)];
  [(0.0033025101642064, 0.0082230583066148); (0.0153132713179181, 0.0146153704654768); (0.0303133599194605, 0.0149654500997430); (0.0460611841108029, 0.0168059652003473);
   (0.0628345179055180, 0.0162234432374849); (0.0792266900567344, 0.0170212185747805); (0.0961226884385995, 0.0162958249911273); (0.1125512275963512, 0.0170329191175532);
   (0.1294536880137407, 0.0162995743836792); (0.1458841079924491, 0.0170335227835094); (0.1627869012590343, 0.0162997673396842); (0.1792174180231521, 0.0170335538438087);
   (0.1961202284142798, 0.0162997772664348); (0.2125507501574128, 0.0170335554414166); (0.2294535614288524, 0.0162997777756344); (0.2458840834249577, 0.0170335555187472);
   (0.2627868947311810, 0.0162997777784439); (0.2792174166903046, 0.0170335554462033); (0.2961202278328842, 0.0162997774102673); (0.3125507490027002, 0.0170335542372931);
   (0.3294535575313906, 0.0162997715905004); (0.3458840662594649, 0.0170335351943046); (0.3627868336195782, 0.0162996799331016); (0.3792171464006390, 0.0170332352847886);
   (0.3961192654958479, 0.0162982367497933); (0.4125464930690201, 0.0170285134113911); (0.4294384308498833, 0.0162755978775587); (0.4458172796597998, 0.0169545360369743);
   (0.4625555440224594, 0.0159407836445164); (0.4782324206167962, 0.0159126790709063); (0.4935086380760697, 0.0137404319879149); (0.5064913619239303, 0.0137404319879149);
   (0.5217675793832037, 0.0159126790709063); (0.5374444559775405, 0.0159407836445164); (0.5541827203402002, 0.0169545360369743); (0.5705615691501167, 0.0162755978775587);
   (0.5874535069309799, 0.0170285134113911); (0.6038807345041520, 0.0162982367497932); (0.6207828535993609, 0.0170332352847886); (0.6372131663804217, 0.0162996799331016);
   (0.6541159337405350, 0.0170335351943046); (0.6705464424686093, 0.0162997715905004); (0.6874492509972997, 0.0170335542372931); (0.7038797721671157, 0.0162997774102673);
   (0.7207825833096952, 0.0170335554462033); (0.7372131052688189, 0.0162997777784439); (0.7541159165750422, 0.0170335555187472); (0.7705464385711476, 0.0162997777756344);
   (0.7874492498425872, 0.0170335554414165); (0.8038797715857202, 0.0162997772664348); (0.8207825819768478, 0.0170335538438088); (0.8372130987409657, 0.0162997673396842);
   (0.8541158920075510, 0.0170335227835094); (0.8705463119862593, 0.0162995743836792); (0.8874487724036487, 0.0170329191175532); (0.9038773115614005, 0.0162958249911273);
   (0.9207733099432656, 0.0170212185747805); (0.9371654820944820, 0.0162234432374848); (0.9539388158891970, 0.0168059652003473); (0.9696866400805394, 0.0149654500997430);
   (0.9846867286820818, 0.0146153704654768); (0.9966974898357936, 0.0082230583066148)];
  [(0.0031959775782643, 0.0079577983612402); (0.0148192948237917, 0.0141439069020743); (0.0293355095994779, 0.0144826936449126); (0.0445753394620674, 0.0162638372906587);
   (0.0608075979730819, 0.0157001063588563); (0.0766709903774849, 0.0164721470078521); (0.0930219565534834, 0.0157701532172200); (0.1089205428351787, 0.0164834701137612);
   (0.1252777625939428, 0.0157737816616254); (0.1411781690249515, 0.0164840543066230); (0.1575357108958425, 0.0157739683932474); (0.1734362109901600, 0.0164840843649914);
   (0.1897937694332196, 0.0157739779998488); (0.2056942743460854, 0.0164840859112876); (0.2220518336415441, 0.0157739784937010); (0.2379523388015275, 0.0164840859896527);
   (0.2543098981382775, 0.0157739785134063); (0.2702104032987859, 0.0164840859750298); (0.2865679625973311, 0.0157739784246313); (0.3024684675659142, 0.0164840856804811);
   (0.3188260262273364, 0.0157739770059475); (0.3347265281629151, 0.0164840810382165); (0.3510840767882443, 0.0157739546615759); (0.3669845309555312, 0.0164840079255862);
   (0.3833419215254997, 0.0157736027737110); (0.3992416234227274, 0.0164828565393399); (0.4155965264700564, 0.0157680663106562); (0.4314843933842301, 0.0164647462044411);
   (0.4478005480722292, 0.0156822401482272); (0.4635053786012265, 0.0161859432931061); (0.4792986942273833, 0.0146241903058418); (0.4930403961322402, 0.0136800751822495);
   (0.5069596038677597, 0.0136800751822494); (0.5207013057726166, 0.0146241903058418); (0.5364946213987734, 0.0161859432931062); (0.5521994519277708, 0.0156822401482272);
   (0.5685156066157697, 0.0164647462044411); (0.5844034735299435, 0.0157680663106561); (0.6007583765772725, 0.0164828565393399); (0.6166580784745003, 0.0157736027737109);
   (0.6330154690444687, 0.0164840079255863); (0.6489159232117557, 0.0157739546615758); (0.6652734718370847, 0.0164840810382165); (0.6811739737726635, 0.0157739770059474);
   (0.6975315324340857, 0.0164840856804811); (0.7134320374026689, 0.0157739784246313); (0.7297895967012140, 0.0164840859750298); (0.7456901018617225, 0.0157739785134062);
   (0.7620476611984724, 0.0164840859896528); (0.7779481663584558, 0.0157739784937010); (0.7943057256539146, 0.0164840859112876); (0.8102062305667803, 0.0157739779998487);
   (0.8265637890098398, 0.0164840843649914); (0.8424642891041574, 0.0157739683932474); (0.8588218309750484, 0.0164840543066230); (0.8747222374060571, 0.0157737816616253);
   (0.8910794571648213, 0.0164834701137612); (0.9069780434465166, 0.0157701532172200); (0.9233290096225150, 0.0164721470078522); (0.9391924020269180, 0.0157001063588563);
   (0.9554246605379326, 0.0162638372906586); (0.9706644904005221, 0.0144826936449126); (0.9851807051762083, 0.0141439069020744); (0.9968040224217358, 0.0079577983612401)];
  [(0.0030961032789435, 0.0077091171624514); (0.0143561918605482, 0.0137019098113845); (0.0284187749244943, 0.0140301094685091); (0.0431823601038778, 0.0157555923753256);
   (0.0589073605364231, 0.0152094780351421); (0.0742750219281885, 0.0159573924138567); (0.0901150204111871, 0.0152773359291819); (0.1055167758715793, 0.0159683616727062);
   (0.1213628325128821, 0.0152808509846997); (0.1367663512429220, 0.0159689276095412); (0.1526127199303482, 0.0152810318809596); (0.1680163293967207, 0.0159689567285891);
   (0.1838627141384427, 0.0152810411873713); (0.1992663282728195, 0.0159689582266182); (0.2151127138404214, 0.0152810416660539); (0.2305163282147559, 0.0159689583033955);
   (0.2463627138242201, 0.0152810416892877); (0.2617663282079233, 0.0159689583027902); (0.2776127138096936, 0.0152810416685583); (0.2930163281470076, 0.0159689582310195);
   (0.3088627135932884, 0.0152810413221908); (0.3242663271900236, 0.0159689570974727); (0.3401127101856766, 0.0152810358660975); (0.3555163121182479, 0.0159689392446611);
   (0.3713626565183545, 0.0152809499372830); (0.3867660747505990, 0.0159686580794893); (0.4026118114023574, 0.0152795969529312); (0.4180123372522063, 0.0159642313231791);
   (0.4338485289217656, 0.0152583730102113); (0.4492036996810623, 0.0158948775346634); (0.4648958225210557, 0.0149444846667342); (0.4795928943282464, 0.0149181366289746);
   (0.4939143481963153, 0.0128816549886702); (0.5060856518036847, 0.0128816549886702); (0.5204071056717535, 0.0149181366289746); (0.5351041774789443, 0.0149444846667342);
   (0.5507963003189378, 0.0158948775346634); (0.5661514710782344, 0.0152583730102113); (0.5819876627477937, 0.0159642313231791); (0.5973881885976425, 0.0152795969529312);
   (0.6132339252494009, 0.0159686580794893); (0.6286373434816455, 0.0152809499372830); (0.6444836878817520, 0.0159689392446611); (0.6598872898143233, 0.0152810358660975);
   (0.6757336728099764, 0.0159689570974727); (0.6911372864067117, 0.0152810413221908); (0.7069836718529924, 0.0159689582310195); (0.7223872861903065, 0.0152810416685583);
   (0.7382336717920767, 0.0159689583027902); (0.7536372861757799, 0.0152810416892877); (0.7694836717852440, 0.0159689583033955); (0.7848872861595786, 0.0152810416660539);
   (0.8007336717271806, 0.0159689582266182); (0.8161372858615573, 0.0152810411873713); (0.8319836706032794, 0.0159689567285891); (0.8473872800696518, 0.0152810318809596);
   (0.8632336487570780, 0.0159689276095412); (0.8786371674871178, 0.0152808509846996); (0.8944832241284206, 0.0159683616727062); (0.9098849795888129, 0.0152773359291819);
   (0.9257249780718115, 0.0159573924138567); (0.9410926394635769, 0.0152094780351421); (0.9568176398961222, 0.0157555923753256); (0.9715812250755057, 0.0140301094685091);
   (0.9856438081394517, 0.0137019098113844); (0.9969038967210565, 0.0077091171624514)];
  [(0.0030022819674604, 0.0074755075514680); (0.0139211557435619, 0.0132867004231607); (0.0275575999267823, 0.0136049546361300); (0.0418738037370936, 0.0152781501821339);
   (0.0571222890050164, 0.0147485847613499); (0.0720242636879404, 0.0154738350679823); (0.0873842622169087, 0.0148143863555703); (0.1023192978148648, 0.0154844719250484);
   (0.1176851709215827, 0.0148177948942542); (0.1326219163567729, 0.0154850207122825); (0.1479880920536711, 0.0148179703088096); (0.1629249254756087, 0.0154850489489358);
   (0.1782911167403108, 0.0148179793332129); (0.1932279546888067, 0.0154850504015834); (0.2085941467543909, 0.0148179797974543); (0.2235309849357107, 0.0154850504762446);
   (0.2388971770423437, 0.0148179798209972); (0.2538340152349142, 0.0154850504789730); (0.2692002073412535, 0.0148179798168528); (0.2841370455229535, 0.0154850504615894);
   (0.2995032375913929, 0.0148179797322926); (0.3144400755922149, 0.0154850501847046); (0.3298062670620413, 0.0148179783995296); (0.3447431022136472, 0.0154850458237797);
   (0.3601092842556233, 0.0148179574093593); (0.3750460745339839, 0.0154849771422174); (0.3904121080997118, 0.0148176268480315); (0.4053481917001379, 0.0154838955369557);
   (0.4207118885021742, 0.0148124259281921); (0.4356368543912466, 0.0154668827981113); (0.4509641512193669, 0.0147318013513650); (0.4657171738375159, 0.0152049770329179);
   (0.4805533188196631, 0.0137378757418514); (0.4934621903060438, 0.0128509797166586); (0.5065378096939561, 0.0128509797166585); (0.5194466811803369, 0.0137378757418514);
   (0.5342828261624841, 0.0152049770329179); (0.5490358487806332, 0.0147318013513650); (0.5643631456087534, 0.0154668827981113); (0.5792881114978258, 0.0148124259281921);
   (0.5946518082998621, 0.0154838955369557); (0.6095878919002882, 0.0148176268480315); (0.6249539254660161, 0.0154849771422174); (0.6398907157443767, 0.0148179574093593);
   (0.6552568977863529, 0.0154850458237796); (0.6701937329379588, 0.0148179783995296); (0.6855599244077851, 0.0154850501847046); (0.7004967624086071, 0.0148179797322926);
   (0.7158629544770464, 0.0154850504615894); (0.7307997926587464, 0.0148179798168528); (0.7461659847650858, 0.0154850504789729); (0.7611028229576562, 0.0148179798209972);
   (0.7764690150642892, 0.0154850504762446); (0.7914058532456091, 0.0148179797974543); (0.8067720453111933, 0.0154850504015834); (0.8217088832596893, 0.0148179793332129);
   (0.8370750745243913, 0.0154850489489358); (0.8520119079463289, 0.0148179703088096); (0.8673780836432271, 0.0154850207122825); (0.8823148290784173, 0.0148177948942542);
   (0.8976807021851352, 0.0154844719250484); (0.9126157377830914, 0.0148143863555703); (0.9279757363120597, 0.0154738350679823); (0.9428777109949836, 0.0147485847613499);
   (0.9581261962629064, 0.0152781501821339); (0.9724424000732177, 0.0136049546361300); (0.9860788442564381, 0.0132867004231608); (0.9969977180325397, 0.0074755075514680)];
  [(0.0029139795566527, 0.0072556396823072); (0.0135117099863983, 0.0128959151165971); (0.0267470822818770, 0.0132048089115380); (0.0406422212742379, 0.0148287928238358);
   (0.0554422216813394, 0.0143148028566043); (0.0699059029912362, 0.0150187222718652); (0.0848141368575878, 0.0143786691098183); (0.0993099067026629, 0.0150290462801940);
   (0.1142238423650655, 0.0143819773973644); (0.1287212717580443, 0.0150295789266271); (0.1436355011109161, 0.0143821476526682); (0.1581330159027969, 0.0150296063327909);
   (0.1730472603655964, 0.0143821564116489); (0.1875447795509035, 0.0150296077427168); (0.2024590247910369, 0.0143821568622518); (0.2169565442023538, 0.0150296078152335);
   (0.2318707894824399, 0.0143821568853500); (0.2463683089052061, 0.0150296078186920); (0.2612825541867591, 0.0143821568852281); (0.2757800736073133, 0.0150296078145828);
   (0.2906943188796735, 0.0143821568645868); (0.3051918382559997, 0.0150296077468518); (0.3201060833819165, 0.0143821565385357); (0.3346036020611983, 0.0150296066799749);
   (0.3495178448806367, 0.0143821514033860); (0.3640153525818804, 0.0150295898773281); (0.3789295590760983, 0.0143820705292075); (0.3934268938829167, 0.0150293252512841);
   (0.4083405283786893, 0.0143807971321705); (0.4228351409432530, 0.0150251588924039); (0.4377397919263676, 0.0143608216566695); (0.4521917173468821, 0.0149598847385067);
   (0.4669607741374642, 0.0140653973333969); (0.4807933123089378, 0.0140405991802114); (0.4942723277141791, 0.0121239105775720); (0.5057276722858208, 0.0121239105775720);
   (0.5192066876910622, 0.0140405991802114); (0.5330392258625358, 0.0140653973333969); (0.5478082826531179, 0.0149598847385067); (0.5622602080736324, 0.0143608216566695);
   (0.5771648590567470, 0.0150251588924039); (0.5916594716213106, 0.0143807971321706); (0.6065731061170833, 0.0150293252512840); (0.6210704409239016, 0.0143820705292075);
   (0.6359846474181197, 0.0150295898773281); (0.6504821551193632, 0.0143821514033860); (0.6653963979388017, 0.0150296066799748); (0.6798939166180835, 0.0143821565385357);
   (0.6948081617440002, 0.0150296077468518); (0.7093056811203264, 0.0143821568645868); (0.7242199263926866, 0.0150296078145827); (0.7387174458132408, 0.0143821568852281);
   (0.7536316910947939, 0.0150296078186919); (0.7681292105175600, 0.0143821568853500); (0.7830434557976461, 0.0150296078152335); (0.7975409752089629, 0.0143821568622518);
   (0.8124552204490963, 0.0150296077427168); (0.8269527396344035, 0.0143821564116489); (0.8418669840972031, 0.0150296063327908); (0.8563644988890838, 0.0143821476526682);
   (0.8712787282419557, 0.0150295789266271); (0.8857761576349344, 0.0143819773973644); (0.9006900932973371, 0.0150290462801940); (0.9151858631424121, 0.0143786691098183);
   (0.9300940970087638, 0.0150187222718651); (0.9445577783186605, 0.0143148028566043); (0.9593577787257621, 0.0148287928238358); (0.9732529177181231, 0.0132048089115380);
   (0.9864882900136017, 0.0128959151165971); (0.9970860204433474, 0.0072556396823072)];
  [(0.0028307229978912, 0.0070483356913842); (0.0131256611296441, 0.0125274603989801); (0.0259828799309662, 0.0128275286569226); (0.0394810149521168, 0.0144051130288691);
   (0.0538581582047297, 0.0139058084892727); (0.0679085914772009, 0.0145896159212404); (0.0823908758045139, 0.0139678499923949); (0.0964724807968725, 0.0145996449579028);
   (0.1109603040117779, 0.0139710637574397); (0.1250435211363859, 0.0146001623858664); (0.1395316296506043, 0.0139712291483063); (0.1536149297341456, 0.0146001890089969);
   (0.1681030529265795, 0.0139712376570306); (0.1821863572780213, 0.0146001903786401); (0.1966744812255813, 0.0139712380947630); (0.2107577857965836, 0.0146001904490975);
   (0.2252459097829821, 0.0139712381172619); (0.2393292143652362, 0.0146001904526556); (0.2538173383534888, 0.0139712381180988); (0.2679006429356364, 0.0146001904517895);
   (0.2823887669217162, 0.0139712381130922); (0.2964720714930633, 0.0146001904352225); (0.3109601954433114, 0.0139712380333075); (0.3250434998440880, 0.0146001901741505);
   (0.3395316232299245, 0.0139712367766995); (0.3536149249442959, 0.0146001860624209); (0.3681030394410163, 0.0139712169859673); (0.3821862988463276, 0.0146001213055192);
   (0.3966742733511568, 0.0139709053138583); (0.4107568664601300, 0.0145991015062725); (0.4252426377306214, 0.0139660015894383); (0.4393147484260325, 0.0145830609239335);
   (0.4537661997211173, 0.0138899841312870); (0.4676761924753721, 0.0143361212024655); (0.4816645577442538, 0.0129528542708885); (0.4938357794314128, 0.0121166380185638);
   (0.5061642205685872, 0.0121166380185638); (0.5183354422557461, 0.0129528542708885); (0.5323238075246279, 0.0143361212024654); (0.5462338002788827, 0.0138899841312870);
   (0.5606852515739675, 0.0145830609239335); (0.5747573622693786, 0.0139660015894384); (0.5892431335398700, 0.0145991015062724); (0.6033257266488431, 0.0139709053138584);
   (0.6178137011536724, 0.0146001213055192); (0.6318969605589837, 0.0139712169859674); (0.6463850750557042, 0.0146001860624208); (0.6604683767700754, 0.0139712367766996);
   (0.6749565001559121, 0.0146001901741505); (0.6890398045566886, 0.0139712380333076); (0.7035279285069368, 0.0146001904352224); (0.7176112330782838, 0.0139712381130923);
   (0.7320993570643637, 0.0146001904517895); (0.7461826616465113, 0.0139712381180988); (0.7606707856347638, 0.0146001904526556); (0.7747540902170178, 0.0139712381172619);
   (0.7892422142034163, 0.0146001904490974); (0.8033255187744186, 0.0139712380947631); (0.8178136427219787, 0.0146001903786400); (0.8318969470734204, 0.0139712376570307);
   (0.8463850702658544, 0.0146001890089968); (0.8604683703493957, 0.0139712291483063); (0.8749564788636142, 0.0146001623858663); (0.8890396959882220, 0.0139710637574398);
   (0.9035275192031275, 0.0145996449579027); (0.9176091241954860, 0.0139678499923949); (0.9320914085227991, 0.0145896159212404); (0.9461418417952703, 0.0139058084892728);
   (0.9605189850478832, 0.0144051130288690); (0.9740171200690338, 0.0128275286569227); (0.9868743388703559, 0.0125274603989800); (0.9971692770021088, 0.0070483356913842)];
  [(0.0027520918035053, 0.0068525485888457); (0.0127610594315984, 0.0121794753878973); (0.0252611332662171, 0.0124712084164525); (0.0383843200923358, 0.0140049710002894);
   (0.0523620982545983, 0.0135195360312374); (0.0660222417139453, 0.0141843488123171); (0.0801022403654996, 0.0135798541592728); (0.0937926896636261, 0.0141940992646277);
   (0.1078780733447841, 0.0135829786530664); (0.1215700899937085, 0.0141946023195923); (0.1356557510491986, 0.0135831394497422); (0.1493478483526415, 0.0141946282031914);
   (0.1634335236786190, 0.0135831477221132); (0.1771256251314098, 0.0141946295347892); (0.1912113011915380, 0.0135831481476873); (0.2049034028577924, 0.0141946296032925);
   (0.2189890789556869, 0.0135831481695760); (0.2326811806329124, 0.0141946296068004); (0.2467668567327145, 0.0135831481706235); (0.2604589584103364, 0.0141946296067237);
   (0.2745446345096809, 0.0135831481694400); (0.2882367361846777, 0.0141946296026708); (0.3023224122752453, 0.0135831481498905); (0.3160145139084438, 0.0141946295386938);
   (0.3301001898606988, 0.0135831478419505); (0.3437922908355762, 0.0141946285310874); (0.3578779646094902, 0.0135831429920868); (0.3715700552162203, 0.0141946126619209);
   (0.3856556946829817, 0.0135830666109182); (0.3993476220005325, 0.0141943627373238); (0.4134327212465399, 0.0135818639581611); (0.4271220775575167, 0.0141904278428259);
   (0.4411986923749027, 0.0135629982312989); (0.4548477330498331, 0.0141287800308119); (0.4687962866853828, 0.0132839863704304); (0.4818603505139968, 0.0132605658924219);
   (0.4945905317300580, 0.0114503599899291); (0.5054094682699419, 0.0114503599899292); (0.5181396494860032, 0.0132605658924218); (0.5312037133146172, 0.0132839863704304);
   (0.5451522669501669, 0.0141287800308118); (0.5588013076250973, 0.0135629982312990); (0.5728779224424833, 0.0141904278428259); (0.5865672787534600, 0.0135818639581611);
   (0.6006523779994675, 0.0141943627373238); (0.6143443053170182, 0.0135830666109183); (0.6284299447837796, 0.0141946126619209); (0.6421220353905097, 0.0135831429920868);
   (0.6562077091644238, 0.0141946285310873); (0.6698998101393011, 0.0135831478419506); (0.6839854860915562, 0.0141946295386938); (0.6976775877247547, 0.0135831481498905);
   (0.7117632638153223, 0.0141946296026708); (0.7254553654903191, 0.0135831481694401); (0.7395410415896636, 0.0141946296067237); (0.7532331432672854, 0.0135831481706236);
   (0.7673188193670876, 0.0141946296068003); (0.7810109210443129, 0.0135831481695761); (0.7950965971422075, 0.0141946296032924); (0.8087886988084619, 0.0135831481476873);
   (0.8228743748685902, 0.0141946295347891); (0.8365664763213809, 0.0135831477221132); (0.8506521516473584, 0.0141946282031914); (0.8643442489508013, 0.0135831394497423);
   (0.8784299100062916, 0.0141946023195922); (0.8921219266552158, 0.0135829786530664); (0.9062073103363739, 0.0141940992646276); (0.9198977596345004, 0.0135798541592729);
   (0.9339777582860547, 0.0141843488123170); (0.9476379017454016, 0.0135195360312375); (0.9616156799076643, 0.0140049710002893); (0.9747388667337828, 0.0124712084164526);
   (0.9872389405684016, 0.0121794753878972); (0.9972479081964947, 0.0068525485888457)];
  [(0.0026777109439511, 0.0066673445729310); (0.0124161659334471, 0.0118503003774136); (0.0245783999346977, 0.0121341487295214); (0.0373469060357862, 0.0136264582705518);
   (0.0509469064098795, 0.0131541431655283); (0.0642378568027576, 0.0138009880336058); (0.0779373149502159, 0.0132128310738871); (0.0912577521051497, 0.0138104749601783);
   (0.1049624497408710, 0.0132158711219024); (0.1182844118857704, 0.0138109644190628); (0.1319893793992203, 0.0132160275727221); (0.1453114200187864, 0.0138109896031052);
   (0.1590164014170347, 0.0132160356215155); (0.1723384460738042, 0.0138109908987138); (0.1860434281863615, 0.0132160360355879); (0.1993654730508257, 0.0138109909653665);
   (0.2130704552001303, 0.0132160360568887); (0.2263925000752769, 0.0138109909687914); (0.2400974822264632, 0.0132160360579653); (0.2534195271021182, 0.0138109909689047);
   (0.2671245092532651, 0.0132160360577173); (0.2804465541282979, 0.0138109909679181); (0.2941515362772973, 0.0132160360529280); (0.3074735811420866, 0.0138109909522379);
   (0.3211785632571864, 0.0132160359774532); (0.3345006079606238, 0.0138109907052776); (0.3482055895418205, 0.0132160347887698); (0.3615276317040637, 0.0138109868158035);
   (0.3752326048766370, 0.0132160160678069); (0.3885546070167964, 0.0138109255592750); (0.4022594477646079, 0.0132157212428389); (0.4155808196244474, 0.0138099608843119);
   (0.4292835762316690, 0.0132110825846038); (0.4425950322948956, 0.0137947873604777); (0.4562653240605164, 0.0131391741782444); (0.4694234253145412, 0.0135611957320619);
   (0.4826556627310509, 0.0122526999859755); (0.4941689805432283, 0.0114616846121549); (0.5058310194567718, 0.0114616846121549); (0.5173443372689491, 0.0122526999859756);
   (0.5305765746854588, 0.0135611957320620); (0.5437346759394837, 0.0131391741782444); (0.5574049677051044, 0.0137947873604777); (0.5707164237683311, 0.0132110825846038);
   (0.5844191803755527, 0.0138099608843118); (0.5977405522353921, 0.0132157212428389); (0.6114453929832037, 0.0138109255592750); (0.6247673951233631, 0.0132160160678069);
   (0.6384723682959363, 0.0138109868158036); (0.6517944104581795, 0.0132160347887698); (0.6654993920393762, 0.0138109907052776); (0.6788214367428136, 0.0132160359774532);
   (0.6925264188579134, 0.0138109909522379); (0.7058484637227027, 0.0132160360529280); (0.7195534458717022, 0.0138109909679181); (0.7328754907467350, 0.0132160360577173);
   (0.7465804728978819, 0.0138109909689047); (0.7599025177735368, 0.0132160360579652); (0.7736074999247231, 0.0138109909687915); (0.7869295447998698, 0.0132160360568887);
   (0.8006345269491743, 0.0138109909653665); (0.8139565718136386, 0.0132160360355879); (0.8276615539261959, 0.0138109908987138); (0.8409835985829653, 0.0132160356215155);
   (0.8546885799812137, 0.0138109896031052); (0.8680106206007798, 0.0132160275727221); (0.8817155881142296, 0.0138109644190628); (0.8950375502591290, 0.0132158711219024);
   (0.9087422478948504, 0.0138104749601783); (0.9220626850497842, 0.0132128310738870); (0.9357621431972425, 0.0138009880336058); (0.9490530935901206, 0.0131541431655282);
   (0.9626530939642138, 0.0136264582705519); (0.9754216000653023, 0.0121341487295213); (0.9875838340665529, 0.0118503003774137); (0.9973222890560489, 0.0066673445729309)];
  [(0.0026072448664787, 0.0064918881368012); (0.0120894247246722, 0.0115384503674816); (0.0239315999364162, 0.0118148290261129); (0.0363640927190550, 0.0132678672634321);
   (0.0496061983464616, 0.0128079815032775); (0.0625473868868956, 0.0134378041379846); (0.0758863329778418, 0.0128651249929953); (0.0888562323129089, 0.0134470414085947);
   (0.1022002800108481, 0.0128680850397471); (0.1151716642045659, 0.0134475179869822); (0.1285159746781881, 0.0128682373734400); (0.1414874352814499, 0.0134475425082866);
   (0.1548317592744812, 0.0128682452104230); (0.1678032238087041, 0.0134475437698003); (0.1811475484972467, 0.0128682456135988); (0.1941190132336989, 0.0134475438346992);
   (0.2074633379580222, 0.0128682456343399); (0.2204348027048774, 0.0134475438380369); (0.2337791274310393, 0.0128682456354022); (0.2467505921784197, 0.0134475438381932);
   (0.2600949169046428, 0.0128682456353825); (0.2730663816518910, 0.0134475438379576); (0.2864107063775906, 0.0128682456342092); (0.2993821711223260, 0.0134475438341097);
   (0.3127264958397060, 0.0128682456156858); (0.3256979605448415, 0.0134475437734994); (0.3390422851311883, 0.0128682453239531); (0.3520137492126511, 0.0134475428189249);
   (0.3653580717353065, 0.0128682407293454); (0.3783295259943140, 0.0134475277849777); (0.3916738160154564, 0.0128681683682383); (0.4046451155794519, 0.0134472910143068);
   (0.4179888938125115, 0.0128670290129947); (0.4309577576860685, 0.0134435632195193); (0.4442934980393815, 0.0128491562191253); (0.4572241681524735, 0.0133851600291902);
   (0.4704385873861521, 0.0125848291930393); (0.4828150689079970, 0.0125626413717681); (0.4948752405863708, 0.0108477094641434); (0.5051247594136292, 0.0108477094641434);
   (0.5171849310920030, 0.0125626413717681); (0.5295614126138478, 0.0125848291930393); (0.5427758318475264, 0.0133851600291903); (0.5557065019606184, 0.0128491562191253);
   (0.5690422423139315, 0.0134435632195192); (0.5820111061874885, 0.0128670290129947); (0.5953548844205482, 0.0134472910143068); (0.6083261839845436, 0.0128681683682383);
   (0.6216704740056860, 0.0134475277849778); (0.6346419282646935, 0.0128682407293453); (0.6479862507873488, 0.0134475428189249); (0.6609577148688116, 0.0128682453239531);
   (0.6743020394551584, 0.0134475437734995); (0.6872735041602940, 0.0128682456156859); (0.7006178288776740, 0.0134475438341096); (0.7135892936224093, 0.0128682456342091);
   (0.7269336183481090, 0.0134475438379577); (0.7399050830953572, 0.0128682456353824); (0.7532494078215802, 0.0134475438381932); (0.7662208725689607, 0.0128682456354022);
   (0.7795651972951225, 0.0134475438380369); (0.7925366620419778, 0.0128682456343399); (0.8058809867663010, 0.0134475438346992); (0.8188524515027532, 0.0128682456135987);
   (0.8321967761912958, 0.0134475437698004); (0.8451682407255188, 0.0128682452104230); (0.8585125647185501, 0.0134475425082867); (0.8714840253218118, 0.0128682373734400);
   (0.8848283357954340, 0.0134475179869822); (0.8977997199891518, 0.0128680850397471); (0.9111437676870910, 0.0134470414085946); (0.9241136670221582, 0.0128651249929953);
   (0.9374526131131043, 0.0134378041379847); (0.9503938016535384, 0.0128079815032775); (0.9636359072809449, 0.0132678672634321); (0.9760684000635838, 0.0118148290261129);
   (0.9879105752753278, 0.0115384503674816); (0.9973927551335212, 0.0064918881368012)];
  [(0.0025403924340049, 0.0063254294666268); (0.0117794394753216, 0.0112425926657513); (0.0233179691688158, 0.0115118846921100); (0.0354316800852330, 0.0129276655387287);
   (0.0483342445427062, 0.0124795717211422); (0.0609436077359495, 0.0130932450575235); (0.0739405295681535, 0.0125352499931749); (0.0865778673818087, 0.0131022454750410);
   (0.0995797600105700, 0.0125381341412920); (0.1122185446095771, 0.0131027098334698); (0.1252206932761833, 0.0125382825689928); (0.1378595523255152, 0.0131027337260228);
   (0.1508617141648791, 0.0125382902050276); (0.1635005770443783, 0.0131027349551901); (0.1765027395614199, 0.0125382905978655); (0.1891416026379631, 0.0131027350184249);
   (0.2021437651898679, 0.0125382906180750); (0.2147826282765479, 0.0131027350216777); (0.2277847908302458, 0.0125382906191136); (0.2404236539174448, 0.0131027350218413);
   (0.2534258164712267, 0.0125382906191487); (0.2660646795584133, 0.0131027350217900); (0.2790668421120703, 0.0125382906188628); (0.2917057051986413, 0.0131027350208458);
   (0.3047078677502564, 0.0125382906143164); (0.3173467308271077, 0.0131027350059693); (0.3303488933465614, 0.0125382905427121); (0.3429877562703353, 0.0131027347716736);
   (0.3559899182832656, 0.0125382894149867); (0.3686287787961630, 0.0131027310816597); (0.3816309328316812, 0.0125382716540733); (0.3942697553749094, 0.0131026729664917);
   (0.4072717837766792, 0.0125379919483343); (0.4199100083616552, 0.0131017577620394); (0.4329100595018398, 0.0125335911700087); (0.4455388767925932, 0.0130873623676326);
   (0.4585081279548489, 0.0124653703742319); (0.4709914547855903, 0.0128657497970844); (0.4835451159243303, 0.0116243563969512); (0.4944680071820371, 0.0108739059140957);
   (0.5055319928179629, 0.0108739059140957); (0.5164548840756696, 0.0116243563969511); (0.5290085452144097, 0.0128657497970844); (0.5414918720451511, 0.0124653703742319);
   (0.5544611232074067, 0.0130873623676327); (0.5670899404981602, 0.0125335911700087); (0.5800899916383448, 0.0131017577620395); (0.5927282162233207, 0.0125379919483343);
   (0.6057302446250906, 0.0131026729664917); (0.6183690671683187, 0.0125382716540733); (0.6313712212038370, 0.0131027310816597); (0.6440100817167344, 0.0125382894149867);
   (0.6570122437296646, 0.0131027347716736); (0.6696511066534385, 0.0125382905427120); (0.6826532691728923, 0.0131027350059694); (0.6952921322497436, 0.0125382906143164);
   (0.7082942948013587, 0.0131027350208458); (0.7209331578879297, 0.0125382906188628); (0.7339353204415866, 0.0131027350217900); (0.7465741835287734, 0.0125382906191488);
   (0.7595763460825552, 0.0131027350218412); (0.7722152091697542, 0.0125382906191135); (0.7852173717234520, 0.0131027350216778); (0.7978562348101320, 0.0125382906180750);
   (0.8108583973620369, 0.0131027350184249); (0.8234972604385801, 0.0125382905978655); (0.8364994229556216, 0.0131027349551901); (0.8491382858351209, 0.0125382902050275);
   (0.8621404476744847, 0.0131027337260229); (0.8747793067238167, 0.0125382825689929); (0.8877814553904230, 0.0131027098334698); (0.9004202399894300, 0.0125381341412920);
   (0.9134221326181913, 0.0131022454750410); (0.9260594704318464, 0.0125352499931749); (0.9390563922640504, 0.0130932450575235); (0.9516657554572938, 0.0124795717211422);
   (0.9645683199147669, 0.0129276655387287); (0.9766820308311842, 0.0115118846921100); (0.9882205605246783, 0.0112425926657514); (0.9974596075659951, 0.0063254294666268)];
  [(0.0024768826231548, 0.0061672937299611); (0.0114849534884386, 0.0109615278491076); (0.0227350199395954, 0.0112240875748073); (0.0345458880831022, 0.0126044739002605);
   (0.0471258884291385, 0.0121675824281137); (0.0594200175425508, 0.0127659139310854); (0.0720920163289497, 0.0122218687433455); (0.0844134206972635, 0.0127746893381649);
   (0.0970902660103057, 0.0122246807877597); (0.1094130809943376, 0.0127751420876331); (0.1220901759442787, 0.0122248255047680); (0.1344130635173774, 0.0127751653828723);
   (0.1470901713107572, 0.0122248329499019); (0.1594130626182689, 0.0127751665813103); (0.1720901710723844, 0.0122248333329189); (0.1844130625720140, 0.0127751666429642);
   (0.1970901710601213, 0.0122248333526232); (0.2094130625696344, 0.0127751666461360); (0.2220901710594902, 0.0122248333536367); (0.2344130625695112, 0.0127751666462982);
   (0.2470901710594549, 0.0122248333536843); (0.2594130625694924, 0.0127751666462919); (0.2720901710594090, 0.0122248333536160); (0.2844130625692962, 0.0127751666460602);
   (0.2970901710587111, 0.0122248333524988); (0.3094130625662097, 0.0127751666424042); (0.3220901710477207, 0.0122248333349016); (0.3344130625175994, 0.0127751665848244);
   (0.3470901708746290, 0.0122248330577555); (0.3594130617520185, 0.0127751656779786); (0.3720901681485412, 0.0122248286928781); (0.3844130496945983, 0.0127751513957288);
   (0.3970901252146836, 0.0122247599498264); (0.4094128598004793, 0.0127749264635914); (0.4220894491218860, 0.0122236775623450); (0.4344098698017650, 0.0127713850585433);
   (0.4470788231374125, 0.0122066984081691); (0.4593629597448498, 0.0127159020277307); (0.4719166580168446, 0.0119555877333873); (0.4836743154625971, 0.0119345093031797);
   (0.4951314785570523, 0.0103053239909362); (0.5048685214429478, 0.0103053239909362); (0.5163256845374028, 0.0119345093031797); (0.5280833419831554, 0.0119555877333873);
   (0.5406370402551501, 0.0127159020277307); (0.5529211768625876, 0.0122066984081690); (0.5655901301982350, 0.0127713850585433); (0.5779105508781142, 0.0122236775623449);
   (0.5905871401995209, 0.0127749264635915); (0.6029098747853165, 0.0122247599498264); (0.6155869503054018, 0.0127751513957288); (0.6279098318514588, 0.0122248286928781);
   (0.6405869382479814, 0.0127751656779787); (0.6529098291253711, 0.0122248330577554); (0.6655869374824006, 0.0127751665848245); (0.6779098289522794, 0.0122248333349015);
   (0.6905869374337904, 0.0127751666424042); (0.7029098289412891, 0.0122248333524988); (0.7155869374307039, 0.0127751666460602); (0.7279098289405911, 0.0122248333536161);
   (0.7405869374305076, 0.0127751666462918); (0.7529098289405450, 0.0122248333536842); (0.7655869374304888, 0.0127751666462983); (0.7779098289405099, 0.0122248333536366);
   (0.7905869374303657, 0.0127751666461360); (0.8029098289398788, 0.0122248333526232); (0.8155869374279860, 0.0127751666429643); (0.8279098289276157, 0.0122248333329188);
   (0.8405869373817312, 0.0127751665813103); (0.8529098286892429, 0.0122248329499019); (0.8655869364826227, 0.0127751653828722); (0.8779098240557213, 0.0122248255047679);
   (0.8905869190056623, 0.0127751420876331); (0.9029097339896943, 0.0122246807877597); (0.9155865793027366, 0.0127746893381650); (0.9279079836710504, 0.0122218687433455);
   (0.9405799824574492, 0.0127659139310854); (0.9528741115708615, 0.0121675824281136); (0.9654541119168978, 0.0126044739002605); (0.9772649800604047, 0.0112240875748073);
   (0.9885150465115615, 0.0109615278491075); (0.9975231173768452, 0.0061672937299612)];
  [(0.0024164708518583, 0.0060168719316694); (0.0112048326716474, 0.0106941735113245); (0.0221805072581419, 0.0109503293412754); (0.0337033054469290, 0.0122970477075712);
   (0.0459764765162327, 0.0118708121249889); (0.0579707488220008, 0.0124545501766687); (0.0703336744672680, 0.0119237743837517); (0.0823545567778180, 0.0124631115494292);
   (0.0947222107417617, 0.0119265178417168); (0.1067444692627684, 0.0124635532562274); (0.1191123667749061, 0.0119266590290419); (0.1311346961145145, 0.0124635759832900);
   (0.1435026061568362, 0.0119266662925872); (0.1555249391397745, 0.0124635771524979); (0.1678928498267165, 0.0119266666662623); (0.1799151829970869, 0.0124635772126480);
   (0.1922830937171915, 0.0119266666854861); (0.2043054268972043, 0.0124635772157425); (0.2166733376190150, 0.0119266666864750); (0.2286956707995237, 0.0124635772159014);
   (0.2410635815214216, 0.0119266666865248); (0.2530859147019535, 0.0124635772159060); (0.2654538254238482, 0.0119266666865099); (0.2774761586043441, 0.0124635772158494);
   (0.2898440693261156, 0.0119266666862355); (0.3018664025060245, 0.0124635772149509); (0.3142343132258536, 0.0119266666819108); (0.3262566463965171, 0.0124635772008001);
   (0.3386245570857536, 0.0119266666137993); (0.3506468901108067, 0.0124635769779334); (0.3630148003182282, 0.0119266655410850); (0.3750371310500087, 0.0124635734679203);
   (0.3874050336691602, 0.0119266486465575); (0.3994273282834504, 0.0124635181876384); (0.4117951113973291, 0.0119263825850010); (0.4238168372220622, 0.0124626476273058);
   (0.4361827395261402, 0.0119221964787888); (0.4481955169490521, 0.0124489544472604); (0.4605321217131489, 0.0118573035267084); (0.4724065057716590, 0.0122381522460071);
   (0.4843477931963142, 0.0110573146214902); (0.4947378604902304, 0.0103434714792618); (0.5052621395097696, 0.0103434714792618); (0.5156522068036858, 0.0110573146214902);
   (0.5275934942283410, 0.0122381522460071); (0.5394678782868512, 0.0118573035267084); (0.5518044830509480, 0.0124489544472603); (0.5638172604738598, 0.0119221964787888);
   (0.5761831627779379, 0.0124626476273057); (0.5882048886026711, 0.0119263825850010); (0.6005726717165496, 0.0124635181876384); (0.6125949663308398, 0.0119266486465575);
   (0.6249628689499914, 0.0124635734679202); (0.6369851996817718, 0.0119266655410850); (0.6493531098891933, 0.0124635769779334); (0.6613754429142464, 0.0119266666137993);
   (0.6737433536034829, 0.0124635772008000); (0.6857656867741464, 0.0119266666819108); (0.6981335974939755, 0.0124635772149509); (0.7101559306738845, 0.0119266666862355);
   (0.7225238413956560, 0.0124635772158494); (0.7345461745761519, 0.0119266666865100); (0.7469140852980465, 0.0124635772159060); (0.7589364184785784, 0.0119266666865248);
   (0.7713043292004763, 0.0124635772159014); (0.7833266623809850, 0.0119266666864750); (0.7956945731027958, 0.0124635772157424); (0.8077169062828086, 0.0119266666854861);
   (0.8200848170029132, 0.0124635772126480); (0.8321071501732835, 0.0119266666662623); (0.8444750608602255, 0.0124635771524979); (0.8564973938431638, 0.0119266662925872);
   (0.8688653038854856, 0.0124635759832900); (0.8808876332250939, 0.0119266590290420); (0.8932555307372316, 0.0124635532562273); (0.9052777892582383, 0.0119265178417169);
   (0.9176454432221820, 0.0124631115494292); (0.9296663255327321, 0.0119237743837518); (0.9420292511779993, 0.0124545501766686); (0.9540235234837674, 0.0118708121249889);
   (0.9662966945530710, 0.0122970477075712); (0.9778194927418581, 0.0109503293412754); (0.9887951673283526, 0.0106941735113244); (0.9975835291481416, 0.0060168719316694)];
  [(0.0023589358315760, 0.0058736130761535); (0.0109380509413701, 0.0104395503324834); (0.0216523999424718, 0.0106896072141022); (0.0329008457934307, 0.0120042608573909);
   (0.0448817985039414, 0.0115881737410606); (0.0565904928976674, 0.0121580132677004); (0.0686590631704282, 0.0116398749936624); (0.0803937339973938, 0.0121663707982523);
   (0.0924669200098150, 0.0116425531311998); (0.1042029342803216, 0.0121668019882220); (0.1162763580421702, 0.0116426909569219); (0.1280124414451213, 0.0121668241741641);
   (0.1400858774388163, 0.0116426980475256); (0.1518219643983513, 0.0121668253155336); (0.1638954010213185, 0.0116426984123037); (0.1756314881638229, 0.0121668253742517);
   (0.1877049248191631, 0.0116426984310697); (0.1994410119710804, 0.0121668253772724); (0.2115144486280860, 0.0116426984320352); (0.2232505357804876, 0.0121668253774278);
   (0.2353239724375788, 0.0116426984320846); (0.2470600595900046, 0.0121668253774349); (0.2591334962470983, 0.0116426984320828); (0.2708695833995163, 0.0121668253774213);
   (0.2829430200565799, 0.0116426984320154); (0.2946791072088535, 0.0121668253772002); (0.3067525438654391, 0.0116426984309513); (0.3184886310154377, 0.0121668253737183);
   (0.3305620676644959, 0.0116426984141920); (0.3422981547786661, 0.0121668253188804); (0.3543715913091704, 0.0116426981502433); (0.3661076778590653, 0.0121668244552178);
   (0.3781811125224202, 0.0116426939932172); (0.3899171901853318, 0.0121668108530751); (0.4019905954425558, 0.0116426285236442); (0.4137265331433135, 0.0121665966319918);
   (0.4257994753541771, 0.0116415976784238); (0.4375332093350143, 0.0121632238652793); (0.4495988791784880, 0.0116254270553991); (0.4612980568998570, 0.0121103828835531);
   (0.4732539600160424, 0.0113862740317975); (0.4844517290119973, 0.0113661993363616); (0.4953633129114783, 0.0098145942770821); (0.5046366870885217, 0.0098145942770821);
   (0.5155482709880026, 0.0113661993363616); (0.5267460399839575, 0.0113862740317974); (0.5387019431001430, 0.0121103828835531); (0.5504011208215118, 0.0116254270553991);
   (0.5624667906649856, 0.0121632238652794); (0.5742005246458228, 0.0116415976784238); (0.5862734668566864, 0.0121665966319919); (0.5980094045574442, 0.0116426285236442);
   (0.6100828098146682, 0.0121668108530751); (0.6218188874775797, 0.0116426939932173); (0.6338923221409347, 0.0121668244552177); (0.6456284086908295, 0.0116426981502433);
   (0.6577018452213338, 0.0121668253188804); (0.6694379323355041, 0.0116426984141920); (0.6815113689845622, 0.0121668253737183); (0.6932474561345608, 0.0116426984309513);
   (0.7053208927911465, 0.0121668253772002); (0.7170569799434200, 0.0116426984320154); (0.7291304166004836, 0.0121668253774213); (0.7408665037529015, 0.0116426984320828);
   (0.7529399404099952, 0.0121668253774349); (0.7646760275624211, 0.0116426984320845); (0.7767494642195124, 0.0121668253774278); (0.7884855513719139, 0.0116426984320351);
   (0.8005589880289196, 0.0121668253772724); (0.8122950751808369, 0.0116426984310698); (0.8243685118361771, 0.0121668253742516); (0.8361045989786814, 0.0116426984123036);
   (0.8481780356016486, 0.0121668253155336); (0.8599141225611836, 0.0116426980475256); (0.8719875585548786, 0.0121668241741641); (0.8837236419578297, 0.0116426909569220);
   (0.8957970657196783, 0.0121668019882219); (0.9075330799901850, 0.0116425531311997); (0.9196062660026061, 0.0121663707982523); (0.9313409368295716, 0.0116398749936624);
   (0.9434095071023325, 0.0121580132677004); (0.9551182014960585, 0.0115881737410606); (0.9670991542065692, 0.0120042608573909); (0.9783476000575282, 0.0106896072141022);
   (0.9890619490586299, 0.0104395503324835); (0.9976410641684240, 0.0058736130761534)];
  [(0.0023040768587486, 0.0057370174232197); (0.0106836776636638, 0.0101967700921931); (0.0211488557577632, 0.0104410116974952); (0.0321357098447462, 0.0117250920002423);
   (0.0438380357480358, 0.0113186813284778); (0.0552744349233031, 0.0118752687731027); (0.0670623407711160, 0.0113691802263679); (0.0785241122765242, 0.0118834319424790);
   (0.0903165265212146, 0.0113717960816370); (0.1017796102272908, 0.0118838531047749); (0.1135722566923523, 0.0113719307021098); (0.1250354079231417, 0.0118838747747649);
   (0.1368280663355880, 0.0113719376278157); (0.1482912210402501, 0.0118838758895910); (0.1600838800673343, 0.0113719379841106); (0.1715470349507107, 0.0118838759469435);
   (0.1833396940094151, 0.0113719380024402); (0.1948028489019855, 0.0118838759498940); (0.2065955079623166, 0.0113719380033832); (0.2180586628553600, 0.0118838759500458);
   (0.2298513219157748, 0.0113719380034317); (0.2413144768088423, 0.0118838759500534); (0.2531071358692610, 0.0113719380034331); (0.2645702907623275, 0.0118838759500503);
   (0.2763629498227388, 0.0113719380034166); (0.2878261047157699, 0.0118838759499960); (0.2996187637760637, 0.0113719380031548); (0.3110819186685350, 0.0118838759491392);
   (0.3228745777269767, 0.0113719379990312); (0.3343377326106327, 0.0118838759356466); (0.3461303916399046, 0.0113719379340877); (0.3575935463847227, 0.0118838757231458);
   (0.3693862049545897, 0.0113719369112671); (0.3808493575127990, 0.0118838723763891); (0.3926420088473388, 0.0113719208025316); (0.4041051269679410, 0.0118838196672831);
   (0.4158976643555928, 0.0113716671159312); (0.4273602401419663, 0.0118829895981288); (0.4391509841993430, 0.0113676757123335); (0.4506050277886311, 0.0118699333101785);
   (0.4623678369823048, 0.0113058010370940); (0.4736899241078610, 0.0116689358624719); (0.4850758028150903, 0.0105430209181650); (0.4949826111651034, 0.0098623797825519);
   (0.5050173888348967, 0.0098623797825519); (0.5149241971849097, 0.0105430209181650); (0.5263100758921390, 0.0116689358624719); (0.5376321630176951, 0.0113058010370940);
   (0.5493949722113689, 0.0118699333101784); (0.5608490158006569, 0.0113676757123335); (0.5726397598580337, 0.0118829895981288); (0.5841023356444072, 0.0113716671159312);
   (0.5958948730320589, 0.0118838196672832); (0.6073579911526612, 0.0113719208025316); (0.6191506424872011, 0.0118838723763890); (0.6306137950454103, 0.0113719369112671);
   (0.6424064536152773, 0.0118838757231458); (0.6538696083600954, 0.0113719379340877); (0.6656622673893674, 0.0118838759356466); (0.6771254222730233, 0.0113719379990312);
   (0.6889180813314649, 0.0118838759491392); (0.7003812362239363, 0.0113719380031547); (0.7121738952842300, 0.0118838759499960); (0.7236370501772611, 0.0113719380034166);
   (0.7354297092376725, 0.0118838759500503); (0.7468928641307391, 0.0113719380034331); (0.7586855231911577, 0.0118838759500533); (0.7701486780842253, 0.0113719380034316);
   (0.7819413371446400, 0.0118838759500458); (0.7934044920376834, 0.0113719380033832); (0.8051971510980145, 0.0118838759498940); (0.8166603059905848, 0.0113719380024402);
   (0.8284529650492892, 0.0118838759469435); (0.8399161199326656, 0.0113719379841106); (0.8517087789597498, 0.0118838758895910); (0.8631719336644119, 0.0113719376278157);
   (0.8749645920768583, 0.0118838747747649); (0.8864277433076477, 0.0113719307021097); (0.8982203897727091, 0.0118838531047750); (0.9096834734787853, 0.0113717960816370);
   (0.9214758877234758, 0.0118834319424790); (0.9329376592288841, 0.0113691802263679); (0.9447255650766969, 0.0118752687731027); (0.9561619642519642, 0.0113186813284778);
   (0.9678642901552537, 0.0117250920002423); (0.9788511442422368, 0.0104410116974952); (0.9893163223363362, 0.0101967700921931); (0.9976959231412513, 0.0057370174232197)];
  [(0.0022517114755953, 0.0056066306636010); (0.0104408668076714, 0.0099650253173705); (0.0206681999450867, 0.0102037159770975); (0.0314053528028202, 0.0114586126366004);
   (0.0428417167537623, 0.0110614385710124); (0.0540181977659553, 0.0116053763009867); (0.0655381966626815, 0.0111107897666777); (0.0767394733611486, 0.0116133539437863);
   (0.0882638781911870, 0.0111133461706907); (0.0994664372675797, 0.0116137655342119); (0.1109910690402534, 0.0111134777316073); (0.1221936941067067, 0.0116137867117021);
   (0.1337183375552338, 0.0111134844999108); (0.1449209660166081, 0.0116137878011912); (0.1564456100658040, 0.0111134848481080); (0.1676482387018309, 0.0116137878572402);
   (0.1791728827819284, 0.0111134848660211); (0.1903755114269404, 0.0116137878601237); (0.2019001555086276, 0.0111134848669427); (0.2131027841541019, 0.0116137878602720);
   (0.2246274282358709, 0.0111134848669901); (0.2358300568813688, 0.0116137878602796); (0.2473547009631419, 0.0111134848669922); (0.2585573296086405, 0.0116137878602792);
   (0.2700819736904120, 0.0111134848669882); (0.2812846023359019, 0.0116137878602658); (0.2928092464176444, 0.0111134848669238); (0.3040118750629965, 0.0116137878600548);
   (0.3155365191442828, 0.0111134848659080); (0.3267391477874633, 0.0116137878567311); (0.3382637918615642, 0.0111134848499105); (0.3494664204705450, 0.0116137878043859);
   (0.3609910644314808, 0.0111134845979595); (0.3721936925018350, 0.0116137869799806); (0.3837183346804920, 0.0111134806298892); (0.3949209542678166, 0.0116137739961172);
   (0.4064455683769851, 0.0111134181362058); (0.4176480543640720, 0.0116135695123559); (0.4291722264744418, 0.0111124341475863); (0.4403726089106955, 0.0116103500532212);
   (0.4518898392158295, 0.0110969985528810); (0.4630572361316817, 0.0115599109343007); (0.4744696891062223, 0.0108687161212612); (0.4851584686023611, 0.0108495539119816);
   (0.4955740714155020, 0.0093684763553965); (0.5044259285844980, 0.0093684763553965); (0.5148415313976390, 0.0108495539119815); (0.5255303108937777, 0.0108687161212613);
   (0.5369427638683183, 0.0115599109343006); (0.5481101607841704, 0.0110969985528809); (0.5596273910893045, 0.0116103500532212); (0.5708277735255582, 0.0111124341475864);
   (0.5823519456359281, 0.0116135695123558); (0.5935544316230149, 0.0111134181362059); (0.6050790457321834, 0.0116137739961171); (0.6162816653195080, 0.0111134806298892);
   (0.6278063074981650, 0.0116137869799805); (0.6390089355685191, 0.0111134845979596); (0.6505335795294551, 0.0116137878043858); (0.6617362081384357, 0.0111134848499105);
   (0.6732608522125367, 0.0116137878567311); (0.6844634808557173, 0.0111134848659081); (0.6959881249370036, 0.0116137878600547); (0.7071907535823556, 0.0111134848669238);
   (0.7187153976640982, 0.0116137878602657); (0.7299180263095880, 0.0111134848669883); (0.7414426703913596, 0.0116137878602791); (0.7526452990368581, 0.0111134848669923);
   (0.7641699431186312, 0.0116137878602795); (0.7753725717641291, 0.0111134848669900); (0.7868972158458981, 0.0116137878602721); (0.7980998444913724, 0.0111134848669427);
   (0.8096244885730597, 0.0116137878601236); (0.8208271172180716, 0.0111134848660212); (0.8323517612981691, 0.0116137878572402); (0.8435543899341960, 0.0111134848481081);
   (0.8550790339833920, 0.0116137878011911); (0.8662816624447662, 0.0111134844999109); (0.8778063058932933, 0.0116137867117020); (0.8890089309597465, 0.0111134777316072);
   (0.9005335627324204, 0.0116137655342119); (0.9117361218088130, 0.0111133461706907); (0.9232605266388515, 0.0116133539437862); (0.9344618033373185, 0.0111107897666778);
   (0.9459818022340448, 0.0116053763009867); (0.9571582832462378, 0.0110614385710125); (0.9685946471971799, 0.0114586126366004); (0.9793318000549133, 0.0102037159770976);
   (0.9895591331923286, 0.0099650253173704); (0.9977482885244048, 0.0056066306636010)];
  [(0.0022016734428043, 0.0054820388710766); (0.0102088475452787, 0.0097435803103178); (0.0202089066129737, 0.0099769667331620); (0.0307074560738686, 0.0112039768002315);
   (0.0418896786036787, 0.0108156288249899); (0.0528177933711563, 0.0113474790498537); (0.0640817922923997, 0.0108638833274182); (0.0750341517309009, 0.0113552794117022);
   (0.0863024586758273, 0.0108663829224531); (0.0972560719949668, 0.0113556818556738); (0.1085246008393589, 0.0108665115597938); (0.1194782786821132, 0.0113557025625531);
   (0.1307468189428952, 0.0108665181776906); (0.1417005001051279, 0.0113557036278314); (0.1529690409532306, 0.0108665185181501); (0.1639227222862347, 0.0113557036826349);
   (0.1751912631645522, 0.0108665185356651); (0.1861449445063417, 0.0113557036854543); (0.1974134853862137, 0.0108665185365662); (0.2083671667284551, 0.0113557036855993);
   (0.2196357076084071, 0.0108665185366125); (0.2305893889506718, 0.0113557036856068); (0.2418579298306278, 0.0108665185366148); (0.2528116111728935, 0.0113557036856070);
   (0.2640801520528492, 0.0108665185366139); (0.2750338333951129, 0.0113557036856037); (0.2863023742750616, 0.0108665185365981); (0.2972560556172913, 0.0113557036855517);
   (0.3085245964971275, 0.0108665185363479); (0.3194782778388224, 0.0113557036847331); (0.3307468187168889, 0.0108665185324076); (0.3417005000501601, 0.0113557036718401);
   (0.3529690409003532, 0.0108665184703504); (0.3639227221009573, 0.0113557034687838); (0.3751912625121635, 0.0108665174929885); (0.3861449416233412, 0.0113557002707718);
   (0.3974134751207904, 0.0108665021001968); (0.4083671213249215, 0.0113556499042928); (0.4196355459397887, 0.0108662596885564); (0.4305886739134345, 0.0113548567271008);
   (0.4418553849015945, 0.0108624456806742); (0.4528003598869141, 0.0113423807186150); (0.4640403775608690, 0.0108033209910009); (0.4748592608141783, 0.0111503164908065);
   (0.4857391004677530, 0.0100744422106910); (0.4952056062244322, 0.0094240517922163); (0.5047943937755679, 0.0094240517922163); (0.5142608995322471, 0.0100744422106910);
   (0.5251407391858217, 0.0111503164908065); (0.5359596224391310, 0.0108033209910010); (0.5471996401130859, 0.0113423807186150); (0.5581446150984056, 0.0108624456806742);
   (0.5694113260865656, 0.0113548567271008); (0.5803644540602113, 0.0108662596885564); (0.5916328786750785, 0.0113556499042928); (0.6025865248792096, 0.0108665021001968);
   (0.6138550583766588, 0.0113557002707718); (0.6248087374878365, 0.0108665174929885); (0.6360772778990428, 0.0113557034687838); (0.6470309590996468, 0.0108665184703504);
   (0.6582994999498401, 0.0113557036718401); (0.6692531812831112, 0.0108665185324076); (0.6805217221611777, 0.0113557036847331); (0.6914754035028725, 0.0108665185363479);
   (0.7027439443827088, 0.0113557036855517); (0.7136976257249384, 0.0108665185365981); (0.7249661666048871, 0.0113557036856037); (0.7359198479471508, 0.0108665185366139);
   (0.7471883888271065, 0.0113557036856070); (0.7581420701693723, 0.0108665185366148); (0.7694106110493283, 0.0113557036856068); (0.7803642923915930, 0.0108665185366125);
   (0.7916328332715449, 0.0113557036855993); (0.8025865146137864, 0.0108665185365662); (0.8138550554936583, 0.0113557036854543); (0.8248087368354479, 0.0108665185356651);
   (0.8360772777137653, 0.0113557036826350); (0.8470309590467694, 0.0108665185181501); (0.8582994998948721, 0.0113557036278314); (0.8692531810571048, 0.0108665181776905);
   (0.8805217213178869, 0.0113557025625531); (0.8914753991606412, 0.0108665115597937); (0.9027439280050332, 0.0113556818556739); (0.9136975413241727, 0.0108663829224531);
   (0.9249658482690991, 0.0113552794117022); (0.9359182077076004, 0.0108638833274182); (0.9471822066288438, 0.0113474790498537); (0.9581103213963214, 0.0108156288249899);
   (0.9692925439261314, 0.0112039768002315); (0.9797910933870264, 0.0099769667331620); (0.9897911524547213, 0.0097435803103179); (0.9977983265571957, 0.0054820388710765)]].
