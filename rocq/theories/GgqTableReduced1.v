(** Tables of the generalized Gauss rules, transcribed from the C++ sources (decimal literals as exact rationals).
    Sources: /repo/queso/quadrature/integration_points_1d/precomputed_ggq_rules_{optimal,reduced1,reduced2}.cpp and
    gauss_legendre_integration_points.cpp. Generated file; every table cites its lines. *)
From Coq Require Import QArith List.
Import ListNotations.
Local Open Scope Q_scope.

(** precomputed_ggq_rules_reduced1.cpp:19-35 *)
Definition S_3_0_base_even : list (list (Q * Q)) := [
  [(0.2298437881283575, 0.5442898928611817); (0.8701562118716423, 0.6223767738054848)];
  [(0.5000000000000000, 0.6666666666666666); (1.1464466094067262, 0.6666666666666666); (1.8535533905932737, 0.6666666666666666)];
  [((-0.8701562118716423), 0.6223767738054848); ((-0.2298437881283575), 0.5442898928611817)]].
(** precomputed_ggq_rules_reduced1.cpp:37-53 *)
Definition S_3_0_base_odd : list (list (Q * Q)) := [
  [(0.2298437881283575, 0.5442898928611817); (0.8701562118716423, 0.6223767738054848)];
  [(0.5000000000000000, 0.6666666666666666); (1.1464466094067262, 0.6666666666666666); (1.8535533905932737, 0.6666666666666666)];
  [((-0.5000000000000000), 0.6666666666666666); (0.0000000000000000, 0.3333333333333333)]].
(** precomputed_ggq_rules_reduced1.cpp:55-75 *)
Definition S_5_1_base_even : list (list (Q * Q)) := [
  [(0.1225148226554413, 0.3020174288145723); (0.5441518440112252, 0.4850196082224647); (1.0064654716056595, 0.4467177201362911); (1.5002730728687339, 0.5330387209380418);
   (2.0000387972956303, 0.4665398713719121); (2.5000000105321138, 0.5333333220982076); (3.0000000015045293, 0.4666666617518435); (3.5000000000000000, 0.5333333333333333)];
  [(0.0000000000000000, 0.4666666666666666); (0.5000000000000000, 0.5333333333333333)];
  [(0.0000000000000000, 0.5333333333333333)]].
(** precomputed_ggq_rules_reduced1.cpp:77-97 *)
Definition S_5_1_base_odd : list (list (Q * Q)) := [
  [(0.1225148226554413, 0.3020174288145723); (0.5441518440112252, 0.4850196082224647); (1.0064654716056595, 0.4467177201362911); (1.5002730728687339, 0.5330387209380418);
   (2.0000387972956303, 0.4665398713719121); (2.5000000105321138, 0.5333333220982076); (3.0000000015045293, 0.4666666617518435); (3.5000000000000000, 0.5333333333333333)];
  [(0.0000000000000000, 0.4666666666666666); (0.5000000000000000, 0.5333333333333333)];
  [(0.0000000000000000, 0.5333333333333333)]].
(** precomputed_ggq_rules_reduced1.cpp:99-173 *)
Definition S_7_2_base_even : list (list (Q * Q)) := [
  [(0.0760228115966829, 0.1904791618860109); (0.3617699429068876, 0.3582547325706395); (0.7390537478975287, 0.3718299747820799); (1.0985579103123881, 0.3685519722675160);
   (1.5026222308077672, 0.4271563678154045); (1.9095025457051275, 0.3777519454756286); (2.2913236535841452, 0.4060759083914196); (2.7089036255670122, 0.4061940394439437);
   (3.0913081892698404, 0.3789910272846063); (3.5000047930104272, 0.4294395952892670); (3.9087070177952578, 0.3790094782615180); (4.2911570270795076, 0.4062659789224837);
   (4.7088433873306847, 0.4062661949624069); (5.0912944630202510, 0.3790117420962355); (5.5000000087342106, 0.4294437790605016); (5.9087055646930268, 0.3790117757251694);
   (6.2911567232161944, 0.4062663260975333); (6.7088432775389739, 0.4062663264912191); (7.0912944380054314, 0.3790117798505088); (7.5000000000159161, 0.4294437866845394);
   (7.9087055620450694, 0.3790117799117899); (8.2911567226624729, 0.4062663267301830); (8.7088432773389037, 0.4062663267309004); (9.0912944379598474, 0.3790117799193074);
   (9.5000000000000000, 0.4294437866984325); (9.9087055620402448, 0.3790117799194190); (10.291156722661463, 0.4062663267313359); (10.708843277338539, 0.4062663267313372);
   (11.091294437959763, 0.3790117799194328); (11.500000000000000, 0.4294437866984578); (11.908705562040236, 0.3790117799194329)];
  [(0.2911567226614616, 0.4062663267313380); (0.7088432773385383, 0.4062663267313380); (1.0912944379597642, 0.3790117799194330); (1.5000000000000000, 0.4294437866984578);
   (1.9087055620402357, 0.3790117799194330)];
  [((-11.708843277338537), 0.4062663267313380); ((-11.291156722661462), 0.4062663267313380); ((-10.908705562040236), 0.3790117799194327); ((-10.500000000000000), 0.4294437866984573);
   ((-10.091294437959765), 0.3790117799194304); ((-9.7088432773385466), 0.406266326731329); ((-9.2911567226614817), 0.4062663267313144); ((-8.9087055620403337), 0.3790117799192768);
   ((-8.5000000000003250), 0.4294437866981735); ((-8.0912944379606965), 0.3790117799180248); ((-7.7088432773426331), 0.406266326726432); ((-7.2911567226727953), 0.4062663267183886);
   ((-6.9087055620944353), 0.3790117798337391); ((-6.5000000001784501), 0.4294437865424051); ((-6.0912944384717802), 0.3790117791466590); ((-5.7088432795858121), 0.4062663240391377);
   ((-5.2911567288810994), 0.4062663196251523); ((-4.9087055917831978), 0.3790117328935633); ((-4.5000000979275220), 0.4294437010620896); ((-4.0912947189362913), 0.3790113558489482);
   ((-3.7088445105605241), 0.4062648493534368); ((-3.2911601357343611), 0.4062624272865184); ((-2.9087218831786549), 0.3789859750609632); ((-2.5000537360333234), 0.4293967974405691);
   ((-2.0914484991980737), 0.3787794969141897); ((-1.7095185551114506), 0.4054584883825521); ((-1.2930143060162939), 0.4041817191522872); ((-0.9174073562323646), 0.3653364854111180);
   ((-0.5281069950439843), 0.4061022354033779); ((-0.1521318396960232), 0.3254984198916945)]].
(** precomputed_ggq_rules_reduced1.cpp:175-247 *)
Definition S_7_2_base_odd : list (list (Q * Q)) := [
  [(0.0760228115966829, 0.1904791618860109); (0.3617699429068876, 0.3582547325706395); (0.7390537478975287, 0.3718299747820799); (1.0985579103123881, 0.3685519722675160);
   (1.5026222308077672, 0.4271563678154045); (1.9095025457051275, 0.3777519454756286); (2.2913236535841452, 0.4060759083914196); (2.7089036255670122, 0.4061940394439437);
   (3.0913081892698404, 0.3789910272846063); (3.5000047930104272, 0.4294395952892670); (3.9087070177952578, 0.3790094782615180); (4.2911570270795076, 0.4062659789224837);
   (4.7088433873306847, 0.4062661949624069); (5.0912944630202510, 0.3790117420962355); (5.5000000087342106, 0.4294437790605016); (5.9087055646930268, 0.3790117757251694);
   (6.2911567232161944, 0.4062663260975333); (6.7088432775389739, 0.4062663264912191); (7.0912944380054314, 0.3790117798505088); (7.5000000000159161, 0.4294437866845394);
   (7.9087055620450694, 0.3790117799117899); (8.2911567226624729, 0.4062663267301830); (8.7088432773389037, 0.4062663267309004); (9.0912944379598474, 0.3790117799193074);
   (9.5000000000000000, 0.4294437866984325); (9.9087055620402448, 0.3790117799194190); (10.291156722661463, 0.4062663267313359); (10.708843277338539, 0.4062663267313372);
   (11.091294437959763, 0.3790117799194328); (11.500000000000000, 0.4294437866984578); (11.908705562040236, 0.3790117799194329)];
  [(0.2911567226614616, 0.4062663267313380); (0.7088432773385383, 0.4062663267313380); (1.0912944379597642, 0.3790117799194330); (1.5000000000000000, 0.4294437866984578);
   (1.9087055620402357, 0.3790117799194330)];
  [((-10.708843277338537), 0.4062663267313377); ((-10.291156722661462), 0.4062663267313371); ((-9.9087055620402395), 0.3790117799194270); ((-9.5000000000000000), 0.4294437866984470);
   ((-9.0912944379597995), 0.3790117799193795); ((-8.7088432773386941), 0.4062663267311517); ((-8.2911567226618920), 0.4062663267308463); ((-7.9087055620422939), 0.3790117799161795);
   ((-7.5000000000067750), 0.4294437866925332); ((-7.0912944379792035), 0.3790117798900940); ((-6.7088432774238579), 0.4062663266291265); ((-6.2911567228975950), 0.4062663264615462);
   ((-5.9087055631694500), 0.3790117781340596); ((-5.5000000037178935), 0.4294437834472069); ((-5.0912944486272690), 0.3790117638192193); ((-4.7088433241589351), 0.4062662706412020);
   ((-4.2911568522432759), 0.4062661786790824); ((-3.9087061817134025), 0.3790108001694792); ((-3.5000020402483866), 0.4294420025303176); ((-3.0913002917355432), 0.3790029452963866);
   ((-2.7088689686517808), 0.4062355505486370); ((-2.2912278103826144), 0.4061851618358530); ((-1.9090452764517753), 0.3784747105190253); ((-1.5011181799416983), 0.4284669662896714);
   ((-1.0944523731123818), 0.3743472090342650); ((-0.7222956569096318), 0.3906634563263599); ((-0.3243503873888425), 0.3791156707916761); (0.0000000000000000, 0.2855788512349797)]].
(** precomputed_ggq_rules_reduced1.cpp:264-292 *)
Definition S_3_0_precomputed : list (list (Q * Q)) := [
  [(0.2113248654051871, 0.5000000000000000); (0.7886751345948129, 0.5000000000000000)];
  [(0.1056624327025936, 0.2500000000000000); (0.3943375672974064, 0.2500000000000000); (0.6056624327025936, 0.2500000000000000); (0.8943375672974064, 0.2500000000000000)];
  [(0.0766145960427859, 0.1814299642870606); (0.2900520706238808, 0.2074589246018283); (0.5000000000000000, 0.2222222222222222); (0.7099479293761191, 0.2074589246018283);
   (0.9233854039572141, 0.1814299642870606)];
  [(0.0574609470320894, 0.1360724732152954); (0.2175390529679106, 0.1555941934513712); (0.3750000000000000, 0.1666666666666667); (0.5000000000000000, 0.0833333333333333);
   (0.6250000000000000, 0.1666666666666667); (0.7824609470320893, 0.1555941934513712); (0.9425390529679106, 0.1360724732152954)]].
(** precomputed_ggq_rules_reduced1.cpp:295-374 *)
Definition S_5_1_precomputed : list (list (Q * Q)) := [
  [(0.1127016653792583, 0.2777777777777778); (0.5000000000000000, 0.4444444444444444); (0.8872983346207417, 0.2777777777777778)];
  [(0.0612574113277207, 0.1510087144072862); (0.2720759220056126, 0.2425098041112324); (0.5000000000000000, 0.2129629629629630); (0.7279240779943874, 0.2425098041112324);
   (0.9387425886722793, 0.1510087144072862)];
  [(0.0408382742184805, 0.1006724762715241); (0.1813839480037417, 0.1616732027408216); (0.3354747499025704, 0.1488624723704782); (0.5000000000000000, 0.1775836972343522);
   (0.6645252500974295, 0.1488624723704782); (0.8186160519962582, 0.1616732027408216); (0.9591617257815195, 0.1006724762715241)];
  [(0.0306287056638603, 0.0755043572036431); (0.1360379610028063, 0.1212549020556162); (0.2516163679014149, 0.1116794300340728); (0.3750682682171835, 0.1332596802345105);
   (0.5000000000000000, 0.1166032609443150); (0.6249317317828166, 0.1332596802345105); (0.7483836320985850, 0.1116794300340728); (0.8639620389971937, 0.1212549020556162);
   (0.9693712943361397, 0.0755043572036431)];
  [(0.0245029645310883, 0.0604034857629145); (0.1088303688022451, 0.0970039216444930); (0.2012930943211319, 0.0893435440272582); (0.3000546145737468, 0.1066077441876084);
   (0.4000077591581034, 0.0933079732912435); (0.5000000000000000, 0.1066666621729649); (0.5999922408418966, 0.0933079732912435); (0.6999453854262533, 0.1066077441876084);
   (0.7987069056788680, 0.0893435440272582); (0.8911696311977549, 0.0970039216444930); (0.9754970354689118, 0.0604034857629145)];
  [(0.0204191371092402, 0.0503362381357621); (0.0906919740018709, 0.0808366013704108); (0.1677442452676099, 0.0744529533560485); (0.2500455121447890, 0.0888397868230070);
   (0.3333397995492717, 0.0777566452286520); (0.4166666684220189, 0.0888888870163679); (0.5000000000000000, 0.0777777761395034); (0.5833333315779810, 0.0888888870163679);
   (0.6666602004507283, 0.0777566452286520); (0.7499544878552109, 0.0888397868230070); (0.8322557547323900, 0.0744529533560485); (0.9093080259981290, 0.0808366013704108);
   (0.9795808628907597, 0.0503362381357621)];
  [(0.0175021175222059, 0.0431453469735103); (0.0777359777158893, 0.0692885154603521); (0.1437807816579514, 0.0638168171623273); (0.2143247246955334, 0.0761483887054345);
   (0.2857198281850901, 0.0666485530531303); (0.3571428586474448, 0.0761904745854582); (0.4285714287863613, 0.0666666659645491); (0.5000000000000000, 0.0761904761904762);
   (0.5714285712136387, 0.0666666659645491); (0.6428571413525551, 0.0761904745854582); (0.7142801718149099, 0.0666485530531303); (0.7856752753044665, 0.0761483887054345);
   (0.8562192183420485, 0.0638168171623273); (0.9222640222841105, 0.0692885154603521); (0.9824978824777940, 0.0431453469735103)]].
(** precomputed_ggq_rules_reduced1.cpp:376-3498 *)
Definition S_7_2_precomputed : list (list (Q * Q)) := [
  [(0.0694318442029737, 0.1739274225687269); (0.3300094782075719, 0.3260725774312730); (0.6699905217924281, 0.3260725774312730); (0.9305681557970263, 0.1739274225687269)];
  [(0.0364970120365749, 0.0914285070782760); (0.1735018830191759, 0.1714878862346337); (0.3525011049442492, 0.1720836066870903); (0.5000000000000000, 0.1300000000000000);
   (0.6474988950557508, 0.1720836066870903); (0.8264981169808241, 0.1714878862346337); (0.9635029879634252, 0.0914285070782760)];
  [(0.0253367921145784, 0.0634825826754636); (0.1205693300427040, 0.1193960349361700); (0.2462972093906766, 0.1238795538924619); (0.3659165185726799, 0.1224263795606457);
   (0.5000000000000000, 0.1416308978705175); (0.6340834814273200, 0.1224263795606457); (0.7537027906093234, 0.1238795538924619); (0.8794306699572960, 0.1193960349361700);
   (0.9746632078854216, 0.0634825826754636)];
  [(0.0189706593518054, 0.0475312753547050); (0.0902680336957273, 0.0893763320065974); (0.1843095766984011, 0.0924311761454218); (0.2724197695298421, 0.0886632317863395);
   (0.3685894102295023, 0.1009873850176439); (0.4621354583551230, 0.0810105996892924); (0.5378645416448770, 0.0810105996892924); (0.6314105897704977, 0.1009873850176439);
   (0.7275802304701580, 0.0886632317863395); (0.8156904233015989, 0.0924311761454218); (0.9097319663042728, 0.0893763320065974); (0.9810293406481946, 0.0475312753547050)];
  [(0.0152045577891971, 0.0380958209330467); (0.0723539660104039, 0.0716509222366313); (0.1478106904815955, 0.0743659250974447); (0.2197112869078608, 0.0737099296104524);
   (0.3005234880223563, 0.0854304443570481); (0.3818977635828651, 0.0755462334235781); (0.4582526598073827, 0.0812007243417988); (0.5417473401926174, 0.0812007243417988);
   (0.6181022364171349, 0.0755462334235781); (0.6994765119776437, 0.0854304443570481); (0.7802887130921392, 0.0737099296104524); (0.8521893095184044, 0.0743659250974447);
   (0.9276460339895961, 0.0716509222366313); (0.9847954422108028, 0.0380958209330467)];
  [(0.0126695864917520, 0.0317442985896995); (0.0602905956095768, 0.0597043952103449); (0.1231641202605633, 0.0619580731089417); (0.1830355681204354, 0.0613349093699632);
   (0.2502507045094485, 0.0710316367283382); (0.3177249105756839, 0.0621801790068179); (0.3796446858904077, 0.0650785521661077); (0.4459512926183412, 0.0631738236204629);
   (0.5000000000000000, 0.0475882643986479); (0.5540487073816587, 0.0631738236204629); (0.6203553141095923, 0.0650785521661077); (0.6822750894243161, 0.0621801790068179);
   (0.7497492954905514, 0.0710316367283382); (0.8169644318795646, 0.0613349093699632); (0.8768358797394367, 0.0619580731089417); (0.9397094043904232, 0.0597043952103449);
   (0.9873304135082479, 0.0317442985896995)];
  [(0.0108604016507725, 0.0272113088259628); (0.0516814203858908, 0.0511792474784913); (0.1055791067655810, 0.0531185677350812); (0.1569368439461605, 0.0526502811474507);
   (0.2146603174396843, 0.0610223371800222); (0.2727860743839332, 0.0539645582293692); (0.3273319347972278, 0.0580108252319605); (0.3869861887372547, 0.0580276702337784);
   (0.4416152476390308, 0.0541412465116946); (0.5000000000000000, 0.0613479148523783); (0.5583847523609692, 0.0541412465116946); (0.6130138112627453, 0.0580276702337784);
   (0.6726680652027721, 0.0580108252319605); (0.7272139256160667, 0.0539645582293692); (0.7853396825603156, 0.0610223371800222); (0.8430631560538394, 0.0526502811474507);
   (0.8944208932344189, 0.0531185677350812); (0.9483185796141091, 0.0511792474784913); (0.9891395983492275, 0.0272113088259628)];
  [(0.0095028197041511, 0.0238098150396327); (0.0452210846950820, 0.0447816714448580); (0.0923813043572607, 0.0464782573250300); (0.1373176705489539, 0.0460657392443968);
   (0.1878210649510883, 0.0533887357941267); (0.2386685932279068, 0.0471899214904087); (0.2863310371039429, 0.0506585083893178); (0.3383807613840527, 0.0505136774707962);
   (0.3853257554234004, 0.0456644130499494); (0.4339871858135188, 0.0507622889695047); (0.4809836730290179, 0.0406869717819790); (0.5190163269709821, 0.0406869717819790);
   (0.5660128141864812, 0.0507622889695047); (0.6146742445765996, 0.0456644130499494); (0.6616192386159473, 0.0505136774707962); (0.7136689628960571, 0.0506585083893178);
   (0.7613314067720932, 0.0471899214904087); (0.8121789350489117, 0.0533887357941267); (0.8626823294510461, 0.0460657392443968); (0.9076186956427392, 0.0464782573250300);
   (0.9547789153049180, 0.0447816714448580); (0.9904971802958489, 0.0238098150396327)];
  [(0.0084469790662897, 0.0211643513206468); (0.0401966603229459, 0.0398060813966929); (0.0821170830996164, 0.0413144416423244); (0.1220619900341653, 0.0409502191399776);
   (0.1669580256435399, 0.0474618186446263); (0.2121669495177265, 0.0419724383785132); (0.2545915170426321, 0.0451195453501448); (0.3009892916680334, 0.0451326709789046);
   (0.3434786874018859, 0.0421101136766957); (0.3888894204751351, 0.0477155097390521); (0.4343007769705385, 0.0421121600486932); (0.4767952130097043, 0.0451406496837284);
   (0.5232047869902956, 0.0451406496837284); (0.5656992230294614, 0.0421121600486932); (0.6111105795248648, 0.0477155097390521); (0.6565213125981141, 0.0421101136766957);
   (0.6990107083319665, 0.0451326709789046); (0.7454084829573678, 0.0451195453501448); (0.7878330504822735, 0.0419724383785132); (0.8330419743564601, 0.0474618186446263);
   (0.8779380099658347, 0.0409502191399776); (0.9178829169003835, 0.0413144416423244); (0.9598033396770541, 0.0398060813966929); (0.9915530209337103, 0.0211643513206468)];
  [(0.0076022801954962, 0.0190479137528846); (0.0361769894867959, 0.0358254680899625); (0.0739053622116424, 0.0371829826097392); (0.1098557282118655, 0.0368550982916417);
   (0.1502620191546303, 0.0427154602965324); (0.1909496701943948, 0.0377743099904883); (0.2291297959590461, 0.0406045132477326); (0.2708832540560630, 0.0406112874822754);
   (0.3090968464941317, 0.0378453947091821); (0.3498886612404555, 0.0428462794501038); (0.3905549091188952, 0.0374344896375586); (0.4277704641683544, 0.0390663105435392);
   (0.4675649718559936, 0.0379115538248481); (0.5000000000000000, 0.0285578761470230); (0.5324350281440065, 0.0379115538248481); (0.5722295358316457, 0.0390663105435392);
   (0.6094450908811049, 0.0374344896375586); (0.6501113387595445, 0.0428462794501038); (0.6909031535058684, 0.0378453947091821); (0.7291167459439372, 0.0406112874822754);
   (0.7708702040409539, 0.0406045132477326); (0.8090503298056053, 0.0377743099904883); (0.8497379808453698, 0.0427154602965324); (0.8901442717881345, 0.0368550982916417);
   (0.9260946377883577, 0.0371829826097392); (0.9638230105132042, 0.0358254680899625); (0.9923977198045040, 0.0190479137528846)];
  [(0.0069111646906075, 0.0173162874441828); (0.0328881766278988, 0.0325686120518763); (0.0671867043543206, 0.0338027249801889); (0.0998689009374890, 0.0335047247515911);
   (0.1366020209825217, 0.0388323970741254); (0.1735911405186404, 0.0343410859523184); (0.2083021503257982, 0.0369159916719075); (0.2462639659605456, 0.0369267308584353);
   (0.2810280172059096, 0.0344537297524512); (0.3181822539085919, 0.0390399632068499); (0.3553370016135992, 0.0344554071084176); (0.3901051842617338, 0.0369332707893059);
   (0.4280766715250866, 0.0369332903935093); (0.4628449509424963, 0.0344556125365429); (0.5000000000000000, 0.0390403428565951); (0.5371550490575037, 0.0344556125365429);
   (0.5719233284749135, 0.0369332903935093); (0.6098948157382662, 0.0369332707893059); (0.6446629983864008, 0.0344554071084176); (0.6818177460914081, 0.0390399632068499);
   (0.7189719827940904, 0.0344537297524512); (0.7537360340394544, 0.0369267308584353); (0.7916978496742019, 0.0369159916719075); (0.8264088594813596, 0.0343410859523184);
   (0.8633979790174784, 0.0388323970741254); (0.9001310990625110, 0.0335047247515911); (0.9328132956456794, 0.0338027249801889); (0.9671118233721012, 0.0325686120518763);
   (0.9930888353093925, 0.0173162874441828)];
  [(0.0063352342611585, 0.0158732633930769); (0.0301474950500941, 0.0298545608408791); (0.0615878118216936, 0.0309858306371288); (0.0915464900133739, 0.0307126603984049);
   (0.1252185110773090, 0.0355963569255285); (0.1591251887674570, 0.0314792934066573); (0.1909435350195208, 0.0338395359189420); (0.2257416843855384, 0.0338491783345189);
   (0.2576076556386972, 0.0315804351602112); (0.2916625880812559, 0.0357827172500159); (0.3257127464182595, 0.0315647662291463); (0.3575401457632743, 0.0337881783809369);
   (0.3922488170053040, 0.0336817989468996); (0.4235493890155744, 0.0304447039006355); (0.4559910844268745, 0.0338418523544591); (0.4873223468778557, 0.0271248679225589);
   (0.5126776531221442, 0.0271248679225589); (0.5440089155731254, 0.0338418523544591); (0.5764506109844256, 0.0304447039006355); (0.6077511829946960, 0.0336817989468996);
   (0.6424598542367257, 0.0337881783809369); (0.6742872535817404, 0.0315647662291463); (0.7083374119187440, 0.0357827172500159); (0.7423923443613027, 0.0315804351602112);
   (0.7742583156144616, 0.0338491783345189); (0.8090564649804791, 0.0338395359189420); (0.8408748112325429, 0.0314792934066573); (0.8747814889226909, 0.0355963569255285);
   (0.9084535099866261, 0.0307126603984049); (0.9384121881783064, 0.0309858306371288); (0.9698525049499058, 0.0298545608408791); (0.9936647657388413, 0.0158732633930769)];
  [(0.0058479085843602, 0.0146522432220008); (0.0278284571466837, 0.0275580563515877); (0.0568502882998099, 0.0286023057524677); (0.0845044546394145, 0.0283501517128858);
   (0.1155863254467513, 0.0328581821396465); (0.1468848112080867, 0.0290578419596637); (0.1762556656603188, 0.0312366083378014); (0.2083772019666931, 0.0312456953418417);
   (0.2377929376361409, 0.0291531559449686); (0.2692311379238768, 0.0330338150222494); (0.3006697705996288, 0.0291545752508763); (0.3300890020830110, 0.0312512291478497);
   (0.3622187221022826, 0.0312512457662502); (0.3916380356165705, 0.0291547493914302); (0.4230769237475611, 0.0330341368497372); (0.4545158126651816, 0.0291547519735573);
   (0.4839351325396738, 0.0312512558351857); (0.5160648674603262, 0.0312512558351857); (0.5454841873348185, 0.0291547519735573); (0.5769230762524389, 0.0330341368497372);
   (0.6083619643834295, 0.0291547493914302); (0.6377812778977174, 0.0312512457662502); (0.6699109979169890, 0.0312512291478497); (0.6993302294003713, 0.0291545752508763);
   (0.7307688620761233, 0.0330338150222494); (0.7622070623638592, 0.0291531559449686); (0.7916227980333069, 0.0312456953418417); (0.8237443343396812, 0.0312366083378014);
   (0.8531151887919134, 0.0290578419596637); (0.8844136745532487, 0.0328581821396465); (0.9154955453605855, 0.0283501517128858); (0.9431497117001901, 0.0286023057524677);
   (0.9721715428533164, 0.0275580563515877); (0.9941520914156398, 0.0146522432220008)];
  [(0.0054302008270795, 0.0136056544172590); (0.0258407102013820, 0.0255896237483201); (0.0527895534048801, 0.0265592838936526); (0.0784684220834034, 0.0263251407474749);
   (0.1073301590779768, 0.0305111688999543); (0.1363930382182772, 0.0269822806682481); (0.1636659719113496, 0.0290054180215578); (0.1934931068564449, 0.0290138493851619);
   (0.2208076835413547, 0.0270707176796837); (0.2500001966258603, 0.0306741293684272); (0.2791929402883709, 0.0270714745442423); (0.3065093811258037, 0.0290168001957415);
   (0.3363408785438880, 0.0290132164333913); (0.3636396248993304, 0.0270339051911552); (0.3927772734850925, 0.0306047827633911); (0.4218248306825700, 0.0267390860585685);
   (0.4484074531167490, 0.0279045325490671); (0.4768321152003018, 0.0270796907535819); (0.5000000000000000, 0.0203984893622432); (0.5231678847996982, 0.0270796907535819);
   (0.5515925468832510, 0.0279045325490671); (0.5781751693174298, 0.0267390860585685); (0.6072227265149075, 0.0306047827633911); (0.6363603751006696, 0.0270339051911552);
   (0.6636591214561119, 0.0290132164333913); (0.6934906188741963, 0.0290168001957415); (0.7208070597116290, 0.0270714745442423); (0.7499998033741397, 0.0306741293684272);
   (0.7791923164586453, 0.0270707176796837); (0.8065068931435551, 0.0290138493851619); (0.8363340280886504, 0.0290054180215578); (0.8636069617817228, 0.0269822806682481);
   (0.8926698409220231, 0.0305111688999543); (0.9215315779165966, 0.0263251407474749); (0.9472104465951198, 0.0265592838936526); (0.9741592897986179, 0.0255896237483201);
   (0.9945697991729204, 0.0136056544172590)];
  [(0.0050681874397789, 0.0126986107924007); (0.0241179961937925, 0.0238836488380426); (0.0492702498598352, 0.0247886649854720); (0.0732371940208259, 0.0245701314845011);
   (0.1001748153871845, 0.0284770911876936); (0.1273001697136752, 0.0251834630317086); (0.1527549102389430, 0.0270717272260946); (0.1805935750378008, 0.0270796026295962);
   (0.2060872126179893, 0.0252660684856404); (0.2333336528673618, 0.0286293063526178); (0.2605804678530171, 0.0252672985507679); (0.2860771351386338, 0.0270843985948322);
   (0.3139228924887122, 0.0270844129974937); (0.3394196308680161, 0.0252674494730814); (0.3666666672489454, 0.0286295852706984); (0.3939137043128629, 0.0252674517150029);
   (0.4194104482143886, 0.0270844217398064); (0.4472562185025309, 0.0270844217660043); (0.4727529625333731, 0.0252674519895244); (0.5000000000000000, 0.0286295857780414);
   (0.5272470374666268, 0.0252674519895244); (0.5527437814974692, 0.0270844217660043); (0.5805895517856113, 0.0270844217398064); (0.6060862956871370, 0.0252674517150029);
   (0.6333333327510545, 0.0286295852706984); (0.6605803691319838, 0.0252674494730814); (0.6860771075112878, 0.0270844129974937); (0.7139228648613662, 0.0270843985948322);
   (0.7394195321469827, 0.0252672985507679); (0.7666663471326381, 0.0286293063526178); (0.7939127873820107, 0.0252660684856404); (0.8194064249621992, 0.0270796026295962);
   (0.8472450897610569, 0.0270717272260946); (0.8726998302863248, 0.0251834630317086); (0.8998251846128155, 0.0284770911876936); (0.9267628059791740, 0.0245701314845011);
   (0.9507297501401647, 0.0247886649854720); (0.9758820038062075, 0.0238836488380426); (0.9949318125602211, 0.0126986107924007)];
  [(0.0047514257247400, 0.0119049476177425); (0.0226106214314179, 0.0223909207853825); (0.0461908592429080, 0.0232393734230672); (0.0686598693910902, 0.0230344982613114);
   (0.0939138894143377, 0.0266972729788151); (0.1193439090746242, 0.0236094965438686); (0.1432077282085399, 0.0253797441062028); (0.1693064762092260, 0.0253871270211116);
   (0.1932067599703768, 0.0236869362661138); (0.2187502934426816, 0.0268399693534167); (0.2442941710512238, 0.0236880658868824); (0.2681972371160802, 0.0253915313465383);
   (0.2943024983911265, 0.0253913934698511); (0.3182048838675612, 0.0236866210773030); (0.3437466420438052, 0.0268372993627737); (0.3692844689659725, 0.0236737182949377);
   (0.3931550903401884, 0.0253411554842964); (0.4191866058865188, 0.0252613574320082); (0.4426620402382583, 0.0228335303337983); (0.4669933128106811, 0.0253813897118968);
   (0.4904917600192525, 0.0203436512426818); (0.5095082399807475, 0.0203436512426818); (0.5330066871893189, 0.0253813897118968); (0.5573379597617416, 0.0228335303337983);
   (0.5808133941134811, 0.0252613574320082); (0.6068449096598116, 0.0253411554842964); (0.6307155310340276, 0.0236737182949377); (0.6562533579561948, 0.0268372993627737);
   (0.6817951161324388, 0.0236866210773030); (0.7056975016088735, 0.0253913934698511); (0.7318027628839199, 0.0253915313465383); (0.7557058289487761, 0.0236880658868824);
   (0.7812497065573184, 0.0268399693534167); (0.8067932400296233, 0.0236869362661138); (0.8306935237907740, 0.0253871270211116); (0.8567922717914601, 0.0253797441062028);
   (0.8806560909253758, 0.0236094965438686); (0.9060861105856622, 0.0266972729788151); (0.9313401306089099, 0.0230344982613114); (0.9538091407570920, 0.0232393734230672);
   (0.9773893785685821, 0.0223909207853825); (0.9952485742752600, 0.0119049476177425)];
  [(0.0044719300939225, 0.0112046565815301); (0.0212805848768757, 0.0210738077982729); (0.0434737498763252, 0.0218723514577694); (0.0646210535477875, 0.0216795277804421);
   (0.0883895429886922, 0.0251268451656120); (0.1123236791591252, 0.0222207026750370); (0.1347837443284791, 0.0238868181406717); (0.1593472720921772, 0.0238937670261143);
   (0.1818416581923435, 0.0222935898402710); (0.2058826348829663, 0.0252611526640745); (0.2299239422232505, 0.0222946751918540); (0.2524210015929122, 0.0238979987601461);
   (0.2769907874900403, 0.0238980114683769); (0.2994879095894265, 0.0222948083586021); (0.3235294122784830, 0.0252613987682648); (0.3475709155701781, 0.0222948103367747);
   (0.3700680425421290, 0.0238980191822078); (0.3946378398552337, 0.0238980192053657); (0.4171349669414954, 0.0222948105794409); (0.4411764705891698, 0.0252613992167361);
   (0.4652179742379404, 0.0222948105830391); (0.4877151013330651, 0.0238980192193968); (0.5122848986669348, 0.0238980192193968); (0.5347820257620597, 0.0222948105830391);
   (0.5588235294108301, 0.0252613992167361); (0.5828650330585046, 0.0222948105794409); (0.6053621601447664, 0.0238980192053657); (0.6299319574578710, 0.0238980191822078);
   (0.6524290844298218, 0.0222948103367747); (0.6764705877215170, 0.0252613987682648); (0.7005120904105735, 0.0222948083586021); (0.7230092125099598, 0.0238980114683769);
   (0.7475789984070879, 0.0238979987601461); (0.7700760577767495, 0.0222946751918540); (0.7941173651170337, 0.0252611526640745); (0.8181583418076565, 0.0222935898402710);
   (0.8406527279078227, 0.0238937670261143); (0.8652162556715208, 0.0238868181406717); (0.8876763208408749, 0.0222207026750370); (0.9116104570113077, 0.0251268451656120);
   (0.9353789464522124, 0.0216795277804421); (0.9565262501236748, 0.0218723514577694); (0.9787194151231241, 0.0210738077982729); (0.9955280699060775, 0.0112046565815301)];
  [(0.0042234895331473, 0.0105821756603295); (0.0200983301614849, 0.0199030406983593); (0.0410585415498395, 0.0206572208211992); (0.0610309950172390, 0.0204751095702350);
   (0.0834790128222775, 0.0237309093227524); (0.1060834747603179, 0.0209862191914585); (0.1272957585277120, 0.0225597726827338); (0.1504946458517160, 0.0225663355096752);
   (0.1717393437855885, 0.0210550569721777); (0.1944447105162518, 0.0238577551132268); (0.2171503892848770, 0.0210560812311816); (0.2383976100143945, 0.0225703290462416);
   (0.2616024032082711, 0.0225703359394529); (0.2828496579637250, 0.0210561534636804); (0.3055554426936569, 0.0238578886051349); (0.3282610950509600, 0.0210557189501160);
   (0.3495072795501635, 0.0225686416619352); (0.3727095661009905, 0.0225658423108742); (0.3939419290885477, 0.0210263728027814); (0.4166045455596786, 0.0238037203486566);
   (0.4391970903829155, 0.0207970671681436); (0.4598724635050755, 0.0217035253513997); (0.4819805340339727, 0.0210619817106242); (0.5000000000000000, 0.0158654917352601);
   (0.5180194659660272, 0.0210619817106242); (0.5401275364949244, 0.0217035253513997); (0.5608029096170843, 0.0207970671681436); (0.5833954544403214, 0.0238037203486566);
   (0.6060580709114523, 0.0210263728027814); (0.6272904338990094, 0.0225658423108742); (0.6504927204498365, 0.0225686416619352); (0.6717389049490399, 0.0210557189501160);
   (0.6944445573063431, 0.0238578886051349); (0.7171503420362749, 0.0210561534636804); (0.7383975967917289, 0.0225703359394529); (0.7616023899856055, 0.0225703290462416);
   (0.7828496107151230, 0.0210560812311816); (0.8055552894837481, 0.0238577551132268); (0.8282606562144114, 0.0210550569721777); (0.8495053541482839, 0.0225663355096752);
   (0.8727042414722880, 0.0225597726827338); (0.8939165252396820, 0.0209862191914585); (0.9165209871777225, 0.0237309093227524); (0.9389690049827610, 0.0204751095702350);
   (0.9589414584501605, 0.0206572208211992); (0.9799016698385150, 0.0199030406983593); (0.9957765104668527, 0.0105821756603295)];
  [(0.0040012006103517, 0.0100252190466322); (0.0190405233108888, 0.0188555122405600); (0.0388975656788173, 0.0195699986727410); (0.0578188373848625, 0.0193974722246061);
   (0.0790853805688299, 0.0224819140955476); (0.1005001339844804, 0.0198816813408226); (0.1205959817675866, 0.0213724162311273); (0.1425738750298428, 0.0213786336549444);
   (0.1627004310142021, 0.0199468961728740); (0.1842107785794962, 0.0226020839625930); (0.2057214219892241, 0.0199478672769220); (0.2258503698462899, 0.0213824199432886);
   (0.2478338624910887, 0.0213824313138109); (0.2679628664747500, 0.0199479864261177); (0.2894736846702216, 0.0226023041610790); (0.3109845034048961, 0.0199479881960615);
   (0.3311135117482207, 0.0213824382156596); (0.3530970146073144, 0.0213824382363800); (0.3732260230529174, 0.0199479884131847); (0.3947368421061008, 0.0226023045623442);
   (0.4162476611602668, 0.0199479884164100); (0.4363766696138143, 0.0213824382489570); (0.4583601724915211, 0.0213824382489946); (0.4784891809452546, 0.0199479884168049);
   (0.5000000000000000, 0.0226023045630741); (0.5215108190547453, 0.0199479884168049); (0.5416398275084788, 0.0213824382489946); (0.5636233303861857, 0.0213824382489570);
   (0.5837523388397331, 0.0199479884164100); (0.6052631578938991, 0.0226023045623442); (0.6267739769470826, 0.0199479884131847); (0.6469029853926856, 0.0213824382363800);
   (0.6688864882517792, 0.0213824382156596); (0.6890154965951037, 0.0199479881960615); (0.7105263153297784, 0.0226023041610790); (0.7320371335252499, 0.0199479864261177);
   (0.7521661375089113, 0.0213824313138109); (0.7741496301537101, 0.0213824199432886); (0.7942785780107758, 0.0199478672769220); (0.8157892214205038, 0.0226020839625930);
   (0.8372995689857978, 0.0199468961728740); (0.8574261249701572, 0.0213786336549444); (0.8794040182324134, 0.0213724162311273); (0.8994998660155196, 0.0198816813408226);
   (0.9209146194311701, 0.0224819140955476); (0.9421811626151375, 0.0193974722246061); (0.9611024343211826, 0.0195699986727410); (0.9809594766891110, 0.0188555122405600);
   (0.9959987993896482, 0.0100252190466322)];
  [(0.0038011405798341, 0.0095239580943004); (0.0180884971453440, 0.0179127366285316); (0.0369526873948754, 0.0185914987391028); (0.0549278955156144, 0.0184275986133679);
   (0.0751311115403721, 0.0213578183907562); (0.0954751272852098, 0.0188875972737109); (0.1145661826790025, 0.0203037954193257); (0.1354451812777839, 0.0203097019715497);
   (0.1545654094607820, 0.0189495513599455); (0.1750002396415988, 0.0214719797566609); (0.1954353508641622, 0.0189504738744371); (0.2145578512416117, 0.0203132988115142);
   (0.2354421690555524, 0.0203133093928111); (0.2545647216638644, 0.0189505847535182); (0.2749999955403344, 0.0214721846712068); (0.2954352641858251, 0.0189505675827341);
   (0.3145577744997105, 0.0203132424359816); (0.3354419932233038, 0.0203131213523200); (0.3545639058433505, 0.0189492987496019); (0.3749973131991297, 0.0214698398713327);
   (0.3954275750403381, 0.0189389748453272); (0.4145240722444780, 0.0202729244190699); (0.4353492846992036, 0.0202090859575925); (0.4541296321883859, 0.0182668242705495);
   (0.4735946502478021, 0.0203051117701677); (0.4923934080151992, 0.0162749209945839); (0.5076065919848008, 0.0162749209945839); (0.5264053497521979, 0.0203051117701677);
   (0.5458703678116142, 0.0182668242705495); (0.5646507153007965, 0.0202090859575925); (0.5854759277555220, 0.0202729244190699); (0.6045724249596619, 0.0189389748453272);
   (0.6250026868008705, 0.0214698398713327); (0.6454360941566496, 0.0189492987496019); (0.6645580067766963, 0.0203131213523200); (0.6854422255002897, 0.0203132424359816);
   (0.7045647358141749, 0.0189505675827341); (0.7250000044596656, 0.0214721846712068); (0.7454352783361357, 0.0189505847535182); (0.7645578309444476, 0.0203133093928111);
   (0.7854421487583884, 0.0203132988115142); (0.8045646491358378, 0.0189504738744371); (0.8249997603584012, 0.0214719797566609); (0.8454345905392181, 0.0189495513599455);
   (0.8645548187222162, 0.0203097019715497); (0.8854338173209975, 0.0203037954193257); (0.9045248727147902, 0.0188875972737109); (0.9248688884596279, 0.0213578183907562);
   (0.9450721044843857, 0.0184275986133679); (0.9630473126051247, 0.0185914987391028); (0.9819115028546561, 0.0179127366285316); (0.9961988594201661, 0.0095239580943004)];
  [(0.0036201338855563, 0.0090704362802862); (0.0172271401384232, 0.0170597491700305); (0.0351930356141680, 0.0177061892753371); (0.0523122814434471, 0.0175500939175008);
   (0.0715534395622746, 0.0203407794197812); (0.0909286926526251, 0.0179881878797918); (0.1091106501706736, 0.0193369480186390); (0.1289954107412863, 0.0193425733068545);
   (0.1472051518699924, 0.0180471917754574); (0.1666668949052584, 0.0204495045375841); (0.1861289056092980, 0.0180480703934056); (0.2043408108133099, 0.0193459989963088);
   (0.2242306374919374, 0.0193460092839241); (0.2424425934771548, 0.0180481781950588); (0.2619047623206767, 0.0204497037647858); (0.2813669316520489, 0.0180481797964366);
   (0.2995788915817235, 0.0193460155284540); (0.3194687275018559, 0.0193460155472009); (0.3376806875240682, 0.0180481799928814); (0.3571428571436150, 0.0204497041278352);
   (0.3766050267640509, 0.0180481799957995); (0.3948169867934511, 0.0193460155585801); (0.4147068227304240, 0.0193460155586143); (0.4329187827599927, 0.0180481799961575);
   (0.4523809523809537, 0.0204497041284968); (0.4718431220019164, 0.0180481799961628); (0.4900550820314982, 0.0193460155586350); (0.5099449179685017, 0.0193460155586350);
   (0.5281568779980835, 0.0180481799961628); (0.5476190476190462, 0.0204497041284968); (0.5670812172400073, 0.0180481799961575); (0.5852931772695760, 0.0193460155586143);
   (0.6051830132065489, 0.0193460155585801); (0.6233949732359491, 0.0180481799957995); (0.6428571428563850, 0.0204497041278352); (0.6623193124759318, 0.0180481799928814);
   (0.6805312724981442, 0.0193460155472009); (0.7004211084182764, 0.0193460155284540); (0.7186330683479510, 0.0180481797964366); (0.7380952376793233, 0.0204497037647858);
   (0.7575574065228452, 0.0180481781950588); (0.7757693625080626, 0.0193460092839241); (0.7956591891866901, 0.0193459989963088); (0.8138710943907019, 0.0180480703934056);
   (0.8333331050947416, 0.0204495045375841); (0.8527948481300076, 0.0180471917754574); (0.8710045892587137, 0.0193425733068545); (0.8908893498293264, 0.0193369480186390);
   (0.9090713073473748, 0.0179881878797918); (0.9284465604377253, 0.0203407794197812); (0.9476877185565530, 0.0175500939175008); (0.9648069643858319, 0.0177061892753371);
   (0.9827728598615767, 0.0170597491700305); (0.9963798661144436, 0.0090704362802862)];
  [(0.0034555823453038, 0.0086581437220914); (0.0164440883139494, 0.0162843060259381); (0.0335933521771604, 0.0169013624900945); (0.0499344504687447, 0.0167523623757959);
   (0.0683010104912616, 0.0194161985370634); (0.0867955702593224, 0.0171705429761625); (0.1041510751629086, 0.0184579958359652); (0.1231319829802992, 0.0184633654292478);
   (0.1405140086030810, 0.0172268648764251); (0.1590911269547115, 0.0195199816037883); (0.1776685008079918, 0.0172277035560081); (0.1950525921360995, 0.0184666354009215);
   (0.2140383357770251, 0.0184666452133007); (0.2314224755405017, 0.0172278063777665); (0.2500000002280144, 0.0195201716276932); (0.2685775251829783, 0.0172278072556798);
   (0.2859616671088999, 0.0184666486366999); (0.3049474158162346, 0.0184666444744984); (0.3223315371969211, 0.0172277636409343); (0.3409089981712514, 0.0195200910234727);
   (0.3594863503758768, 0.0172274066040338); (0.3768695923340560, 0.0184652522976128); (0.3958532813462614, 0.0184629619016098); (0.4132252147067413, 0.0172033959326773);
   (0.4317673554571969, 0.0194757711949839); (0.4502521648585285, 0.0170157822288296); (0.4671683792313805, 0.0177574298330163); (0.4852568005732345, 0.0172325304905307);
   (0.5000000000000000, 0.0129808568743172); (0.5147431994267655, 0.0172325304905307); (0.5328316207686196, 0.0177574298330163); (0.5497478351414715, 0.0170157822288296);
   (0.5682326445428031, 0.0194757711949839); (0.5867747852932588, 0.0172033959326773); (0.6041467186537386, 0.0184629619016098); (0.6231304076659441, 0.0184652522976128);
   (0.6405136496241232, 0.0172274066040338); (0.6590910018287487, 0.0195200910234727); (0.6776684628030789, 0.0172277636409343); (0.6950525841837655, 0.0184666444744984);
   (0.7140383328911002, 0.0184666486366999); (0.7314224748170217, 0.0172278072556798); (0.7499999997719856, 0.0195201716276932); (0.7685775244594985, 0.0172278063777665);
   (0.7859616642229750, 0.0184666452133007); (0.8049474078639005, 0.0184666354009215); (0.8223314991920083, 0.0172277035560081); (0.8409088730452886, 0.0195199816037883);
   (0.8594859913969191, 0.0172268648764251); (0.8768680170197009, 0.0184633654292478); (0.8958489248370913, 0.0184579958359652); (0.9132044297406777, 0.0171705429761625);
   (0.9316989895087384, 0.0194161985370634); (0.9500655495312553, 0.0167523623757959); (0.9664066478228396, 0.0169013624900945); (0.9835559116860507, 0.0162843060259381);
   (0.9965444176546963, 0.0086581437220914)];
  [(0.0033053396346384, 0.0082817026906961); (0.0157291279524734, 0.0155762927204626); (0.0321327716477186, 0.0161665206426991); (0.0477633874048864, 0.0160239987942398);
   (0.0653314013394681, 0.0185720159919741); (0.0830218498132664, 0.0164239976293752); (0.0996227675471368, 0.0176554742778878); (0.1177784185029136, 0.0176606104106062);
   (0.1344047038812974, 0.0164778707515046); (0.1521741214352360, 0.0186712867517073); (0.1699437833824025, 0.0164786729678921); (0.1865720446556308, 0.0176637382140210);
   (0.2047323211882906, 0.0176637476070612); (0.2213606288269674, 0.0164787713954885); (0.2391304351623570, 0.0186714686548044); (0.2569002419431751, 0.0164787728576161);
   (0.2735285531833128, 0.0176637533085884); (0.2916888381538684, 0.0176637533257052); (0.3083171494784970, 0.0164787730369786); (0.3260869565224311, 0.0186714689862843);
   (0.3438567635671769, 0.0164787730396430); (0.3604850748983684, 0.0176637533360949); (0.3786453598843001, 0.0176637533361261); (0.3952736712156456, 0.0164787730399699);
   (0.4130434782608708, 0.0186714689868884); (0.4308132853060976, 0.0164787730399747); (0.4474415966374549, 0.0176637533361450); (0.4656018816234148, 0.0176637533361451);
   (0.4822301929547723, 0.0164787730399753); (0.5000000000000000, 0.0186714689868895); (0.5177698070452277, 0.0164787730399753); (0.5343981183765852, 0.0176637533361451);
   (0.5525584033625450, 0.0176637533361450); (0.5691867146939024, 0.0164787730399747); (0.5869565217391292, 0.0186714689868884); (0.6047263287843544, 0.0164787730399699);
   (0.6213546401156999, 0.0176637533361261); (0.6395149251016315, 0.0176637533360949); (0.6561432364328230, 0.0164787730396430); (0.6739130434775689, 0.0186714689862843);
   (0.6916828505215030, 0.0164787730369786); (0.7083111618461315, 0.0176637533257052); (0.7264714468166872, 0.0176637533085884); (0.7430997580568249, 0.0164787728576161);
   (0.7608695648376430, 0.0186714686548044); (0.7786393711730325, 0.0164787713954885); (0.7952676788117093, 0.0176637476070612); (0.8134279553443693, 0.0176637382140210);
   (0.8300562166175974, 0.0164786729678921); (0.8478258785647641, 0.0186712867517073); (0.8655952961187027, 0.0164778707515046); (0.8822215814970864, 0.0176606104106062);
   (0.9003772324528633, 0.0176554742778878); (0.9169781501867336, 0.0164239976293752); (0.9346685986605319, 0.0185720159919741); (0.9522366125951136, 0.0160239987942398);
   (0.9678672283522813, 0.0161665206426991); (0.9842708720475265, 0.0155762927204626); (0.9966946603653616, 0.0082817026906961)];
  [(0.0031676171498618, 0.0079366317452505); (0.0150737476211203, 0.0149272805237766); (0.0307939061623970, 0.0154929156159200); (0.0457732462630162, 0.0153563321778132);
   (0.0626092596169903, 0.0177981819923085); (0.0795626060710469, 0.0157396643948178); (0.0954718188993391, 0.0169198295163088); (0.1128709843986246, 0.0169247516434967);
   (0.1288045078862392, 0.0157912928035188); (0.1458335330420876, 0.0178933164703743); (0.1628627924080969, 0.0157920615941712); (0.1787982094614755, 0.0169277491215657);
   (0.1962018078049729, 0.0169277581228941); (0.2121372692902521, 0.0157921559171059); (0.2291666670231566, 0.0178934907876854); (0.2461960651742088, 0.0157921572896831);
   (0.2621315300403717, 0.0169277634752222); (0.2795351363049723, 0.0169277633077097); (0.2954706003442695, 0.0157921555343600); (0.3124999959203497, 0.0178934875436738);
   (0.3295293867111893, 0.0157921398267210); (0.3454648120600202, 0.0169277020563451); (0.3628683276777501, 0.0169276011369200); (0.3788032548675595, 0.0157910822942016);
   (0.3958310943319461, 0.0178915332266893); (0.4128563125334139, 0.0157824790380907); (0.4287700602036896, 0.0168941036826062); (0.4461244039159878, 0.0168409049646786);
   (0.4617746934903181, 0.0152223535587966); (0.4779955418731673, 0.0169209264751407); (0.4936611733459990, 0.0135624341621539); (0.5063388266540010, 0.0135624341621539);
   (0.5220044581268326, 0.0169209264751407); (0.5382253065096818, 0.0152223535587966); (0.5538755960840122, 0.0168409049646786); (0.5712299397963103, 0.0168941036826062);
   (0.5871436874665861, 0.0157824790380907); (0.6041689056680539, 0.0178915332266893); (0.6211967451324405, 0.0157910822942016); (0.6371316723222498, 0.0169276011369200);
   (0.6545351879399797, 0.0169277020563451); (0.6704706132888107, 0.0157921398267210); (0.6875000040796502, 0.0178934875436738); (0.7045293996557304, 0.0157921555343600);
   (0.7204648636950277, 0.0169277633077097); (0.7378684699596283, 0.0169277634752222); (0.7538039348257911, 0.0157921572896831); (0.7708333329768433, 0.0178934907876854);
   (0.7878627307097479, 0.0157921559171059); (0.8037981921950270, 0.0169277581228941); (0.8212017905385244, 0.0169277491215657); (0.8371372075919031, 0.0157920615941712);
   (0.8541664669579123, 0.0178933164703743); (0.8711954921137607, 0.0157912928035188); (0.8871290156013752, 0.0169247516434967); (0.9045281811006609, 0.0169198295163088);
   (0.9204373939289530, 0.0157396643948178); (0.9373907403830097, 0.0177981819923085); (0.9542267537369838, 0.0153563321778132); (0.9692060938376029, 0.0154929156159200);
   (0.9849262523788795, 0.0149272805237766); (0.9968323828501382, 0.0079366317452505)];
  [(0.0030409124638673, 0.0076191664754404); (0.0144707977162755, 0.0143301893028256); (0.0295621499159011, 0.0148731989912832); (0.0439423164124955, 0.0147420788907006);
   (0.0601048892323107, 0.0170862547126162); (0.0763801018282051, 0.0151100778190251); (0.0916529461433658, 0.0162430363356568); (0.1083561450226805, 0.0162477615777578);
   (0.1236523275707936, 0.0151596410913843); (0.1400001917204171, 0.0171775838115707); (0.1563482807118103, 0.0151603791304607); (0.1716462810831803, 0.0162506391568994);
   (0.1883537354932274, 0.0162506477984963); (0.2036517785208100, 0.0151604696838494); (0.2200000003493684, 0.0171777511624201); (0.2363482225877211, 0.0151604710290068);
   (0.2516462689286478, 0.0162506530439013); (0.2683537311015590, 0.0162506530596488); (0.2836517775202173, 0.0151604711940204); (0.3000000000006366, 0.0171777514673816);
   (0.3163482224818028, 0.0151604711964716); (0.3316462689064989, 0.0162506530692073); (0.3483537310935562, 0.0162506530692360); (0.3636517775183939, 0.0151604711967723);
   (0.3800000000000012, 0.0171777514679373); (0.3963482224816098, 0.0151604711967768); (0.4116462689064586, 0.0162506530692534); (0.4283537310935416, 0.0162506530692535);
   (0.4436517775183906, 0.0151604711967773); (0.4600000000000000, 0.0171777514679383); (0.4763482224816095, 0.0151604711967773); (0.4916462689064585, 0.0162506530692535);
   (0.5083537310935415, 0.0162506530692535); (0.5236517775183905, 0.0151604711967773); (0.5400000000000000, 0.0171777514679383); (0.5563482224816094, 0.0151604711967773);
   (0.5716462689064584, 0.0162506530692535); (0.5883537310935415, 0.0162506530692534); (0.6036517775183902, 0.0151604711967768); (0.6199999999999989, 0.0171777514679373);
   (0.6363482224816062, 0.0151604711967723); (0.6516462689064438, 0.0162506530692360); (0.6683537310935012, 0.0162506530692073); (0.6836517775181972, 0.0151604711964716);
   (0.6999999999993634, 0.0171777514673816); (0.7163482224797828, 0.0151604711940204); (0.7316462688984410, 0.0162506530596488); (0.7483537310713523, 0.0162506530439013);
   (0.7636517774122790, 0.0151604710290068); (0.7799999996506316, 0.0171777511624201); (0.7963482214791899, 0.0151604696838494); (0.8116462645067726, 0.0162506477984963);
   (0.8283537189168197, 0.0162506391568994); (0.8436517192881897, 0.0151603791304607); (0.8599998082795830, 0.0171775838115707); (0.8763476724292065, 0.0151596410913843);
   (0.8916438549773196, 0.0162477615777578); (0.9083470538566343, 0.0162430363356568); (0.9236198981717949, 0.0151100778190251); (0.9398951107676894, 0.0170862547126162);
   (0.9560576835875045, 0.0147420788907006); (0.9704378500840989, 0.0148731989912832); (0.9855292022837244, 0.0143301893028256); (0.9969590875361327, 0.0076191664754404)];
  [(0.0029239542921801, 0.0073261216110004); (0.0139142285733418, 0.0137790281757938); (0.0284251441499050, 0.0143011528762338); (0.0422522273197072, 0.0141750758564429);
   (0.0577931627233757, 0.0164290910698233); (0.0734424056040434, 0.0145289209798319); (0.0881278328301594, 0.0156183041689007); (0.1041886009833466, 0.0156228476709209);
   (0.1188964688180706, 0.0145765779724846); (0.1346155689619390, 0.0165169075111252); (0.1503348852998163, 0.0145772876254409); (0.1650445010415136, 0.0156256145739345);
   (0.1811093610511637, 0.0156256228831506); (0.1958190178083921, 0.0145773746958839); (0.2115384618741322, 0.0165170684251760); (0.2272579063335995, 0.0145773759883012);
   (0.2419675662742644, 0.0156256279228970); (0.2580324337424170, 0.0156256279315934); (0.2727420937260083, 0.0145773760794283); (0.2884615383191547, 0.0165170685935880);
   (0.3041809827452910, 0.0145773755312145); (0.3188906413785413, 0.0156256257938480); (0.3349555056829650, 0.0156256222568710); (0.3496651468571800, 0.0145773384680521);
   (0.3653845369135247, 0.0165170000973189); (0.3811038349332487, 0.0145770363575528); (0.3958127319749316, 0.0156244442518706); (0.4118758534468226, 0.0156225062244559);
   (0.4265751816749317, 0.0145567196353471); (0.4422646853868578, 0.0164794987034489); (0.4579056779572161, 0.0143979695782410); (0.4722193978111681, 0.0150255175510138);
   (0.4875249851004292, 0.0145813719535260); (0.5000000000000000, 0.0109838019705761); (0.5124750148995708, 0.0145813719535260); (0.5277806021888320, 0.0150255175510138);
   (0.5420943220427840, 0.0143979695782410); (0.5577353146131423, 0.0164794987034489); (0.5734248183250683, 0.0145567196353471); (0.5881241465531775, 0.0156225062244559);
   (0.6041872680250684, 0.0156244442518706); (0.6188961650667514, 0.0145770363575528); (0.6346154630864753, 0.0165170000973189); (0.6503348531428200, 0.0145773384680521);
   (0.6650444943170351, 0.0156256222568710); (0.6811093586214587, 0.0156256257938480); (0.6958190172547091, 0.0145773755312145); (0.7115384616808453, 0.0165170685935880);
   (0.7272579062739917, 0.0145773760794283); (0.7419675662575831, 0.0156256279315934); (0.7580324337257356, 0.0156256279228970); (0.7727420936664005, 0.0145773759883012);
   (0.7884615381258678, 0.0165170684251760); (0.8041809821916079, 0.0145773746958839); (0.8188906389488364, 0.0156256228831506); (0.8349554989584865, 0.0156256145739345);
   (0.8496651147001838, 0.0145772876254409); (0.8653844310380610, 0.0165169075111252); (0.8811035311819295, 0.0145765779724846); (0.8958113990166535, 0.0156228476709209);
   (0.9118721671698407, 0.0156183041689007); (0.9265575943959568, 0.0145289209798319); (0.9422068372766245, 0.0164290910698233); (0.9577477726802929, 0.0141750758564429);
   (0.9715748558500951, 0.0143011528762338); (0.9860857714266582, 0.0137790281757938); (0.9970760457078199, 0.0073261216110004)];
  [(0.0028156596887660, 0.0070547837735560); (0.0133988867743292, 0.0132686937989126); (0.0273723610332418, 0.0137714805474844); (0.0406873300115699, 0.0136500730469450);
   (0.0556526752151025, 0.0158206062153854); (0.0707223165075973, 0.0139908127953937); (0.0848638390216350, 0.0150398484589415); (0.1003297639098893, 0.0150442236831090);
   (0.1144928958988830, 0.0140367047142447); (0.1296298071485343, 0.0159051701958988); (0.1447669265850095, 0.0140373880837599); (0.1589317417436855, 0.0150468881082401);
   (0.1744016069381735, 0.0150468961097188); (0.1885664615933426, 0.0140374719294902); (0.2037037040271930, 0.0159053251503889); (0.2188409468404825, 0.0140374731750063);
   (0.2330058045635627, 0.0150469009665753); (0.2484756769458879, 0.0150469009811563); (0.2626405347409419, 0.0140374733277966); (0.2777777777783673, 0.0159053254327607);
   (0.2929150208164840, 0.0140374733300663); (0.3070798786171286, 0.0150469009900068); (0.3225497510125520, 0.0150469009900333); (0.3367146088133277, 0.0140374733303447);
   (0.3518518518518529, 0.0159053254332753); (0.3669890948903794, 0.0140374733303489); (0.3811539526911653, 0.0150469009900495); (0.3966238250866125, 0.0150469009900495);
   (0.4107886828873987, 0.0140374733303494); (0.4259259259259259, 0.0159053254332762); (0.4410631689644531, 0.0140374733303494); (0.4552280267652393, 0.0150469009900496);
   (0.4706978991606866, 0.0150469009900496); (0.4848627569614727, 0.0140374733303494); (0.5000000000000000, 0.0159053254332762); (0.5151372430385273, 0.0140374733303494);
   (0.5293021008393134, 0.0150469009900496); (0.5447719732347607, 0.0150469009900496); (0.5589368310355468, 0.0140374733303494); (0.5740740740740741, 0.0159053254332762);
   (0.5892113171126013, 0.0140374733303494); (0.6033761749133875, 0.0150469009900495); (0.6188460473088347, 0.0150469009900495); (0.6330109051096204, 0.0140374733303489);
   (0.6481481481481470, 0.0159053254332753); (0.6632853911866723, 0.0140374733303447); (0.6774502489874480, 0.0150469009900333); (0.6929201213828714, 0.0150469009900068);
   (0.7070849791835159, 0.0140374733300663); (0.7222222222216327, 0.0159053254327607); (0.7373594652590580, 0.0140374733277966); (0.7515243230541120, 0.0150469009811563);
   (0.7669941954364372, 0.0150469009665753); (0.7811590531595175, 0.0140374731750063); (0.7962962959728069, 0.0159053251503889); (0.8114335384066573, 0.0140374719294902);
   (0.8255983930618265, 0.0150468961097188); (0.8410682582563145, 0.0150468881082401); (0.8552330734149903, 0.0140373880837599); (0.8703701928514657, 0.0159051701958988);
   (0.8855071041011170, 0.0140367047142447); (0.8996702360901107, 0.0150442236831090); (0.9151361609783650, 0.0150398484589415); (0.9292776834924027, 0.0139908127953937);
   (0.9443473247848975, 0.0158206062153854); (0.9593126699884300, 0.0136500730469450); (0.9726276389667581, 0.0137714805474844); (0.9866011132256707, 0.0132686937989126);
   (0.9971843403112339, 0.0070547837735560)];
  [(0.0027151004141672, 0.0068028272102147); (0.0129203551038174, 0.0127948118775228); (0.0263947767106260, 0.0132796419565029); (0.0392342110825853, 0.0131625704381256);
   (0.0536650796717060, 0.0152555845648359); (0.0681965194894688, 0.0134911409098439); (0.0818329876280052, 0.0145027110139793); (0.0967465580559647, 0.0145069299801408);
   (0.1104038639024943, 0.0135353938315931); (0.1250001711789438, 0.0153371284031881); (0.1395966792069734, 0.0135360527950541); (0.1532556081099821, 0.0145094992472312);
   (0.1681729781189523, 0.0145095069629423); (0.1818319451078625, 0.0135361336462885); (0.1964285717404959, 0.0153372778235792); (0.2110251987390034, 0.0135361348472772);
   (0.2246841686861464, 0.0145095116461653); (0.2396015456259871, 0.0145095116599382); (0.2532605156411154, 0.0135361349916005); (0.2678571428513380, 0.0153372780903031);
   (0.2824537700547519, 0.0135361349692506); (0.2961127400148285, 0.0145095115727851); (0.3110301168256880, 0.0145095114151684); (0.3246890860077459, 0.0135361333176228);
   (0.3392857107883038, 0.0153372750379309); (0.3538823314665613, 0.0135361198517477); (0.3675412674799813, 0.0145094589054798); (0.3824585665809157, 0.0145093724030899);
   (0.3961170756007623, 0.0135352133950344); (0.4107123665702384, 0.0153355999085918); (0.4253054107429259, 0.0135278391755068); (0.4389457658888767, 0.0144806602993769);
   (0.4538209176422752, 0.0144350613982960); (0.4672354515631298, 0.0130477316218256); (0.4811390358912863, 0.0145036512644064); (0.4945667200108563, 0.0116249435675605);
   (0.5054332799891437, 0.0116249435675605); (0.5188609641087137, 0.0145036512644064); (0.5327645484368702, 0.0130477316218256); (0.5461790823577247, 0.0144350613982960);
   (0.5610542341111232, 0.0144806602993769); (0.5746945892570740, 0.0135278391755068); (0.5892876334297615, 0.0153355999085918); (0.6038829243992376, 0.0135352133950344);
   (0.6175414334190843, 0.0145093724030899); (0.6324587325200186, 0.0145094589054798); (0.6461176685334387, 0.0135361198517477); (0.6607142892116962, 0.0153372750379309);
   (0.6753109139922541, 0.0135361333176228); (0.6889698831743118, 0.0145095114151684); (0.7038872599851714, 0.0145095115727851); (0.7175462299452480, 0.0135361349692506);
   (0.7321428571486619, 0.0153372780903031); (0.7467394843588846, 0.0135361349916005); (0.7603984543740128, 0.0145095116599382); (0.7753158313138535, 0.0145095116461653);
   (0.7889748012609965, 0.0135361348472772); (0.8035714282595041, 0.0153372778235792); (0.8181680548921374, 0.0135361336462885); (0.8318270218810477, 0.0145095069629423);
   (0.8467443918900178, 0.0145094992472312); (0.8604033207930266, 0.0135360527950541); (0.8749998288210562, 0.0153371284031881); (0.8895961360975058, 0.0135353938315931);
   (0.9032534419440352, 0.0145069299801408); (0.9181670123719948, 0.0145027110139793); (0.9318034805105311, 0.0134911409098439); (0.9463349203282940, 0.0152555845648359);
   (0.9607657889174147, 0.0131625704381256); (0.9736052232893739, 0.0132796419565029); (0.9870796448961825, 0.0127948118775228); (0.9972848995858327, 0.0068028272102147)];
  [(0.0026214762619546, 0.0065682469615866); (0.0124748256174789, 0.0123536114679531); (0.0254846119964665, 0.0128217232683476); (0.0378813072521513, 0.0127086886988799);
   (0.0518145596830265, 0.0147295299246691); (0.0658449153691423, 0.0130259291543320); (0.0790111604684188, 0.0140026175307386); (0.0934104698471384, 0.0140066910153084);
   (0.1065968341127531, 0.0130686561132623); (0.1206898204486354, 0.0148082619065265); (0.1347830006136296, 0.0130692923538454); (0.1479709319682589, 0.0140091716869822);
   (0.1623739099079546, 0.0140091791366347); (0.1755618780351811, 0.0130693704171116); (0.1896551727149728, 0.0148084061745001); (0.2037484677480354, 0.0130693715767300);
   (0.2169364387315929, 0.0140091836585356); (0.2313394233634129, 0.0140091836721110); (0.2445273944139804, 0.0130693717189831); (0.2586206896557213, 0.0148084064373979);
   (0.2727139848981058, 0.0130693717210962); (0.2859019559538784, 0.0140091836803511); (0.3003049405978933, 0.0140091836803759); (0.3134929116537878, 0.0130693717213554);
   (0.3275862068965527, 0.0148084064378770); (0.3416795021393188, 0.0130693717213593); (0.3548674731952229, 0.0140091836803909); (0.3692704578392600, 0.0140091836803909);
   (0.3824584288951643, 0.0130693717213598); (0.3965517241379310, 0.0148084064378779); (0.4106450193806978, 0.0130693717213598); (0.4238329904366022, 0.0140091836803910);
   (0.4382359750806392, 0.0140091836803910); (0.4514239461365436, 0.0130693717213598); (0.4655172413793103, 0.0148084064378779); (0.4796105366220771, 0.0130693717213598);
   (0.4927985076779814, 0.0140091836803910); (0.5072014923220185, 0.0140091836803910); (0.5203894633779229, 0.0130693717213598); (0.5344827586206896, 0.0148084064378779);
   (0.5485760538634564, 0.0130693717213598); (0.5617640249193607, 0.0140091836803910); (0.5761670095633978, 0.0140091836803910); (0.5893549806193022, 0.0130693717213598);
   (0.6034482758620690, 0.0148084064378779); (0.6175415711048358, 0.0130693717213598); (0.6307295421607401, 0.0140091836803909); (0.6451325268047772, 0.0140091836803909);
   (0.6583204978606811, 0.0130693717213593); (0.6724137931034473, 0.0148084064378770); (0.6865070883462122, 0.0130693717213554); (0.6996950594021067, 0.0140091836803759);
   (0.7140980440461216, 0.0140091836803511); (0.7272860151018941, 0.0130693717210962); (0.7413793103442787, 0.0148084064373979); (0.7554726055860196, 0.0130693717189831);
   (0.7686605766365870, 0.0140091836721110); (0.7830635612684071, 0.0140091836585356); (0.7962515322519647, 0.0130693715767300); (0.8103448272850272, 0.0148084061745001);
   (0.8244381219648189, 0.0130693704171116); (0.8376260900920454, 0.0140091791366347); (0.8520290680317412, 0.0140091716869822); (0.8652169993863704, 0.0130692923538454);
   (0.8793101795513646, 0.0148082619065265); (0.8934031658872469, 0.0130686561132623); (0.9065895301528617, 0.0140066910153084); (0.9209888395315813, 0.0140026175307386);
   (0.9341550846308577, 0.0130259291543320); (0.9481854403169736, 0.0147295299246691); (0.9621186927478487, 0.0127086886988799); (0.9745153880035334, 0.0128217232683476);
   (0.9875251743825211, 0.0123536114679531); (0.9973785237380454, 0.0065682469615866)];
  [(0.0025340937198894, 0.0063493053962004); (0.0120589980968963, 0.0119418244190213); (0.0246351249299176, 0.0123943324927360); (0.0366185970104129, 0.0122850657422505);
   (0.0500874076935922, 0.0142385455938468); (0.0636500848568376, 0.0125917315158543); (0.0763774551194715, 0.0135358636130473); (0.0902967875189004, 0.0135398013147981);
   (0.1030436063089947, 0.0126330342428202); (0.1166668264336809, 0.0143146531763089); (0.1302902339265086, 0.0126336492753839); (0.1430385675693169, 0.0135421992974161);
   (0.1569614462443561, 0.0135422064987469); (0.1697098154340082, 0.0126337247365410); (0.1833333336244733, 0.0143147926353497); (0.1969568521564330, 0.0126337258575039);
   (0.2097052241072013, 0.0135422108699116); (0.2236281092512848, 0.0135422108830243); (0.2363764812667791, 0.0126337259949085); (0.2500000000003047, 0.0143147928892872);
   (0.2636235187341877, 0.0126337259960817); (0.2763718907525717, 0.0135422108875991); (0.2902947759034257, 0.0135422108820370); (0.3030431478943544, 0.0126337259377978);
   (0.3166666665427378, 0.0143147927815727); (0.3302901850457580, 0.0126337254606402); (0.3430385558613688, 0.0135422090213733); (0.3569614382585575, 0.0135422059559694);
   (0.3697097939428866, 0.0126336933389826); (0.3833332653250538, 0.0143147334176773); (0.3969566569421485, 0.0126334315098796); (0.4097043677116073, 0.0135411850182879);
   (0.4236257396539129, 0.0135395053945284); (0.4363651574516075, 0.0126158236839675); (0.4499627273352767, 0.0142822322096557); (0.4635182542295873, 0.0124782403011422);
   (0.4759234781030123, 0.0130221152108787); (0.4891883204203719, 0.0126371890263892); (0.5000000000000000, 0.0095192950411660); (0.5108116795796280, 0.0126371890263892);
   (0.5240765218969877, 0.0130221152108787); (0.5364817457704127, 0.0124782403011422); (0.5500372726647232, 0.0142822322096557); (0.5636348425483925, 0.0126158236839675);
   (0.5763742603460872, 0.0135395053945284); (0.5902956322883928, 0.0135411850182879); (0.6030433430578515, 0.0126334315098796); (0.6166667346749461, 0.0143147334176773);
   (0.6302902060571134, 0.0126336933389826); (0.6430385617414425, 0.0135422059559694); (0.6569614441386311, 0.0135422090213733); (0.6697098149542420, 0.0126337254606402);
   (0.6833333334572622, 0.0143147927815727); (0.6969568521056455, 0.0126337259377978); (0.7097052240965743, 0.0135422108820370); (0.7236281092474283, 0.0135422108875991);
   (0.7363764812658123, 0.0126337259960817); (0.7499999999996952, 0.0143147928892872); (0.7636235187332209, 0.0126337259949085); (0.7763718907487152, 0.0135422108830243);
   (0.7902947758927986, 0.0135422108699116); (0.8030431478435670, 0.0126337258575039); (0.8166666663755268, 0.0143147926353497); (0.8302901845659917, 0.0126337247365410);
   (0.8430385537556438, 0.0135422064987469); (0.8569614324306831, 0.0135421992974161); (0.8697097660734914, 0.0126336492753839); (0.8833331735663191, 0.0143146531763089);
   (0.8969563936910053, 0.0126330342428202); (0.9097032124810996, 0.0135398013147981); (0.9236225448805285, 0.0135358636130473); (0.9363499151431625, 0.0125917315158543);
   (0.9499125923064078, 0.0142385455938468); (0.9633814029895871, 0.0122850657422505); (0.9753648750700824, 0.0123943324927360); (0.9879410019031036, 0.0119418244190213);
   (0.9974659062801106, 0.0063493053962004)];
  [(0.0024523487611833, 0.0061444890930971); (0.0116699981582867, 0.0115566042764722); (0.0238404434805654, 0.0119945153155510); (0.0354373519455609, 0.0118887732989521);
   (0.0484716848647667, 0.0137792376714647); (0.0615968563130686, 0.0121855466282461); (0.0739136662446498, 0.0130992228513361); (0.0873839879215165, 0.0131030335304498);
   (0.0997196190087045, 0.0122255170091808); (0.1129033804196912, 0.0138528901706215); (0.1260873231546857, 0.0122261122019845); (0.1384244202283712, 0.0131053541587898);
   (0.1518981737848608, 0.0131053611278196); (0.1642353052587178, 0.0122261852289108); (0.1774193551204584, 0.0138530251309839); (0.1906034053126783, 0.0122261863137151);
   (0.2029405394585869, 0.0131053653579849); (0.2164142992754508, 0.0131053653706845); (0.2287514334840462, 0.0122261864467906); (0.2419354838714812, 0.0138530253769206);
   (0.2551195342595184, 0.0122261864487674); (0.2674566684729830, 0.0131053653783930); (0.2809304283012550, 0.0131053653784161); (0.2932675625148338, 0.0122261864490099);
   (0.3064516129032267, 0.0138530253773688); (0.3196356632916208, 0.0122261864490135); (0.3319727975052085, 0.0131053653784302); (0.3454465573335013, 0.0131053653784302);
   (0.3577836915470892, 0.0122261864490140); (0.3709677419354839, 0.0138530253773696); (0.3841517923238786, 0.0122261864490140); (0.3964889265374665, 0.0131053653784303);
   (0.4099626863657593, 0.0131053653784303); (0.4222998205793472, 0.0122261864490140); (0.4354838709677419, 0.0138530253773696); (0.4486679213561366, 0.0122261864490140);
   (0.4610050555697246, 0.0131053653784303); (0.4744788153980173, 0.0131053653784303); (0.4868159496116053, 0.0122261864490140); (0.5000000000000000, 0.0138530253773696);
   (0.5131840503883947, 0.0122261864490140); (0.5255211846019826, 0.0131053653784303); (0.5389949444302754, 0.0131053653784303); (0.5513320786438634, 0.0122261864490140);
   (0.5645161290322580, 0.0138530253773696); (0.5777001794206528, 0.0122261864490140); (0.5900373136342407, 0.0131053653784303); (0.6035110734625334, 0.0131053653784303);
   (0.6158482076761214, 0.0122261864490140); (0.6290322580645161, 0.0138530253773696); (0.6422163084529108, 0.0122261864490140); (0.6545534426664987, 0.0131053653784302);
   (0.6680272024947915, 0.0131053653784302); (0.6803643367083791, 0.0122261864490135); (0.6935483870967732, 0.0138530253773688); (0.7067324374851662, 0.0122261864490099);
   (0.7190695716987450, 0.0131053653784161); (0.7325433315270170, 0.0131053653783930); (0.7448804657404815, 0.0122261864487674); (0.7580645161285188, 0.0138530253769206);
   (0.7712485665159539, 0.0122261864467906); (0.7835857007245491, 0.0131053653706845); (0.7970594605414131, 0.0131053653579849); (0.8093965946873217, 0.0122261863137151);
   (0.8225806448795415, 0.0138530251309839); (0.8357646947412822, 0.0122261852289108); (0.8481018262151392, 0.0131053611278196); (0.8615755797716288, 0.0131053541587898);
   (0.8739126768453143, 0.0122261122019845); (0.8870966195803088, 0.0138528901706215); (0.9002803809912955, 0.0122255170091808); (0.9126160120784835, 0.0131030335304498);
   (0.9260863337553502, 0.0130992228513361); (0.9384031436869313, 0.0121855466282461); (0.9515283151352333, 0.0137792376714647); (0.9645626480544391, 0.0118887732989521);
   (0.9761595565194345, 0.0119945153155510); (0.9883300018417133, 0.0115566042764722); (0.9975476512388166, 0.0061444890930971)];
  [(0.0023757128623963, 0.0059524738089378); (0.0113053107158402, 0.0111954603928325); (0.0230954296217978, 0.0116196867119400); (0.0343299346972621, 0.0115172491333599);
   (0.0469569447127427, 0.0133486364942314); (0.0596719545532852, 0.0118047482961134); (0.0716038641745045, 0.0126898721372319); (0.0846532382989691, 0.0126935637326232);
   (0.0966033809146825, 0.0118434696026439); (0.1093751497815759, 0.0134199873527896); (0.1221470943061018, 0.0118440461956724); (0.1340986570962346, 0.0126958118413276);
   (0.1471513558540839, 0.0126958185925752); (0.1591029519693828, 0.0118441169405074); (0.1718750002729441, 0.0134201180956407); (0.1846470488966570, 0.0118441179914115);
   (0.1965986476005059, 0.0126958226905476); (0.2096513524230923, 0.0126958227028499); (0.2216029511876667, 0.0118441181203235); (0.2343750000004872, 0.0134201183338830);
   (0.2471470488138793, 0.0118441181221994); (0.2590986475830743, 0.0126958227101649); (0.2721513524164866, 0.0126958227099360); (0.2841029511845515, 0.0118441181198004);
   (0.2968749999944243, 0.0134201183294494); (0.3096470487977571, 0.0118441180983327); (0.3215986475129434, 0.0126958226262230); (0.3346513522224657, 0.0126958224882860);
   (0.3466029502567751, 0.0118441166529238); (0.3593749969397649, 0.0134201156581903); (0.3721470400332409, 0.0118441048702796); (0.3840986090449836, 0.0126957765422949);
   (0.3971512457583012, 0.0126957008527037); (0.4091024411506670, 0.0118433117206551); (0.4218733207489586, 0.0134186499200178); (0.4346422344000602, 0.0118368592785684);
   (0.4465775451527672, 0.0126705777619548); (0.4595933029369908, 0.0126306787235090); (0.4713310201177386, 0.0114167651690974); (0.4834966564048755, 0.0126906948563556);
   (0.4952458800094993, 0.0101718256216155); (0.5047541199905007, 0.0101718256216155); (0.5165033435951245, 0.0126906948563556); (0.5286689798822614, 0.0114167651690974);
   (0.5404066970630091, 0.0126306787235090); (0.5534224548472328, 0.0126705777619548); (0.5653577655999398, 0.0118368592785684); (0.5781266792510413, 0.0134186499200178);
   (0.5908975588493329, 0.0118433117206551); (0.6028487542416988, 0.0126957008527037); (0.6159013909550164, 0.0126957765422949); (0.6278529599667590, 0.0118441048702796);
   (0.6406250030602351, 0.0134201156581903); (0.6533970497432249, 0.0118441166529238); (0.6653486477775343, 0.0126958224882860); (0.6784013524870566, 0.0126958226262230);
   (0.6903529512022428, 0.0118441180983327); (0.7031250000055757, 0.0134201183294494); (0.7158970488154485, 0.0118441181198004); (0.7278486475835134, 0.0126958227099360);
   (0.7409013524169257, 0.0126958227101649); (0.7528529511861207, 0.0118441181221994); (0.7656249999995128, 0.0134201183338830); (0.7783970488123334, 0.0118441181203235);
   (0.7903486475769077, 0.0126958227028499); (0.8034013523994942, 0.0126958226905476); (0.8153529511033429, 0.0118441179914115); (0.8281249997270559, 0.0134201180956407);
   (0.8408970480306172, 0.0118441169405074); (0.8528486441459161, 0.0126958185925752); (0.8659013429037654, 0.0126958118413276); (0.8778529056938982, 0.0118440461956724);
   (0.8906248502184242, 0.0134199873527896); (0.9033966190853175, 0.0118434696026439); (0.9153467617010309, 0.0126935637326232); (0.9283961358254955, 0.0126898721372319);
   (0.9403280454467148, 0.0118047482961134); (0.9530430552872573, 0.0133486364942314); (0.9656700653027379, 0.0115172491333599); (0.9769045703782022, 0.0116196867119400);
   (0.9886946892841597, 0.0111954603928325); (0.9976242871376036, 0.0059524738089378)];
  [(0.0023037215635358, 0.0057720958147276); (0.0109627255426330, 0.0108562040172921); (0.0223955681181069, 0.0112675749933964); (0.0332896336458299, 0.0111682415838641);
   (0.0455340069941748, 0.0129441323580426); (0.0578637135062160, 0.0114470286507766); (0.0694340501086105, 0.0123053305573157); (0.0820879886535458, 0.0123089102861801);
   (0.0936760057354497, 0.0114845765843820); (0.1060607513033463, 0.0130133210693717); (0.1184456672059169, 0.0114851357048945); (0.1300350614266517, 0.0123110902703783);
   (0.1426922238585056, 0.0123110968170426); (0.1542816503945531, 0.0114852043059465); (0.1666666669313397, 0.0130134478503182); (0.1790516837785766, 0.0114852053250051);
   (0.1906411128247332, 0.0123111007908343); (0.2032982811375447, 0.0123111008027642); (0.2148877102425888, 0.0114852054500154); (0.2272727272732096, 0.0130134480813497);
   (0.2396577443043960, 0.0114852054518724); (0.2512471734140143, 0.0123111008100055); (0.2639043417375426, 0.0123111008100273); (0.2754937708472681, 0.0114852054521002);
   (0.2878787878787887, 0.0130134480817707); (0.3002638049103105, 0.0114852054521036); (0.3118532340200444, 0.0123111008100405); (0.3245104023435921, 0.0123111008100405);
   (0.3360998314533262, 0.0114852054521040); (0.3484848484848485, 0.0130134480817714); (0.3608698655163708, 0.0114852054521040); (0.3724592946261049, 0.0123111008100405);
   (0.3851164629496527, 0.0123111008100405); (0.3967058920593868, 0.0114852054521040); (0.4090909090909091, 0.0130134480817715); (0.4214759261224314, 0.0114852054521040);
   (0.4330653552321655, 0.0123111008100405); (0.4457225235557133, 0.0123111008100405); (0.4573119526654474, 0.0114852054521040); (0.4696969696969697, 0.0130134480817715);
   (0.4820819867284920, 0.0114852054521040); (0.4936714158382262, 0.0123111008100405); (0.5063285841617738, 0.0123111008100405); (0.5179180132715080, 0.0114852054521040);
   (0.5303030303030303, 0.0130134480817715); (0.5426880473345527, 0.0114852054521040); (0.5542774764442867, 0.0123111008100405); (0.5669346447678345, 0.0123111008100405);
   (0.5785240738775687, 0.0114852054521040); (0.5909090909090909, 0.0130134480817715); (0.6032941079406132, 0.0114852054521040); (0.6148835370503474, 0.0123111008100405);
   (0.6275407053738951, 0.0123111008100405); (0.6391301344836292, 0.0114852054521040); (0.6515151515151515, 0.0130134480817714); (0.6639001685466739, 0.0114852054521040);
   (0.6754895976564079, 0.0123111008100405); (0.6881467659799557, 0.0123111008100405); (0.6997361950896895, 0.0114852054521036); (0.7121212121212113, 0.0130134480817707);
   (0.7245062291527320, 0.0114852054521002); (0.7360956582624575, 0.0123111008100273); (0.7487528265859857, 0.0123111008100055); (0.7603422556956039, 0.0114852054518724);
   (0.7727272727267904, 0.0130134480813497); (0.7851122897574112, 0.0114852054500154); (0.7967017188624553, 0.0123111008027642); (0.8093588871752669, 0.0123111007908343);
   (0.8209483162214235, 0.0114852053250051); (0.8333333330686603, 0.0130134478503182); (0.8457183496054470, 0.0114852043059465); (0.8573077761414944, 0.0123110968170426);
   (0.8699649385733483, 0.0123110902703783); (0.8815543327940831, 0.0114851357048945); (0.8939392486966538, 0.0130133210693717); (0.9063239942645503, 0.0114845765843820);
   (0.9179120113464543, 0.0123089102861801); (0.9305659498913896, 0.0123053305573157); (0.9421362864937840, 0.0114470286507766); (0.9544659930058252, 0.0129441323580426);
   (0.9667103663541701, 0.0111682415838641); (0.9776044318818931, 0.0112675749933964); (0.9890372744573670, 0.0108562040172921); (0.9976962784364642, 0.0057720958147276)];
  [(0.0022359650469613, 0.0056023282907650); (0.0106402924384379, 0.0105369038991365); (0.0217368749381626, 0.0109361757288847); (0.0323105267738938, 0.0108397638902211);
   (0.0441947714943461, 0.0125634225828060); (0.0561618395795626, 0.0111103513375185); (0.0673918721642396, 0.0119434090703359); (0.0796736360460886, 0.0119468835130572);
   (0.0909208290961718, 0.0111467949201355); (0.1029413174414831, 0.0126305763320373); (0.1149619711116252, 0.0111473375959270); (0.1262105007964561, 0.0119489993800731);
   (0.1384953937450202, 0.0119490057341884); (0.1497439547947133, 0.0111474041793010); (0.1617647061392415, 0.0126306993841324); (0.1737854577850890, 0.0111474051683873);
   (0.1850340212710646, 0.0119490095911039); (0.1973189199276169, 0.0119490096026829); (0.2085674834707479, 0.0111474052897207); (0.2205882352945854, 0.0126306996083685);
   (0.2326089871189716, 0.0111474052915217); (0.2438575506665387, 0.0119490096097058); (0.2561424493334845, 0.0119490096097179); (0.2673910128811115, 0.0111474052916486);
   (0.2794117647056839, 0.0126306996086032); (0.2914325165300237, 0.0111474052908847); (0.3026810800757689, 0.0119490096067390); (0.3149659787383060, 0.0119490096018102);
   (0.3262145422597221, 0.0111474052392370); (0.3382352940082973, 0.0126306995131531); (0.3502560456286097, 0.0111474048182123); (0.3615046081129725, 0.0119490079600354);
   (0.3737895043457860, 0.0119490052552671); (0.3850380534790176, 0.0111473764755729); (0.3970587635221063, 0.0126306471332446); (0.4090794031842487, 0.0111471454498937);
   (0.4203273832749476, 0.0119481044279011); (0.4326109467534525, 0.0119466224069369); (0.4438516095161242, 0.0111316091329125); (0.4558494652958324, 0.0126019695967550);
   (0.4678102243202241, 0.0110102120304196); (0.4787560100908931, 0.0114901016566576); (0.4904602827238576, 0.0111504609056375); (0.5000000000000000, 0.0083993779774994);
   (0.5095397172761424, 0.0111504609056375); (0.5212439899091068, 0.0114901016566576); (0.5321897756797760, 0.0110102120304196); (0.5441505347041676, 0.0126019695967550);
   (0.5561483904838757, 0.0111316091329125); (0.5673890532465475, 0.0119466224069369); (0.5796726167250524, 0.0119481044279011); (0.5909205968157513, 0.0111471454498937);
   (0.6029412364778937, 0.0126306471332446); (0.6149619465209825, 0.0111473764755729); (0.6262104956542139, 0.0119490052552671); (0.6384953918870274, 0.0119490079600354);
   (0.6497439543713903, 0.0111474048182123); (0.6617647059917028, 0.0126306995131531); (0.6737854577402779, 0.0111474052392370); (0.6850340212616939, 0.0119490096018102);
   (0.6973189199242310, 0.0119490096067390); (0.7085674834699762, 0.0111474052908847); (0.7205882352943160, 0.0126306996086032); (0.7326089871188886, 0.0111474052916486);
   (0.7438575506665155, 0.0119490096097179); (0.7561424493334612, 0.0119490096097058); (0.7673910128810284, 0.0111474052915217); (0.7794117647054145, 0.0126306996083685);
   (0.7914325165292522, 0.0111474052897207); (0.8026810800723830, 0.0119490096026829); (0.8149659787289355, 0.0119490095911039); (0.8262145422149110, 0.0111474051683873);
   (0.8382352938607585, 0.0126306993841324); (0.8502560452052867, 0.0111474041793010); (0.8615046062549798, 0.0119490057341884); (0.8737894992035439, 0.0119489993800731);
   (0.8850380288883748, 0.0111473375959270); (0.8970586825585168, 0.0126305763320373); (0.9090791709038283, 0.0111467949201355); (0.9203263639539114, 0.0119468835130572);
   (0.9326081278357605, 0.0119434090703359); (0.9438381604204373, 0.0111103513375185); (0.9558052285056540, 0.0125634225828060); (0.9676894732261062, 0.0108397638902211);
   (0.9782631250618373, 0.0109361757288847); (0.9893597075615621, 0.0105369038991365); (0.9977640349530388, 0.0056023282907650)];
  [(0.0021720803313338, 0.0054422617681717); (0.0103362840830539, 0.0102358495020183); (0.0211158213685008, 0.0106237135652023); (0.0313873688660682, 0.0105300563505005);
   (0.0429320637373648, 0.0122044676518687); (0.0545572155915751, 0.0107929127278751); (0.0654663901024042, 0.0116021688111834); (0.0773972464447718, 0.0116055439841127);
   (0.0883230911219954, 0.0108283150652745); (0.1000001369431551, 0.0122697027225505); (0.1116773433655788, 0.0108288422360434); (0.1226044864879859, 0.0116075993977853);
   (0.1345383824951624, 0.0116076055703545); (0.1454655560862929, 0.0108289069170353); (0.1571428573924060, 0.0122698222588715); (0.1688201589912293, 0.0108289078778620);
   (0.1797473349490341, 0.0116076093170724); (0.1916812365011135, 0.0116076093283205); (0.2026084125144409, 0.0108289079957288); (0.2142857142861690, 0.0122698224767011);
   (0.2259630160584306, 0.0108289079974797); (0.2368901920760706, 0.0116076093351481); (0.2488240936382544, 0.0116076093351686); (0.2597512696559957, 0.0108289079976945);
   (0.2714285714285722, 0.0122698224770981); (0.2831058732011498, 0.0108289079976977); (0.2940330492188989, 0.0116076093351810); (0.3059669507811011, 0.0116076093351811);
   (0.3168941267988504, 0.0108289079976981); (0.3285714285714286, 0.0122698224770988); (0.3402487303440067, 0.0108289079976981); (0.3511759063617561, 0.0116076093351811);
   (0.3631098079239582, 0.0116076093351811); (0.3740369839417075, 0.0108289079976981); (0.3857142857142857, 0.0122698224770988); (0.3973915874868639, 0.0108289079976981);
   (0.4083187635046132, 0.0116076093351811); (0.4202526650668154, 0.0116076093351811); (0.4311798410845647, 0.0108289079976981); (0.4428571428571428, 0.0122698224770988);
   (0.4545344446297210, 0.0108289079976981); (0.4654616206474703, 0.0116076093351811); (0.4773955222096725, 0.0116076093351811); (0.4883226982274218, 0.0108289079976981);
   (0.5000000000000000, 0.0122698224770988); (0.5116773017725782, 0.0108289079976981); (0.5226044777903275, 0.0116076093351811); (0.5345383793525297, 0.0116076093351811);
   (0.5454655553702790, 0.0108289079976981); (0.5571428571428572, 0.0122698224770988); (0.5688201589154352, 0.0108289079976981); (0.5797473349331846, 0.0116076093351811);
   (0.5916812364953867, 0.0116076093351811); (0.6026084125131361, 0.0108289079976981); (0.6142857142857142, 0.0122698224770988); (0.6259630160582924, 0.0108289079976981);
   (0.6368901920760418, 0.0116076093351811); (0.6488240936382439, 0.0116076093351811); (0.6597512696559933, 0.0108289079976981); (0.6714285714285714, 0.0122698224770988);
   (0.6831058732011496, 0.0108289079976981); (0.6940330492188989, 0.0116076093351811); (0.7059669507811011, 0.0116076093351810); (0.7168941267988501, 0.0108289079976977);
   (0.7285714285714278, 0.0122698224770981); (0.7402487303440044, 0.0108289079976945); (0.7511759063617456, 0.0116076093351686); (0.7631098079239294, 0.0116076093351481);
   (0.7740369839415694, 0.0108289079974797); (0.7857142857138310, 0.0122698224767011); (0.7973915874855591, 0.0108289079957288); (0.8083187634988864, 0.0116076093283205);
   (0.8202526650509658, 0.0116076093170724); (0.8311798410087706, 0.0108289078778620); (0.8428571426075939, 0.0122698222588715); (0.8545344439137071, 0.0108289069170353);
   (0.8654616175048375, 0.0116076055703545); (0.8773955135120141, 0.0116075993977853); (0.8883226566344211, 0.0108288422360434); (0.8999998630568450, 0.0122697027225505);
   (0.9116769088780046, 0.0108283150652745); (0.9226027535552282, 0.0116055439841127); (0.9345336098975958, 0.0116021688111834); (0.9454427844084248, 0.0107929127278751);
   (0.9570679362626352, 0.0122044676518687); (0.9686126311339318, 0.0105300563505005); (0.9788841786314991, 0.0106237135652023); (0.9896637159169460, 0.0102358495020183);
   (0.9978279196686662, 0.0054422617681717)];
  [(0.0021117447665745, 0.0052910878301670); (0.0100491650807469, 0.0099515203491844); (0.0205292707749314, 0.0103286104106133); (0.0305154975086774, 0.0102375547852088);
   (0.0417395064113269, 0.0118654546615390); (0.0530417373806980, 0.0104931095965452); (0.0636478792662263, 0.0112798863442061); (0.0752473229324170, 0.0112831677623318);
   (0.0858696719241622, 0.0105275285356835); (0.0972223553614008, 0.0119288776469241); (0.1085751949387572, 0.0105280410628199); (0.1191988063077641, 0.0112851660811801);
   (0.1308012052036301, 0.0112851720822891); (0.1414248461950070, 0.0105281039471177); (0.1527777780203947, 0.0119289938627917); (0.1641307101303618, 0.0105281048812547);
   (0.1747543534226721, 0.0112851757249315); (0.1863567577094159, 0.0112851757358672); (0.1969804010557064, 0.0105281049958475); (0.2083333333337754, 0.0119289940745705);
   (0.2196862656123630, 0.0105281049975496); (0.2303099089628463, 0.0112851757425048); (0.2419123132594134, 0.0112851757425244); (0.2525359566099930, 0.0105281049977542);
   (0.2638888888888806, 0.0119289940749486); (0.2752418211677586, 0.0105281049977225); (0.2858654645182602, 0.0112851757424008); (0.2974678688146445, 0.0112851757421774);
   (0.3080915121640434, 0.0105281049953816); (0.3194444444394874, 0.0119289940706224); (0.3307973767091172, 0.0105281049762961); (0.3414210200115052, 0.0112851756677538);
   (0.3530234241977472, 0.0112851755451431); (0.3636470668949112, 0.0105281036914879); (0.3749999972797911, 0.0119289916961692); (0.3863529244739919, 0.0105280932180263);
   (0.3969765413733187, 0.0112851347042621); (0.4085788851184899, 0.0112850674246255); (0.4192021699117040, 0.0105273881961379); (0.4305540628879632, 0.0119276888177936);
   (0.4419042083556090, 0.0105216526920608); (0.4525133734691263, 0.0112627357884042); (0.4640829359439919, 0.0112272699764524); (0.4745164623268788, 0.0101482357058644);
   (0.4853303612487782, 0.0112806176500938); (0.4957741155639994, 0.0090416227747693); (0.5042258844360006, 0.0090416227747693); (0.5146696387512217, 0.0112806176500938);
   (0.5254835376731212, 0.0101482357058644); (0.5359170640560081, 0.0112272699764524); (0.5474866265308737, 0.0112627357884042); (0.5580957916443908, 0.0105216526920608);
   (0.5694459371120367, 0.0119276888177936); (0.5807978300882959, 0.0105273881961379); (0.5914211148815101, 0.0112850674246255); (0.6030234586266812, 0.0112851347042621);
   (0.6136470755260081, 0.0105280932180263); (0.6250000027202089, 0.0119289916961692); (0.6363529331050888, 0.0105281036914879); (0.6469765758022527, 0.0112851755451431);
   (0.6585789799884947, 0.0112851756677538); (0.6692026232908828, 0.0105281049762961); (0.6805555555605124, 0.0119289940706224); (0.6919084878359565, 0.0105281049953816);
   (0.7025321311853554, 0.0112851757421774); (0.7141345354817397, 0.0112851757424008); (0.7247581788322413, 0.0105281049977225); (0.7361111111111193, 0.0119289940749486);
   (0.7474640433900069, 0.0105281049977542); (0.7580876867405866, 0.0112851757425244); (0.7696900910371537, 0.0112851757425048); (0.7803137343876370, 0.0105281049975496);
   (0.7916666666662245, 0.0119289940745705); (0.8030195989442935, 0.0105281049958475); (0.8136432422905839, 0.0112851757358672); (0.8252456465773279, 0.0112851757249315);
   (0.8358692898696382, 0.0105281048812547); (0.8472222219796052, 0.0119289938627917); (0.8585751538049929, 0.0105281039471177); (0.8691987947963699, 0.0112851720822891);
   (0.8808011936922359, 0.0112851660811801); (0.8914248050612428, 0.0105280410628199); (0.9027776446385992, 0.0119288776469241); (0.9141303280758377, 0.0105275285356835);
   (0.9247526770675830, 0.0112831677623318); (0.9363521207337737, 0.0112798863442061); (0.9469582626193018, 0.0104931095965452); (0.9582604935886732, 0.0118654546615390);
   (0.9694845024913226, 0.0102375547852088); (0.9794707292250686, 0.0103286104106133); (0.9899508349192531, 0.0099515203491844); (0.9978882552334255, 0.0052910878301670)];
  [(0.0020546705836941, 0.0051480854563787); (0.0097775660245105, 0.0096825603397470); (0.0199744256188521, 0.0100494587778941); (0.0296907543327672, 0.0099608641153383);
   (0.0406114116434532, 0.0115447666977136); (0.0516081769109494, 0.0102095120398819); (0.0619276663130850, 0.0109750245511194); (0.0732136115018111, 0.0109782172822688);
   (0.0835488699802660, 0.0102430007374218); (0.0945947241354170, 0.0116064755483586); (0.1056407302106827, 0.0102434994124735); (0.1159772169480948, 0.0109801615924996);
   (0.1272660374954239, 0.0109801674314164); (0.1376025530546014, 0.0102435605971956); (0.1486486488847084, 0.0116065886232568); (0.1596947449917034, 0.0102435615060857);
   (0.1700312627896269, 0.0109801709756090); (0.1813200885821344, 0.0109801709862492); (0.1916566064325792, 0.0102435616175813); (0.2027027027031329, 0.0116065888293119);
   (0.2137487989741911, 0.0102435616192376); (0.2240853168287155, 0.0109801709927077); (0.2353741426307812, 0.0109801709927270); (0.2457106604854013, 0.0102435616194407);
   (0.2567567567567575, 0.0116065888296874); (0.2678028530281147, 0.0102435616194438); (0.2781393708827423, 0.0109801709927388); (0.2894281966848254, 0.0109801709927388);
   (0.2997647145394531, 0.0102435616194441); (0.3108108108108109, 0.0116065888296881); (0.3218569070821686, 0.0102435616194441); (0.3321934249367963, 0.0109801709927389);
   (0.3434822507388794, 0.0109801709927389); (0.3538187685935071, 0.0102435616194441); (0.3648648648648649, 0.0116065888296881); (0.3759109611362226, 0.0102435616194441);
   (0.3862474789908503, 0.0109801709927389); (0.3975363047929335, 0.0109801709927389); (0.4078728226475612, 0.0102435616194441); (0.4189189189189190, 0.0116065888296881);
   (0.4299650151902767, 0.0102435616194441); (0.4403015330449044, 0.0109801709927389); (0.4515903588469876, 0.0109801709927389); (0.4619268767016153, 0.0102435616194441);
   (0.4729729729729730, 0.0116065888296881); (0.4840190692443307, 0.0102435616194441); (0.4943555870989584, 0.0109801709927389); (0.5056444129010416, 0.0109801709927389);
   (0.5159809307556693, 0.0102435616194441); (0.5270270270270271, 0.0116065888296881); (0.5380731232983847, 0.0102435616194441); (0.5484096411530125, 0.0109801709927389);
   (0.5596984669550956, 0.0109801709927389); (0.5700349848097234, 0.0102435616194441); (0.5810810810810811, 0.0116065888296881); (0.5921271773524388, 0.0102435616194441);
   (0.6024636952070666, 0.0109801709927389); (0.6137525210091497, 0.0109801709927389); (0.6240890388637774, 0.0102435616194441); (0.6351351351351352, 0.0116065888296881);
   (0.6461812314064929, 0.0102435616194441); (0.6565177492611206, 0.0109801709927389); (0.6678065750632037, 0.0109801709927389); (0.6781430929178315, 0.0102435616194441);
   (0.6891891891891893, 0.0116065888296881); (0.7002352854605469, 0.0102435616194441); (0.7105718033151747, 0.0109801709927388); (0.7218606291172578, 0.0109801709927388);
   (0.7321971469718853, 0.0102435616194438); (0.7432432432432425, 0.0116065888296874); (0.7542893395145988, 0.0102435616194407); (0.7646258573692188, 0.0109801709927270);
   (0.7759146831712846, 0.0109801709927077); (0.7862512010258089, 0.0102435616192376); (0.7972972972968672, 0.0116065888293119); (0.8083433935674208, 0.0102435616175813);
   (0.8186799114178656, 0.0109801709862492); (0.8299687372103732, 0.0109801709756090); (0.8403052550082967, 0.0102435615060857); (0.8513513511152916, 0.0116065886232568);
   (0.8623974469453987, 0.0102435605971956); (0.8727339625045760, 0.0109801674314164); (0.8840227830519053, 0.0109801615924996); (0.8943592697893173, 0.0102434994124735);
   (0.9054052758645831, 0.0116064755483586); (0.9164511300197341, 0.0102430007374218); (0.9267863884981890, 0.0109782172822688); (0.9380723336869151, 0.0109750245511194);
   (0.9483918230890506, 0.0102095120398819); (0.9593885883565469, 0.0115447666977136); (0.9703092456672329, 0.0099608641153383); (0.9800255743811479, 0.0100494587778941);
   (0.9902224339754895, 0.0096825603397470); (0.9979453294163060, 0.0051480854563787)];
  [(0.0020006003051759, 0.0050126095233161); (0.0095202616554444, 0.0094277561202800); (0.0194487828394087, 0.0097849993363705); (0.0289094186924313, 0.0096987361123031);
   (0.0395426902844149, 0.0112409570477738); (0.0502500669922402, 0.0099408406704113); (0.0602979908837933, 0.0106862081155637); (0.0712869375149214, 0.0106893168274722);
   (0.0813502155071011, 0.0099734480864370); (0.0921053892897481, 0.0113010419812965); (0.1028607109946120, 0.0099739336384610); (0.1129251849231449, 0.0106912099716443);
   (0.1239169312455443, 0.0106912156569054); (0.1339814332373750, 0.0099739932130588); (0.1447368423351108, 0.0113011520805395); (0.1554922517024481, 0.0099739940980308);
   (0.1655567558741104, 0.0106912191078298); (0.1765485073036572, 0.0106912191181900); (0.1866130115264587, 0.0099739942065923); (0.1973684210530504, 0.0113011522811721);
   (0.2081238305801334, 0.0099739942082050); (0.2181883348069072, 0.0106912191244785); (0.2291800862457606, 0.0106912191244974); (0.2392445904726275, 0.0099739942084027);
   (0.2500000000000004, 0.0113011522815374); (0.2607554095273739, 0.0099739942084044); (0.2708199137542449, 0.0106912191245039); (0.2818116651931081, 0.0106912191244959);
   (0.2918761694199397, 0.0099739942083205); (0.3026315789471901, 0.0113011522813825); (0.3133869884742315, 0.0099739942076341); (0.3234514926993721, 0.0106912191218191);
   (0.3344432441342738, 0.0106912191174091); (0.3445077483376460, 0.0099739941614226); (0.3552631577968975, 0.0113011521959791); (0.3660185671413876, 0.0099739937847163);
   (0.3760830704168701, 0.0106912176484527); (0.3870748196778085, 0.0106912152283969); (0.3971393110075420, 0.0099739684255126); (0.4078946831513582, 0.0113011053297452);
   (0.4186499923227489, 0.0099737617183260); (0.4287139745091636, 0.0106904092249641); (0.4397045313057206, 0.0106890832062067); (0.4497619664091638, 0.0099598608031322);
   (0.4604968900015342, 0.0112754464813071); (0.4711986217602004, 0.0098512423430070); (0.4809922195550096, 0.0102806172717463); (0.4914644634897672, 0.0099767281787283);
   (0.5000000000000000, 0.0075152329272363); (0.5085355365102326, 0.0099767281787283); (0.5190077804449903, 0.0102806172717463); (0.5288013782397996, 0.0098512423430070);
   (0.5395031099984657, 0.0112754464813071); (0.5502380335908361, 0.0099598608031322); (0.5602954686942794, 0.0106890832062067); (0.5712860254908363, 0.0106904092249641);
   (0.5813500076772511, 0.0099737617183260); (0.5921053168486418, 0.0113011053297452); (0.6028606889924579, 0.0099739684255126); (0.6129251803221915, 0.0106912152283969);
   (0.6239169295831298, 0.0106912176484527); (0.6339814328586123, 0.0099739937847163); (0.6447368422031025, 0.0113011521959791); (0.6554922516623539, 0.0099739941614226);
   (0.6655567558657262, 0.0106912191174091); (0.6765485073006278, 0.0106912191218191); (0.6866130115257685, 0.0099739942076341); (0.6973684210528098, 0.0113011522813825);
   (0.7081238305800603, 0.0099739942083205); (0.7181883348068918, 0.0106912191244959); (0.7291800862457549, 0.0106912191245039); (0.7392445904726260, 0.0099739942084044);
   (0.7499999999999994, 0.0113011522815374); (0.7607554095273725, 0.0099739942084027); (0.7708199137542393, 0.0106912191244974); (0.7818116651930929, 0.0106912191244785);
   (0.7918761694198665, 0.0099739942082050); (0.8026315789469495, 0.0113011522811721); (0.8133869884735413, 0.0099739942065923); (0.8234514926963428, 0.0106912191181900);
   (0.8344432441258895, 0.0106912191078298); (0.8445077482975518, 0.0099739940980308); (0.8552631576648891, 0.0113011520805395); (0.8660185667626250, 0.0099739932130588);
   (0.8760830687544555, 0.0106912156569054); (0.8870748150768550, 0.0106912099716443); (0.8971392890053879, 0.0099739336384610); (0.9078946107102519, 0.0113010419812965);
   (0.9186497844928989, 0.0099734480864370); (0.9287130624850786, 0.0106893168274722); (0.9397020091162067, 0.0106862081155637); (0.9497499330077597, 0.0099408406704113);
   (0.9604573097155851, 0.0112409570477738); (0.9710905813075688, 0.0096987361123031); (0.9805512171605912, 0.0097849993363705); (0.9904797383445555, 0.0094277561202800);
   (0.9979993996948242, 0.0050126095233161)];
  [(0.0019493028614534, 0.0048840810740003); (0.0092761523822279, 0.0091860187838626); (0.0189500960999366, 0.0095341019174892); (0.0281681515464715, 0.0094500505709619);
   (0.0385287751489171, 0.0109527273798822); (0.0489616037360289, 0.0096859473198879); (0.0587518885534396, 0.0104122027792672); (0.0694590673222311, 0.0104152317806139);
   (0.0792643125453805, 0.0097177186483232); (0.0897437126412930, 0.0110112716740838); (0.1002232568665451, 0.0097181917502953); (0.1100296673610130, 0.0104170763826278);
   (0.1207395740341201, 0.0104170819221130); (0.1305460118723141, 0.0097182497973394); (0.1410256412495951, 0.0110113789502693); (0.1515052708895648, 0.0097182506596197);
   (0.1613117108516973, 0.0104170852845521); (0.1720216225009993, 0.0104170852946466); (0.1818280625129598, 0.0097182507653977); (0.1923076923081004, 0.0110113791457574);
   (0.2027873221037197, 0.0097182507669690); (0.2125937621195506, 0.0104170853007739); (0.2233036737779206, 0.0104170853007923); (0.2331101137938422, 0.0097182507671617);
   (0.2435897435897443, 0.0110113791461137); (0.2540693733856473, 0.0097182507671646); (0.2638758134015760, 0.0104170853008035); (0.2745857250599625, 0.0104170853008035);
   (0.2843921650758914, 0.0097182507671649); (0.2948717948717949, 0.0110113791461143); (0.3053514246676983, 0.0097182507671649); (0.3151578646836272, 0.0104170853008035);
   (0.3258677763420138, 0.0104170853008035); (0.3356742163579426, 0.0097182507671649); (0.3461538461538461, 0.0110113791461143); (0.3566334759497496, 0.0097182507671649);
   (0.3664399159656785, 0.0104170853008035); (0.3771498276240651, 0.0104170853008035); (0.3869562676399939, 0.0097182507671649); (0.3974358974358974, 0.0110113791461143);
   (0.4079155272318009, 0.0097182507671649); (0.4177219672477298, 0.0104170853008035); (0.4284318789061163, 0.0104170853008035); (0.4382383189220452, 0.0097182507671649);
   (0.4487179487179487, 0.0110113791461143); (0.4591975785138522, 0.0097182507671649); (0.4690040185297811, 0.0104170853008035); (0.4797139301881676, 0.0104170853008035);
   (0.4895203702040965, 0.0097182507671649); (0.5000000000000000, 0.0110113791461143); (0.5104796297959034, 0.0097182507671649); (0.5202860698118323, 0.0104170853008035);
   (0.5309959814702189, 0.0104170853008035); (0.5408024214861478, 0.0097182507671649); (0.5512820512820512, 0.0110113791461143); (0.5617616810779548, 0.0097182507671649);
   (0.5715681210938837, 0.0104170853008035); (0.5822780327522702, 0.0104170853008035); (0.5920844727681991, 0.0097182507671649); (0.6025641025641025, 0.0110113791461143);
   (0.6130437323600060, 0.0097182507671649); (0.6228501723759349, 0.0104170853008035); (0.6335600840343215, 0.0104170853008035); (0.6433665240502503, 0.0097182507671649);
   (0.6538461538461539, 0.0110113791461143); (0.6643257836420573, 0.0097182507671649); (0.6741322236579862, 0.0104170853008035); (0.6848421353163727, 0.0104170853008035);
   (0.6946485753323016, 0.0097182507671649); (0.7051282051282051, 0.0110113791461143); (0.7156078349241086, 0.0097182507671649); (0.7254142749400375, 0.0104170853008035);
   (0.7361241865984240, 0.0104170853008035); (0.7459306266143526, 0.0097182507671646); (0.7564102564102556, 0.0110113791461137); (0.7668898862061577, 0.0097182507671617);
   (0.7766963262220794, 0.0104170853007923); (0.7874062378804494, 0.0104170853007739); (0.7972126778962801, 0.0097182507669690); (0.8076923076918996, 0.0110113791457574);
   (0.8181719374870402, 0.0097182507653977); (0.8279783774990006, 0.0104170852946466); (0.8386882891483026, 0.0104170852845521); (0.8484947291104351, 0.0097182506596197);
   (0.8589743587504048, 0.0110113789502693); (0.8694539881276859, 0.0097182497973394); (0.8792604259658797, 0.0104170819221130); (0.8899703326389869, 0.0104170763826278);
   (0.8997767431334549, 0.0097181917502953); (0.9102562873587070, 0.0110112716740838); (0.9207356874546195, 0.0097177186483232); (0.9305409326777689, 0.0104152317806139);
   (0.9412481114465604, 0.0104122027792672); (0.9510383962639710, 0.0096859473198879); (0.9614712248510828, 0.0109527273798822); (0.9718318484535285, 0.0094500505709619);
   (0.9810499039000633, 0.0095341019174892); (0.9907238476177720, 0.0091860187838626); (0.9980506971385467, 0.0048840810740003)];
  [(0.0019005702899171, 0.0047619790471503); (0.0090442485726722, 0.0089563683142660); (0.0184763436974382, 0.0092957493695520); (0.0274639477578097, 0.0092137993066879);
   (0.0375655557701942, 0.0106789091953851); (0.0477375636426282, 0.0094437986368907); (0.0572830913396036, 0.0101518977097855); (0.0677225906391753, 0.0101548509860986);
   (0.0772827047317460, 0.0094747756821152); (0.0875001198252607, 0.0107359898822317); (0.0977176754448815, 0.0094752369565380); (0.1072789256769877, 0.0101566494730621);
   (0.1177210846832671, 0.0101566548740602); (0.1272823615755063, 0.0094752935524059); (0.1375000002183553, 0.0107360944765125); (0.1477176391173257, 0.0094752943931292);
   (0.1572789180804049, 0.0101566581524383); (0.1677210819384743, 0.0101566581622805); (0.1772823609501358, 0.0094752944962627); (0.1875000000003979, 0.0107360946671135);
   (0.1977176390511267, 0.0094752944977947); (0.2072789180665618, 0.0101566581682546); (0.2177210819334726, 0.0101566581682725); (0.2272823609489962, 0.0094752944979827);
   (0.2375000000000007, 0.0107360946674608); (0.2477176390510061, 0.0094752944979854); (0.2572789180665364, 0.0101566581682832); (0.2677210819334629, 0.0101566581682828);
   (0.2772823609489917, 0.0094752944979819); (0.2874999999999919, 0.0107360946674543); (0.2977176390509826, 0.0094752944979506); (0.3072789180664341, 0.0101566581681608);
   (0.3177210819331802, 0.0101566581679597); (0.3272823609476391, 0.0094752944958435); (0.3374999999955388, 0.0107360946635601); (0.3477176390382055, 0.0094752944786665);
   (0.3572789180103547, 0.0101566581009784); (0.3677210817779726, 0.0101566579906288); (0.3772823602054201, 0.0094752933223391); (0.3874999975518120, 0.0107360925265522);
   (0.3977176320265927, 0.0094752838962237); (0.4072788872359869, 0.0101566212338359); (0.4177209966066410, 0.0101565606821630); (0.4272819529205337, 0.0094746493765241);
   (0.4374986565991670, 0.0107349199360142); (0.4477137875200482, 0.0094694874228547); (0.4572620361222137, 0.0101364622095638); (0.4676746423495927, 0.0101045429788072);
   (0.4770648160941909, 0.0091334121352780); (0.4867973251239004, 0.0101525558850844); (0.4961967040075995, 0.0081374604972924); (0.5038032959924006, 0.0081374604972924);
   (0.5132026748760996, 0.0101525558850844); (0.5229351839058091, 0.0091334121352780); (0.5323253576504073, 0.0101045429788072); (0.5427379638777863, 0.0101364622095638);
   (0.5522862124799518, 0.0094694874228547); (0.5625013434008331, 0.0107349199360142); (0.5727180470794664, 0.0094746493765241); (0.5822790033933590, 0.0101565606821630);
   (0.5927211127640132, 0.0101566212338359); (0.6022823679734073, 0.0094752838962237); (0.6125000024481881, 0.0107360925265522); (0.6227176397945799, 0.0094752933223391);
   (0.6322789182220275, 0.0101566579906288); (0.6427210819896453, 0.0101566581009784); (0.6522823609617946, 0.0094752944786665); (0.6625000000044613, 0.0107360946635601);
   (0.6727176390523609, 0.0094752944958435); (0.6822789180668200, 0.0101566581679597); (0.6927210819335659, 0.0101566581681608); (0.7022823609490175, 0.0094752944979506);
   (0.7125000000000082, 0.0107360946674543); (0.7227176390510084, 0.0094752944979819); (0.7322789180665370, 0.0101566581682828); (0.7427210819334636, 0.0101566581682832);
   (0.7522823609489939, 0.0094752944979854); (0.7624999999999993, 0.0107360946674608); (0.7727176390510039, 0.0094752944979827); (0.7822789180665275, 0.0101566581682725);
   (0.7927210819334383, 0.0101566581682546); (0.8022823609488733, 0.0094752944977947); (0.8124999999996021, 0.0107360946671135); (0.8227176390498642, 0.0094752944962627);
   (0.8322789180615257, 0.0101566581622805); (0.8427210819195952, 0.0101566581524383); (0.8522823608826743, 0.0094752943931292); (0.8624999997816447, 0.0107360944765125);
   (0.8727176384244939, 0.0094752935524059); (0.8822789153167329, 0.0101566548740602); (0.8927210743230124, 0.0101566494730621); (0.9022823245551186, 0.0094752369565380);
   (0.9124998801747394, 0.0107359898822317); (0.9227172952682541, 0.0094747756821152); (0.9322774093608248, 0.0101548509860986); (0.9427169086603965, 0.0101518977097855);
   (0.9522624363573717, 0.0094437986368907); (0.9624344442298058, 0.0106789091953851); (0.9725360522421904, 0.0092137993066879); (0.9815236563025618, 0.0092957493695520);
   (0.9909557514273278, 0.0089563683142660); (0.9980994297100830, 0.0047619790471503)];
  [(0.0018542149169923, 0.0046458332167320); (0.0088236571440704, 0.0087379203066010); (0.0180257011682324, 0.0090690237751727); (0.0267940953734729, 0.0089890724943297);
   (0.0366493227026285, 0.0104184479954977); (0.0465732328220763, 0.0092134620847714); (0.0558859427703450, 0.0099042904485712); (0.0660708201357808, 0.0099071716937547);
   (0.0753977607138985, 0.0092436835923075); (0.0853659705612299, 0.0104741364704699); (0.0953343175072014, 0.0092441336161346); (0.1046623665141343, 0.0099089263151825);
   (0.1148498387153826, 0.0099089315844490); (0.1241779137322012, 0.0092441888316155); (0.1341463416764442, 0.0104742385136708); (0.1441147698705616, 0.0092441896518334);
   (0.1534428469077121, 0.0099089347828667); (0.1636303238424140, 0.0099089347924688); (0.1729584009269617, 0.0092441897524514); (0.1829268292686809, 0.0104742386996229);
   (0.1928952576108554, 0.0092441897539461); (0.2022233346990847, 0.0099089347982971); (0.2124108116424123, 0.0099089347983146); (0.2217388887307280, 0.0092441897541294);
   (0.2317073170731714, 0.0104742386999618); (0.2416757454156157, 0.0092441897541322); (0.2510038225039382, 0.0099089347983253); (0.2611912994472815, 0.0099089347983253);
   (0.2705193765356040, 0.0092441897541325); (0.2804878048780488, 0.0104742386999624); (0.2904562332204936, 0.0092441897541325); (0.2997843103088161, 0.0099089347983253);
   (0.3099717872521595, 0.0099089347983253); (0.3192998643404821, 0.0092441897541325); (0.3292682926829268, 0.0104742386999624); (0.3392367210253716, 0.0092441897541325);
   (0.3485647981136942, 0.0099089347983253); (0.3587522750570375, 0.0099089347983253); (0.3680803521453601, 0.0092441897541325); (0.3780487804878049, 0.0104742386999624);
   (0.3880172088302496, 0.0092441897541325); (0.3973452859185723, 0.0099089347983253); (0.4075327628619156, 0.0099089347983253); (0.4168608399502381, 0.0092441897541325);
   (0.4268292682926829, 0.0104742386999624); (0.4367976966351277, 0.0092441897541325); (0.4461257737234503, 0.0099089347983253); (0.4563132506667936, 0.0099089347983253);
   (0.4656413277551162, 0.0092441897541325); (0.4756097560975610, 0.0104742386999624); (0.4855781844400058, 0.0092441897541325); (0.4949062615283283, 0.0099089347983253);
   (0.5050937384716717, 0.0099089347983253); (0.5144218155599942, 0.0092441897541325); (0.5243902439024390, 0.0104742386999624); (0.5343586722448839, 0.0092441897541325);
   (0.5436867493332064, 0.0099089347983253); (0.5538742262765497, 0.0099089347983253); (0.5632023033648723, 0.0092441897541325); (0.5731707317073171, 0.0104742386999624);
   (0.5831391600497619, 0.0092441897541325); (0.5924672371380845, 0.0099089347983253); (0.6026547140814278, 0.0099089347983253); (0.6119827911697504, 0.0092441897541325);
   (0.6219512195121951, 0.0104742386999624); (0.6319196478546399, 0.0092441897541325); (0.6412477249429626, 0.0099089347983253); (0.6514352018863058, 0.0099089347983253);
   (0.6607632789746284, 0.0092441897541325); (0.6707317073170732, 0.0104742386999624); (0.6807001356595179, 0.0092441897541325); (0.6900282127478405, 0.0099089347983253);
   (0.7002156896911839, 0.0099089347983253); (0.7095437667795065, 0.0092441897541325); (0.7195121951219512, 0.0104742386999624); (0.7294806234643960, 0.0092441897541325);
   (0.7388087005527186, 0.0099089347983253); (0.7489961774960620, 0.0099089347983253); (0.7583242545843842, 0.0092441897541322); (0.7682926829268286, 0.0104742386999618);
   (0.7782611112692721, 0.0092441897541294); (0.7875891883575878, 0.0099089347983146); (0.7977766653009154, 0.0099089347982971); (0.8071047423891446, 0.0092441897539461);
   (0.8170731707313191, 0.0104742386996229); (0.8270415990730382, 0.0092441897524514); (0.8363696761575861, 0.0099089347924688); (0.8465571530922879, 0.0099089347828667);
   (0.8558852301294383, 0.0092441896518334); (0.8658536583235559, 0.0104742385136708); (0.8758220862677989, 0.0092441888316155); (0.8851501612846174, 0.0099089315844490);
   (0.8953376334858657, 0.0099089263151825); (0.9046656824927987, 0.0092441336161346); (0.9146340294387701, 0.0104741364704699); (0.9246022392861015, 0.0092436835923075);
   (0.9339291798642193, 0.0099071716937547); (0.9441140572296550, 0.0099042904485712); (0.9534267671779236, 0.0092134620847714); (0.9633506772973716, 0.0104184479954977);
   (0.9732059046265272, 0.0089890724943297); (0.9819742988317676, 0.0090690237751727); (0.9911763428559296, 0.0087379203066010); (0.9981457850830079, 0.0046458332167320)];
  [(0.0018100669427782, 0.0045352181401431); (0.0086135700692116, 0.0085298745850152); (0.0175965178070840, 0.0088530946376686); (0.0261561407217235, 0.0087750469587504);
   (0.0357767197811373, 0.0101703897098906); (0.0454643463263126, 0.0089940939398959); (0.0545553250853368, 0.0096684740093195); (0.0644977053706431, 0.0096712866534272);
   (0.0736025759349962, 0.0090235958877287); (0.0833334474526292, 0.0102247522687921); (0.0930644528046490, 0.0090240351967028); (0.1021704054066549, 0.0096729994981544);
   (0.1121153187459687, 0.0096730046419621); (0.1212212967385774, 0.0090240890975294); (0.1309523811603383, 0.0102248518823929); (0.1406834658260245, 0.0090240898982183);
   (0.1497894457908618, 0.0096730077642270); (0.1597343637509279, 0.0096730077736005); (0.1688403437620341, 0.0090240899964407); (0.1785714285718075, 0.0102248520639176);
   (0.1883025133820254, 0.0090240899978998); (0.1974084933967255, 0.0096730077792901); (0.2073534113652120, 0.0096730077793072); (0.2164593913799964, 0.0090240899980787);
   (0.2261904761904769, 0.0102248520642484); (0.2359215610009582, 0.0090240899980814); (0.2450275410157491, 0.0096730077793175); (0.2549724589842509, 0.0096730077793175);
   (0.2640784389990419, 0.0090240899980816); (0.2738095238095235, 0.0102248520642487); (0.2835406086200047, 0.0090240899980805); (0.2926465886347930, 0.0096730077793131);
   (0.3025915066032883, 0.0096730077793059); (0.3116974866180406, 0.0090240899980043); (0.3214285714284101, 0.0102248520641079); (0.3311596562385904, 0.0090240899973832);
   (0.3402656362518129, 0.0096730077768840); (0.3502105542167239, 0.0096730077728940); (0.3593165342102512, 0.0090240899555728); (0.3690476189590978, 0.0102248519868383);
   (0.3787787036041126, 0.0090240896147433); (0.3878846827581206, 0.0096730064438381); (0.3978295987561125, 0.0096730042542639); (0.4069355671020619, 0.0090240666707019);
   (0.4166666180893241, 0.0102248095840552); (0.4263976121015347, 0.0090238796499140); (0.4355031197940052, 0.0096722750130628); (0.4454469568956520, 0.0096710752818060);
   (0.4545465410368625, 0.0090113026314054); (0.4642590909537690, 0.0102015944354684); (0.4739416101639909, 0.0089130287865301); (0.4828024843592944, 0.0093015108649133);
   (0.4922773717288370, 0.0090265635902780); (0.5000000000000000, 0.0067994964579757); (0.5077226282711629, 0.0090265635902780); (0.5171975156407055, 0.0093015108649133);
   (0.5260583898360091, 0.0089130287865301); (0.5357409090462308, 0.0102015944354684); (0.5454534589631375, 0.0090113026314054); (0.5545530431043479, 0.0096710752818060);
   (0.5644968802059948, 0.0096722750130628); (0.5736023878984653, 0.0090238796499140); (0.5833333819106759, 0.0102248095840552); (0.5930644328979381, 0.0090240666707019);
   (0.6021704012438875, 0.0096730042542639); (0.6121153172418794, 0.0096730064438381); (0.6212212963958873, 0.0090240896147433); (0.6309523810409022, 0.0102248519868383);
   (0.6406834657897488, 0.0090240899555728); (0.6497894457832760, 0.0096730077728940); (0.6597343637481871, 0.0096730077768840); (0.6688403437614096, 0.0090240899973832);
   (0.6785714285715898, 0.0102248520641079); (0.6883025133819594, 0.0090240899980043); (0.6974084933967116, 0.0096730077793059); (0.7073534113652070, 0.0096730077793131);
   (0.7164593913799951, 0.0090240899980805); (0.7261904761904764, 0.0102248520642487); (0.7359215610009581, 0.0090240899980816); (0.7450275410157491, 0.0096730077793175);
   (0.7549724589842508, 0.0096730077793175); (0.7640784389990417, 0.0090240899980814); (0.7738095238095231, 0.0102248520642484); (0.7835406086200036, 0.0090240899980787);
   (0.7926465886347881, 0.0096730077793072); (0.8025915066032745, 0.0096730077792901); (0.8116974866179745, 0.0090240899978998); (0.8214285714281925, 0.0102248520639176);
   (0.8311596562379658, 0.0090240899964407); (0.8402656362490720, 0.0096730077736005); (0.8502105542091382, 0.0096730077642270); (0.8593165341739755, 0.0090240898982183);
   (0.8690476188396615, 0.0102248518823929); (0.8787787032614226, 0.0090240890975294); (0.8878846812540312, 0.0096730046419621); (0.8978295945933450, 0.0096729994981544);
   (0.9069355471953510, 0.0090240351967028); (0.9166665525473707, 0.0102247522687921); (0.9263974240650038, 0.0090235958877287); (0.9355022946293569, 0.0096712866534272);
   (0.9454446749146632, 0.0096684740093195); (0.9545356536736873, 0.0089940939398959); (0.9642232802188626, 0.0101703897098906); (0.9738438592782764, 0.0087750469587504);
   (0.9824034821929160, 0.0088530946376686); (0.9913864299307883, 0.0085298745850152); (0.9981899330572218, 0.0045352181401431)];
  [(0.0017679723627136, 0.0044297479508375); (0.0084132544862067, 0.0083315054086195); (0.0171872964627332, 0.0086472087158623); (0.0255478583793579, 0.0085709760992446);
   (0.0349447030420411, 0.0099338690189629); (0.0444070359466309, 0.0087849289645495); (0.0532865965949801, 0.0094436257765446); (0.0629977587341166, 0.0094463730103243);
   (0.0718908881225544, 0.0088137448205722); (0.0813954603025681, 0.0099869673323085); (0.0909001632045409, 0.0088141739130586); (0.0997943494669653, 0.0094480460214531);
   (0.1095079857518764, 0.0094480510456374); (0.1184021968144244, 0.0088142265603776); (0.1279069769473072, 0.0099870646293140); (0.1374117573184425, 0.0088142273424458);
   (0.1463059703073533, 0.0094480540952915); (0.1560196111055575, 0.0094480541044470); (0.1649138241396612, 0.0088142274383839); (0.1744186046515329, 0.0099870648066172);
   (0.1839233851638388, 0.0088142274398091); (0.1928175982014529, 0.0094480541100043); (0.2025312390078815, 0.0094480541100209); (0.2114254520455778, 0.0088142274399839);
   (0.2209302325581402, 0.0099870648069403); (0.2304350130707034, 0.0088142274399865); (0.2393292261084061, 0.0094480541100311); (0.2490428669148498, 0.0094480541100311);
   (0.2579370799525527, 0.0088142274399868); (0.2674418604651163, 0.0099870648069409); (0.2769466409776799, 0.0088142274399868); (0.2858408540153828, 0.0094480541100311);
   (0.2955544948218264, 0.0094480541100311); (0.3044487078595294, 0.0088142274399868); (0.3139534883720930, 0.0099870648069409); (0.3234582688846567, 0.0088142274399868);
   (0.3323524819223596, 0.0094480541100311); (0.3420661227288032, 0.0094480541100311); (0.3509603357665061, 0.0088142274399868); (0.3604651162790697, 0.0099870648069409);
   (0.3699698967916334, 0.0088142274399868); (0.3788641098293363, 0.0094480541100311); (0.3885777506357799, 0.0094480541100311); (0.3974719636734829, 0.0088142274399868);
   (0.4069767441860465, 0.0099870648069409); (0.4164815246986102, 0.0088142274399868); (0.4253757377363130, 0.0094480541100311); (0.4350893785427567, 0.0094480541100311);
   (0.4439835915804596, 0.0088142274399868); (0.4534883720930232, 0.0099870648069409); (0.4629931526055869, 0.0088142274399868); (0.4718873656432898, 0.0094480541100311);
   (0.4816010064497334, 0.0094480541100311); (0.4904952194874364, 0.0088142274399868); (0.5000000000000000, 0.0099870648069409); (0.5095047805125636, 0.0088142274399868);
   (0.5183989935502665, 0.0094480541100311); (0.5281126343567102, 0.0094480541100311); (0.5370068473944131, 0.0088142274399868); (0.5465116279069767, 0.0099870648069409);
   (0.5560164084195404, 0.0088142274399868); (0.5649106214572432, 0.0094480541100311); (0.5746242622636869, 0.0094480541100311); (0.5835184753013899, 0.0088142274399868);
   (0.5930232558139534, 0.0099870648069409); (0.6025280363265171, 0.0088142274399868); (0.6114222493642201, 0.0094480541100311); (0.6211358901706636, 0.0094480541100311);
   (0.6300301032083666, 0.0088142274399868); (0.6395348837209303, 0.0099870648069409); (0.6490396642334939, 0.0088142274399868); (0.6579338772711968, 0.0094480541100311);
   (0.6676475180776404, 0.0094480541100311); (0.6765417311153433, 0.0088142274399868); (0.6860465116279070, 0.0099870648069409); (0.6955512921404706, 0.0088142274399868);
   (0.7044455051781735, 0.0094480541100311); (0.7141591459846172, 0.0094480541100311); (0.7230533590223200, 0.0088142274399868); (0.7325581395348837, 0.0099870648069409);
   (0.7420629200474473, 0.0088142274399868); (0.7509571330851502, 0.0094480541100311); (0.7606707738915939, 0.0094480541100311); (0.7695649869292965, 0.0088142274399865);
   (0.7790697674418597, 0.0099870648069403); (0.7885745479544222, 0.0088142274399839); (0.7974687609921186, 0.0094480541100209); (0.8071824017985472, 0.0094480541100043);
   (0.8160766148361611, 0.0088142274398091); (0.8255813953484671, 0.0099870648066172); (0.8350861758603387, 0.0088142274383839); (0.8439803888944424, 0.0094480541044470);
   (0.8536940296926465, 0.0094480540952915); (0.8625882426815574, 0.0088142273424458); (0.8720930230526928, 0.0099870646293140); (0.8815978031855757, 0.0088142265603776);
   (0.8904920142481235, 0.0094480510456374); (0.9002056505330347, 0.0094480460214531); (0.9090998367954591, 0.0088141739130586); (0.9186045396974319, 0.0099869673323085);
   (0.9281091118774456, 0.0088137448205722); (0.9370022412658835, 0.0094463730103243); (0.9467134034050199, 0.0094436257765446); (0.9555929640533690, 0.0087849289645495);
   (0.9650552969579589, 0.0099338690189629); (0.9744521416206422, 0.0085709760992446); (0.9828127035372668, 0.0086472087158623); (0.9915867455137932, 0.0083315054086195);
   (0.9982320276372865, 0.0044297479508375)];
  [(0.0017277911726519, 0.0043290718610457); (0.0082220441569747, 0.0081421530129691); (0.0167966760885802, 0.0084506812450473); (0.0249672252343725, 0.0083761811878981);
   (0.0341505052456311, 0.0097080992685319); (0.0433977851296620, 0.0085852714880825); (0.0520755375814578, 0.0092289979179868); (0.0615659914901594, 0.0092316827146351);
   (0.0702570043015873, 0.0086134324382865); (0.0795455634775097, 0.0097599908020288); (0.0888342504044377, 0.0086138517786709); (0.0975262960699888, 0.0092333177027837);
   (0.1070191678938792, 0.0092333226127820); (0.1157112377959148, 0.0086139032294599); (0.1250000001985048, 0.0097600858877387); (0.1342887628339324, 0.0086139039937539);
   (0.1429808346185499, 0.0092333255931258); (0.1524737108531585, 0.0092333256020732); (0.1611657826819416, 0.0086139040875116); (0.1704545454549072, 0.0097600860610123);
   (0.1797433082282970, 0.0086139040889043); (0.1884353800605107, 0.0092333256075042); (0.1979282563031569, 0.0092333256075205); (0.2066203281354511, 0.0086139040890752);
   (0.2159090909090915, 0.0097600860613280); (0.2251978536827328, 0.0086139040890777); (0.2338899255150333, 0.0092333256075304); (0.2433828017576941, 0.0092333256075304);
   (0.2520748735899946, 0.0086139040890780); (0.2613636363636364, 0.0097600860613286); (0.2706523991372781, 0.0086139040890780); (0.2793444709695785, 0.0092333256075302);
   (0.2888373472122391, 0.0092333256075299); (0.2975294190445379, 0.0086139040890745); (0.3068181818181744, 0.0097600860613221); (0.3161069445918024, 0.0086139040890460);
   (0.3247990164240310, 0.0092333256074189); (0.3342918926665274, 0.0092333256072361); (0.3429839644978537, 0.0086139040871304); (0.3522727272686716, 0.0097600860577819);
   (0.3615614900347323, 0.0086139040715150); (0.3702535618275952, 0.0092333255463440); (0.3797464379799750, 0.0092333254460262); (0.3884385092776547, 0.0086139030203083);
   (0.3977272705016472, 0.0097600841150475); (0.4070160291150843, 0.0086138944511125); (0.4157080793054426, 0.0092332920307599); (0.4252009060060372, 0.0092332369837845);
   (0.4338926844732124, 0.0086133176150219); (0.4431805969083336, 0.0097590181236493); (0.4524670795636802, 0.0086086249298679); (0.4611473055656489, 0.0092149656450580);
   (0.4706133112269025, 0.0091859481625520); (0.4791498328129009, 0.0083031019411618); (0.4879975682944549, 0.0092295962591677); (0.4965424581887268, 0.0073976913611749);
   (0.5034575418112732, 0.0073976913611749); (0.5120024317055452, 0.0092295962591677); (0.5208501671870992, 0.0083031019411618); (0.5293866887730976, 0.0091859481625520);
   (0.5388526944343511, 0.0092149656450580); (0.5475329204363198, 0.0086086249298679); (0.5568194030916664, 0.0097590181236493); (0.5661073155267876, 0.0086133176150219);
   (0.5747990939939628, 0.0092332369837845); (0.5842919206945574, 0.0092332920307599); (0.5929839708849157, 0.0086138944511125); (0.6022727294983528, 0.0097600841150475);
   (0.6115614907223453, 0.0086139030203083); (0.6202535620200250, 0.0092333254460262); (0.6297464381724048, 0.0092333255463440); (0.6384385099652677, 0.0086139040715150);
   (0.6477272727313285, 0.0097600860577819); (0.6570160355021463, 0.0086139040871304); (0.6657081073334726, 0.0092333256072361); (0.6752009835759690, 0.0092333256074189);
   (0.6838930554081977, 0.0086139040890460); (0.6931818181818257, 0.0097600860613221); (0.7024705809554622, 0.0086139040890745); (0.7111626527877610, 0.0092333256075299);
   (0.7206555290304215, 0.0092333256075302); (0.7293476008627220, 0.0086139040890780); (0.7386363636363636, 0.0097600860613286); (0.7479251264100053, 0.0086139040890780);
   (0.7566171982423060, 0.0092333256075304); (0.7661100744849668, 0.0092333256075304); (0.7748021463172672, 0.0086139040890777); (0.7840909090909085, 0.0097600860613280);
   (0.7933796718645489, 0.0086139040890752); (0.8020717436968432, 0.0092333256075205); (0.8115646199394894, 0.0092333256075042); (0.8202566917717029, 0.0086139040889043);
   (0.8295454545450929, 0.0097600860610123); (0.8388342173180583, 0.0086139040875116); (0.8475262891468415, 0.0092333256020732); (0.8570191653814501, 0.0092333255931258);
   (0.8657112371660676, 0.0086139039937539); (0.8749999998014952, 0.0097600858877387); (0.8842887622040853, 0.0086139032294599); (0.8929808321061208, 0.0092333226127820);
   (0.9024737039300113, 0.0092333177027837); (0.9111657495955623, 0.0086138517786709); (0.9204544365224904, 0.0097599908020288); (0.9297429956984128, 0.0086134324382865);
   (0.9384340085098407, 0.0092316827146351); (0.9479244624185422, 0.0092289979179868); (0.9566022148703379, 0.0085852714880825); (0.9658494947543690, 0.0097080992685319);
   (0.9750327747656276, 0.0083761811878981); (0.9832033239114198, 0.0084506812450473); (0.9917779558430253, 0.0081421530129691); (0.9982722088273482, 0.0043290718610457)];
  [(0.0016893958132596, 0.0042328702641336); (0.0080393320645975, 0.0079612162793475); (0.0164234166199451, 0.0082628883284907); (0.0244123980069420, 0.0081900438281670);
   (0.0333916051290615, 0.0094923637292312); (0.0424333899045584, 0.0083944876772362); (0.0509183034129810, 0.0090239090753649); (0.0601978583459336, 0.0090265342098654);
   (0.0686957375393298, 0.0084220228285468); (0.0777778842891206, 0.0095431021175393); (0.0868601559510057, 0.0084224328502560); (0.0953590450462113, 0.0090281328649441);
   (0.1046409641629041, 0.0090281376658313); (0.1131398769560056, 0.0084224831576941); (0.1222222224163158, 0.0095431950902334); (0.1313045681042895, 0.0084224839050038);
   (0.1398034827381377, 0.0090281405799452); (0.1490854061675328, 0.0090281405886938); (0.1575843208445651, 0.0084224839966780); (0.1666666666670204, 0.0095431952596564);
   (0.1757490124898904, 0.0084224839980398); (0.1842479271702772, 0.0090281405940041); (0.1935298506075312, 0.0090281405940200); (0.2020287652879966, 0.0084224839982068);
   (0.2111111111111117, 0.0095431952599652); (0.2201934569342277, 0.0084224839982093); (0.2286923716146992, 0.0090281405940297); (0.2379742950519675, 0.0090281405940297);
   (0.2464732097324392, 0.0084224839982096); (0.2555555555555556, 0.0095431952599657); (0.2646379013786719, 0.0084224839982096); (0.2731368160591436, 0.0090281405940297);
   (0.2824187394964119, 0.0090281405940297); (0.2909176541768836, 0.0084224839982096); (0.3000000000000000, 0.0095431952599657); (0.3090823458231164, 0.0084224839982096);
   (0.3175812605035880, 0.0090281405940297); (0.3268631839408564, 0.0090281405940297); (0.3353620986213281, 0.0084224839982096); (0.3444444444444444, 0.0095431952599657);
   (0.3535267902675608, 0.0084224839982096); (0.3620257049480325, 0.0090281405940297); (0.3713076283853008, 0.0090281405940297); (0.3798065430657726, 0.0084224839982096);
   (0.3888888888888889, 0.0095431952599657); (0.3979712347120052, 0.0084224839982096); (0.4064701493924769, 0.0090281405940297); (0.4157520728297453, 0.0090281405940297);
   (0.4242509875102170, 0.0084224839982096); (0.4333333333333333, 0.0095431952599657); (0.4424156791564497, 0.0084224839982096); (0.4509145938369214, 0.0090281405940297);
   (0.4601965172741898, 0.0090281405940297); (0.4686954319546615, 0.0084224839982096); (0.4777777777777778, 0.0095431952599657); (0.4868601236008941, 0.0084224839982096);
   (0.4953590382813658, 0.0090281405940297); (0.5046409617186342, 0.0090281405940297); (0.5131398763991059, 0.0084224839982096); (0.5222222222222223, 0.0095431952599657);
   (0.5313045680453385, 0.0084224839982096); (0.5398034827258102, 0.0090281405940297); (0.5490854061630787, 0.0090281405940297); (0.5575843208435504, 0.0084224839982096);
   (0.5666666666666667, 0.0095431952599657); (0.5757490124897831, 0.0084224839982096); (0.5842479271702548, 0.0090281405940297); (0.5935298506075231, 0.0090281405940297);
   (0.6020287652879948, 0.0084224839982096); (0.6111111111111112, 0.0095431952599657); (0.6201934569342274, 0.0084224839982096); (0.6286923716146992, 0.0090281405940297);
   (0.6379742950519676, 0.0090281405940297); (0.6464732097324393, 0.0084224839982096); (0.6555555555555556, 0.0095431952599657); (0.6646379013786720, 0.0084224839982096);
   (0.6731368160591437, 0.0090281405940297); (0.6824187394964120, 0.0090281405940297); (0.6909176541768837, 0.0084224839982096); (0.7000000000000001, 0.0095431952599657);
   (0.7090823458231164, 0.0084224839982096); (0.7175812605035881, 0.0090281405940297); (0.7268631839408565, 0.0090281405940297); (0.7353620986213281, 0.0084224839982096);
   (0.7444444444444445, 0.0095431952599657); (0.7535267902675609, 0.0084224839982096); (0.7620257049480326, 0.0090281405940297); (0.7713076283853009, 0.0090281405940297);
   (0.7798065430657724, 0.0084224839982093); (0.7888888888888883, 0.0095431952599652); (0.7979712347120035, 0.0084224839982068); (0.8064701493924689, 0.0090281405940200);
   (0.8157520728297228, 0.0090281405940041); (0.8242509875101096, 0.0084224839980398); (0.8333333333329797, 0.0095431952596564); (0.8424156791554348, 0.0084224839966780);
   (0.8509145938324673, 0.0090281405886938); (0.8601965172618623, 0.0090281405799452); (0.8686954318957105, 0.0084224839050038); (0.8777777775836842, 0.0095431950902334);
   (0.8868601230439945, 0.0084224831576941); (0.8953590358370959, 0.0090281376658313); (0.9046409549537888, 0.0090281328649441); (0.9131398440489943, 0.0084224328502560);
   (0.9222221157108794, 0.0095431021175393); (0.9313042624606703, 0.0084220228285468); (0.9398021416540665, 0.0090265342098654); (0.9490816965870190, 0.0090239090753649);
   (0.9575666100954415, 0.0083944876772362); (0.9666083948709385, 0.0094923637292312); (0.9755876019930582, 0.0081900438281670); (0.9835765833800549, 0.0082628883284907);
   (0.9919606679354025, 0.0079612162793475); (0.9983106041867404, 0.0042328702641336)];
  [(0.0016526698173192, 0.0041408513453481); (0.0078645639762367, 0.0077881463602313); (0.0160663858238593, 0.0080832603213496); (0.0238816937024432, 0.0080119993971199);
   (0.0326657006697341, 0.0092860079959871); (0.0415109249066332, 0.0082119988146876); (0.0498113837735684, 0.0088277371389439); (0.0588892092514568, 0.0088303052053031);
   (0.0672023519406487, 0.0082389353757523); (0.0760870607176180, 0.0093356433758536); (0.0849718916912013, 0.0082393364839460); (0.0932860223278154, 0.0088318691070105);
   (0.1023661605941453, 0.0088318738035306); (0.1106803144134837, 0.0082393856977443); (0.1195652175811785, 0.0093357343274022); (0.1284501209715875, 0.0082393864288080);
   (0.1367642765916564, 0.0088318766542942); (0.1458444190769342, 0.0088318766628526); (0.1541585747392485, 0.0082393865184893); (0.1630434782612156, 0.0093357344931422);
   (0.1719283817835885, 0.0082393865198215); (0.1802425374491842, 0.0088318766680475); (0.1893226799421501, 0.0088318766680631); (0.1976368356078228, 0.0082393865199849);
   (0.2065217391304354, 0.0093357344934442); (0.2154066426530488, 0.0082393865199874); (0.2237207983187275, 0.0088318766680725); (0.2328009408117074, 0.0088318766680725);
   (0.2411150964773862, 0.0082393865199877); (0.2500000000000000, 0.0093357344934447); (0.2588849035226138, 0.0082393865199877); (0.2671990591882927, 0.0088318766680726);
   (0.2762792016812726, 0.0088318766680725); (0.2845933573469513, 0.0082393865199875); (0.2934782608695650, 0.0093357344934445); (0.3023631643921783, 0.0082393865199865);
   (0.3106773200578545, 0.0088318766680685); (0.3197574625508284, 0.0088318766680619); (0.3280716182164719, 0.0082393865199169); (0.3369565217389832, 0.0093357344933159);
   (0.3458414252613217, 0.0082393865193499); (0.3541555809255683, 0.0088318766658506); (0.3632357234152697, 0.0088318766622075); (0.3715498790615336, 0.0082393864811752);
   (0.3804347825278719, 0.0093357344227654); (0.3893196858994072, 0.0082393861699830); (0.3976338407791536, 0.0088318754487218); (0.4067139814729723, 0.0088318734495453);
   (0.4150281264844912, 0.0082393652210756); (0.4239129991250351, 0.0093356957071808); (0.4327978197448795, 0.0082391944629649); (0.4411115441597439, 0.0088312076206225);
   (0.4501906997742909, 0.0088301122138229); (0.4584990157293092, 0.0082277110982397); (0.4673669960882239, 0.0093144992671668); (0.4762075571062526, 0.0081379828050927);
   (0.4842979205019645, 0.0084926838331817); (0.4929489046219817, 0.0082416450172104); (0.5000000000000000, 0.0062082358964126); (0.5070510953780183, 0.0082416450172104);
   (0.5157020794980355, 0.0084926838331817); (0.5237924428937474, 0.0081379828050927); (0.5326330039117760, 0.0093144992671668); (0.5415009842706907, 0.0082277110982397);
   (0.5498093002257091, 0.0088301122138229); (0.5588884558402561, 0.0088312076206225); (0.5672021802551205, 0.0082391944629649); (0.5760870008749649, 0.0093356957071808);
   (0.5849718735155087, 0.0082393652210756); (0.5932860185270277, 0.0088318734495453); (0.6023661592208464, 0.0088318754487218); (0.6106803141005928, 0.0082393861699830);
   (0.6195652174721281, 0.0093357344227654); (0.6284501209384663, 0.0082393864811752); (0.6367642765847302, 0.0088318766622075); (0.6458444190744317, 0.0088318766658506);
   (0.6541585747386783, 0.0082393865193499); (0.6630434782610168, 0.0093357344933159); (0.6719283817835281, 0.0082393865199169); (0.6802425374491715, 0.0088318766680619);
   (0.6893226799421455, 0.0088318766680685); (0.6976368356078217, 0.0082393865199865); (0.7065217391304350, 0.0093357344934445); (0.7154066426530487, 0.0082393865199875);
   (0.7237207983187274, 0.0088318766680725); (0.7328009408117073, 0.0088318766680726); (0.7411150964773863, 0.0082393865199877); (0.7500000000000000, 0.0093357344934447);
   (0.7588849035226137, 0.0082393865199877); (0.7671990591882927, 0.0088318766680725); (0.7762792016812725, 0.0088318766680725); (0.7845933573469511, 0.0082393865199874);
   (0.7934782608695645, 0.0093357344934442); (0.8023631643921773, 0.0082393865199849); (0.8106773200578500, 0.0088318766680631); (0.8197574625508158, 0.0088318766680475);
   (0.8280716182164115, 0.0082393865198215); (0.8369565217387844, 0.0093357344931422); (0.8458414252607515, 0.0082393865184893); (0.8541555809230658, 0.0088318766628526);
   (0.8632357234083435, 0.0088318766542942); (0.8715498790284124, 0.0082393864288080); (0.8804347824188214, 0.0093357343274022); (0.8893196855865163, 0.0082393856977443);
   (0.8976338394058546, 0.0088318738035306); (0.9067139776721846, 0.0088318691070105); (0.9150281083087987, 0.0082393364839460); (0.9239129392823821, 0.0093356433758536);
   (0.9327976480593513, 0.0082389353757523); (0.9411107907485432, 0.0088303052053031); (0.9501886162264317, 0.0088277371389439); (0.9584890750933667, 0.0082119988146876);
   (0.9673342993302659, 0.0092860079959871); (0.9761183062975568, 0.0080119993971199); (0.9839336141761407, 0.0080832603213496); (0.9921354360237632, 0.0077881463602313);
   (0.9983473301826808, 0.0041408513453481)];
  [(0.0016175066297167, 0.0040527481252343); (0.0076972328278061, 0.0076224411185242); (0.0157245478276070, 0.0079112760591932); (0.0233735725598380, 0.0078415313248408);
   (0.0319706857618674, 0.0090884333577746); (0.0406277137384070, 0.0080372754356517); (0.0487515670975350, 0.0086399129444983); (0.0576362473524896, 0.0086424263711477);
   (0.0657725146653158, 0.0080636388783959); (0.0744681870853282, 0.0091370126657291); (0.0831639791020268, 0.0080640314523727); (0.0913012133421172, 0.0086439569983507);
   (0.1001881571772486, 0.0086439615949448); (0.1083254141068138, 0.0080640796190688); (0.1170212767815789, 0.0091371016821383); (0.1257171396743197, 0.0080640803345781);
   (0.1338543983663020, 0.0086439643850539); (0.1427413463306165, 0.0086439643934302); (0.1508786050639453, 0.0080640804223513); (0.1595744680854450, 0.0091371018443519);
   (0.1682703311073419, 0.0080640804236551); (0.1764075898438824, 0.0086439643985145); (0.1852945378157214, 0.0086439643985298); (0.1934317965523372, 0.0080640804238151);
   (0.2021276595744687, 0.0091371018446475); (0.2108235225966009, 0.0080640804238174); (0.2189607813332226, 0.0086439643985391); (0.2278477293050753, 0.0086439643985391);
   (0.2359849880416971, 0.0080640804238177); (0.2446808510638298, 0.0091371018446480); (0.2533767140859625, 0.0080640804238177); (0.2615139728225843, 0.0086439643985391);
   (0.2704009207944369, 0.0086439643985391); (0.2785381795310588, 0.0080640804238177); (0.2872340425531915, 0.0091371018446480); (0.2959299055753242, 0.0080640804238177);
   (0.3040671643119460, 0.0086439643985391); (0.3129541122837987, 0.0086439643985391); (0.3210913710204205, 0.0080640804238177); (0.3297872340425532, 0.0091371018446480);
   (0.3384830970646859, 0.0080640804238177); (0.3466203558013077, 0.0086439643985391); (0.3555073037731604, 0.0086439643985391); (0.3636445625097822, 0.0080640804238177);
   (0.3723404255319149, 0.0091371018446480); (0.3810362885540476, 0.0080640804238177); (0.3891735472906694, 0.0086439643985391); (0.3980604952625221, 0.0086439643985391);
   (0.4061977539991439, 0.0080640804238177); (0.4148936170212766, 0.0091371018446480); (0.4235894800434092, 0.0080640804238177); (0.4317267387800311, 0.0086439643985391);
   (0.4406136867518838, 0.0086439643985391); (0.4487509454885056, 0.0080640804238177); (0.4574468085106383, 0.0091371018446480); (0.4661426715327709, 0.0080640804238177);
   (0.4742799302693928, 0.0086439643985391); (0.4831668782412455, 0.0086439643985391); (0.4913041369778673, 0.0080640804238177); (0.5000000000000000, 0.0091371018446480);
   (0.5086958630221327, 0.0080640804238177); (0.5168331217587545, 0.0086439643985391); (0.5257200697306071, 0.0086439643985391); (0.5338573284672290, 0.0080640804238177);
   (0.5425531914893617, 0.0091371018446480); (0.5512490545114944, 0.0080640804238177); (0.5593863132481162, 0.0086439643985391); (0.5682732612199689, 0.0086439643985391);
   (0.5764105199565908, 0.0080640804238177); (0.5851063829787234, 0.0091371018446480); (0.5938022460008561, 0.0080640804238177); (0.6019395047374779, 0.0086439643985391);
   (0.6108264527093306, 0.0086439643985391); (0.6189637114459524, 0.0080640804238177); (0.6276595744680851, 0.0091371018446480); (0.6363554374902177, 0.0080640804238177);
   (0.6444926962268396, 0.0086439643985391); (0.6533796441986923, 0.0086439643985391); (0.6615169029353141, 0.0080640804238177); (0.6702127659574468, 0.0091371018446480);
   (0.6789086289795795, 0.0080640804238177); (0.6870458877162013, 0.0086439643985391); (0.6959328356880540, 0.0086439643985391); (0.7040700944246757, 0.0080640804238177);
   (0.7127659574468085, 0.0091371018446480); (0.7214618204689413, 0.0080640804238177); (0.7295990792055630, 0.0086439643985391); (0.7384860271774156, 0.0086439643985391);
   (0.7466232859140375, 0.0080640804238177); (0.7553191489361702, 0.0091371018446480); (0.7640150119583029, 0.0080640804238177); (0.7721522706949248, 0.0086439643985391);
   (0.7810392186667774, 0.0086439643985391); (0.7891764774033990, 0.0080640804238174); (0.7978723404255313, 0.0091371018446475); (0.8065682034476629, 0.0080640804238151);
   (0.8147054621842788, 0.0086439643985298); (0.8235924101561176, 0.0086439643985145); (0.8317296688926581, 0.0080640804236551); (0.8404255319145549, 0.0091371018443519);
   (0.8491213949360545, 0.0080640804223513); (0.8572586536693835, 0.0086439643934302); (0.8661456016336979, 0.0086439643850539); (0.8742828603256803, 0.0080640803345781);
   (0.8829787232184210, 0.0091371016821383); (0.8916745858931862, 0.0080640796190688); (0.8998118428227513, 0.0086439615949448); (0.9086987866578828, 0.0086439569983507);
   (0.9168360208979732, 0.0080640314523727); (0.9255318129146718, 0.0091370126657291); (0.9342274853346842, 0.0080636388783959); (0.9423637526475104, 0.0086424263711477);
   (0.9512484329024650, 0.0086399129444983); (0.9593722862615930, 0.0080372754356517); (0.9680293142381327, 0.0090884333577746); (0.9766264274401619, 0.0078415313248408);
   (0.9842754521723930, 0.0079112760591932); (0.9923027671721938, 0.0076224411185242); (0.9983824933702834, 0.0040527481252343)];
  [(0.0015838085749309, 0.0039683158726252); (0.0075368738105602, 0.0074636402618883); (0.0153969530811985, 0.0077464578079600); (0.0228866231315081, 0.0076781660889066);
   (0.0313046298084951, 0.0088990909961543); (0.0397813030355235, 0.0078698321974089); (0.0477359094496697, 0.0084599147581546); (0.0564354921993128, 0.0084623758217488);
   (0.0644022539431217, 0.0078956464017626); (0.0729167665210506, 0.0089466582351931); (0.0814313962040679, 0.0078960307971150); (0.0893991047308231, 0.0084638745608851);
   (0.0981009039027226, 0.0084638790617168); (0.1060686346462552, 0.0078960779603382); (0.1145833335152961, 0.0089467453970938); (0.1230980325977714, 0.0078960786609410);
   (0.1310657650670040, 0.0084638817936986); (0.1397675682820619, 0.0084638818019004); (0.1477353007917798, 0.0078960787468856); (0.1562500000003316, 0.0089467455559279);
   (0.1647646992092723, 0.0078960787481623); (0.1727324317221348, 0.0084638818068788); (0.1814342349445605, 0.0084638818068938); (0.1894019674574968, 0.0078960787483189);
   (0.1979166666666672, 0.0089467455562173); (0.2064313658758384, 0.0078960787483212); (0.2143990983887805, 0.0084638818069028); (0.2231009016112196, 0.0084638818069029);
   (0.2310686341241617, 0.0078960787483215); (0.2395833333333333, 0.0089467455562179); (0.2480980325425049, 0.0078960787483215); (0.2560657650554471, 0.0084638818069029);
   (0.2647675682778862, 0.0084638818069029); (0.2727353007908284, 0.0078960787483215); (0.2812500000000000, 0.0089467455562179); (0.2897646992091715, 0.0078960787483215);
   (0.2977324317221136, 0.0084638818069027); (0.3064342349445525, 0.0084638818069024); (0.3144019674574930, 0.0078960787483183); (0.3229166666666599, 0.0089467455562119);
   (0.3314313658758188, 0.0078960787482922); (0.3393990983886951, 0.0084638818068007); (0.3481009016109834, 0.0084638818066331); (0.3560686341230326, 0.0078960787465362);
   (0.3645833333296156, 0.0089467455529668); (0.3730980325318379, 0.0078960787322221); (0.3810657650086289, 0.0084638817508154); (0.3897675681483104, 0.0084638816588573);
   (0.3977353001711834, 0.0078960777686159); (0.4062499979598433, 0.0089467437721269); (0.4147646933554939, 0.0078960699135198); (0.4227324060299891, 0.0084638510281966);
   (0.4314341638388675, 0.0084638005684691); (0.4394016274337780, 0.0078955411471034); (0.4479155471659724, 0.0089457666133452); (0.4564281562667068, 0.0078912395190456);
   (0.4643850301018447, 0.0084470518413032); (0.4730622019579939, 0.0084204524823393); (0.4808873467451591, 0.0076111767793983); (0.4889977709365836, 0.0084604632375704);
   (0.4968305866729995, 0.0067812170810770); (0.5031694133270004, 0.0067812170810770); (0.5110022290634163, 0.0084604632375704); (0.5191126532548409, 0.0076111767793983);
   (0.5269377980420060, 0.0084204524823393); (0.5356149698981552, 0.0084470518413032); (0.5435718437332931, 0.0078912395190456); (0.5520844528340275, 0.0089457666133452);
   (0.5605983725662219, 0.0078955411471034); (0.5685658361611325, 0.0084638005684691); (0.5772675939700109, 0.0084638510281966); (0.5852353066445060, 0.0078960699135198);
   (0.5937500020401567, 0.0089467437721269); (0.6022646998288166, 0.0078960777686159); (0.6102324318516895, 0.0084638816588573); (0.6189342349913711, 0.0084638817508154);
   (0.6269019674681621, 0.0078960787322221); (0.6354166666703843, 0.0089467455529668); (0.6439313658769674, 0.0078960787465362); (0.6518990983890165, 0.0084638818066331);
   (0.6606009016113048, 0.0084638818068007); (0.6685686341241812, 0.0078960787482922); (0.6770833333333401, 0.0089467455562119); (0.6855980325425068, 0.0078960787483183);
   (0.6935657650554475, 0.0084638818069024); (0.7022675682778863, 0.0084638818069027); (0.7102353007908284, 0.0078960787483215); (0.7187500000000000, 0.0089467455562179);
   (0.7272646992091716, 0.0078960787483215); (0.7352324317221137, 0.0084638818069029); (0.7439342349445528, 0.0084638818069029); (0.7519019674574949, 0.0078960787483215);
   (0.7604166666666666, 0.0089467455562179); (0.7689313658758383, 0.0078960787483215); (0.7768990983887805, 0.0084638818069029); (0.7856009016112195, 0.0084638818069028);
   (0.7935686341241615, 0.0078960787483212); (0.8020833333333327, 0.0089467455562173); (0.8105980325425032, 0.0078960787483189); (0.8185657650554395, 0.0084638818068938);
   (0.8272675682778652, 0.0084638818068788); (0.8352353007907276, 0.0078960787481623); (0.8437499999996684, 0.0089467455559279); (0.8522646992082201, 0.0078960787468856);
   (0.8602324317179380, 0.0084638818019004); (0.8689342349329958, 0.0084638817936986); (0.8769019674022285, 0.0078960786609410); (0.8854166664847039, 0.0089467453970938);
   (0.8939313653537448, 0.0078960779603382); (0.9018990960972773, 0.0084638790617168); (0.9106008952691769, 0.0084638745608851); (0.9185686037959321, 0.0078960307971150);
   (0.9270832334789494, 0.0089466582351931); (0.9355977460568783, 0.0078956464017626); (0.9435645078006872, 0.0084623758217488); (0.9522640905503303, 0.0084599147581546);
   (0.9602186969644764, 0.0078698321974089); (0.9686953701915049, 0.0088990909961543); (0.9771133768684919, 0.0076781660889066); (0.9846030469188014, 0.0077464578079600);
   (0.9924631261894398, 0.0074636402618883); (0.9984161914250691, 0.0039683158726252)]].
