(** Generated certificate: images of the 192 unit vectors under a linear map [L]
    with L(z^2 + z) = z with bit 0 cleared (checked in GfProofs). *)
From Coq Require Import NArith List.
Import ListNotations.
Open Scope N_scope.

Definition artin_cert : list N :=
  [3194215308871024256068108021751248915251988266211873817442;
   8887750757391655157480913681855462502338082956700578214;
   8887750757391655157480913681855462502338082956700578212;
   1927614194703279976524558897132297447157242527092797236092;
   8887750757391655157480913681855462502338082956700578208;
   5065677418300290518864190592196006920114454431278237841928;
   1927614194703279976524558897132297447157242527092797236084;
   5022761158459506549656102120777387614137704580034230284372;
   8887750757391655157480913681855462502338082956700578224;
   1012501814344377196570141546808033111652356555617722361082;
   5065677418300290518864190592196006920114454431278237841960;
   3195827438399636897771027331645173634753545142831861709648;
   1927614194703279976524558897132297447157242527092797236020;
   89715609257633850480189089036238392543747453179893098416;
   5022761158459506549656102120777387614137704580034230284500;
   3145453297062509990885349892280683081967890182663525778064;
   8887750757391655157480913681855462502338082956700577968;
   4152928448043009136656332004987422988007204369177917369430;
   1012501814344377196570141546808033111652356555617722361594;
   1062782968512612086569068944003316988789287332515832567690;
   5065677418300290518864190592196006920114454431278237842984;
   1931029873400520136382985963261813286628503019094211953460;
   3195827438399636897771027331645173634753545142831861707600;
   3233756375686656233949520149576712621900443838904088182188;
   1927614194703279976524558897132297447157242527092797240116;
   2544706794172802447174439106367179890278908599588009389554;
   89715609257633850480189089036238392543747453179893090224;
   5634949477697492491866153023015213383391770953333073790162;
   5022761158459506549656102120777387614137704580034230268116;
   5086424330368057946566230004031564476592548045380987398820;
   3145453297062509990885349892280683081967890182663525810832;
   5081558823364548226591061233008351347075119662009621159332;
   8887750757391655157480913681855462502338082956700643504;
   3188399198359219497646738797431077954765975634304229901280;
   4152928448043009136656332004987422988007204369177917500502;
   1005149816841226190121137374154634038477079345720793208634;
   1012501814344377196570141546808033111652356555617722623738;
   1051674948115250719191811522395746224524026516234578920454;
   1062782968512612086569068944003316988789287332515833091978;
   5684235614659482685190574051993878692538110832594352697298;
   5065677418300290518864190592196006920114454431278236794408;
   48403575861193809962265612775295318184643018446615827516;
   1931029873400520136382985963261813286628503019094214050612;
   50301612780218721931343989104178098510122318902382959616;
   3195827438399636897771027331645173634753545142831857513296;
   4145767453616761819929931233085144553186720738550087439642;
   3233756375686656233949520149576712621900443838904096570796;
   1932585946152600667433160619180589884759367309091022308228;
   1927614194703279976524558897132297447157242527092780462900;
   50206051491118430834859853030111392906877087800057975692;
   2544706794172802447174439106367179890278908599588042943986;
   4186250114472709719304307092671297189140671631978005767130;
   89715609257633850480189089036238392543747453179960199088;
   5682747694509492812627699788145722640467639599465419803294;
   5634949477697492491866153023015213383391770953332939572434;
   4195876194802897728088619300337146090894197455757368741850;
   5022761158459506549656102120777387614137704580033961832660;
   1053031008857657395502602327435930762730278757150517225846;
   5086424330368057946566230004031564476592548045380450527908;
   51881204924486768251270307224512866799596791339835521084;
   3145453297062509990885349892280683081967890182664599552656;
   91207271929677253160868615362044004308683273380025840064;
   5081558823364548226591061233008351347075119662007473675684;
   5649493438090125329882528370031402965749040997169515818658;
   8887750757391655157480913681855462502338082960995610800;
   2496006904466676969005764761243724717051168219438806166658;
   3188399198359219497646738797431077954765975634295639966688;
   4184734490257787176003953737778757098537581754712902860886;
   4152928448043009136656332004987422988007204369195097369686;
   4144186555257096478405054347265652453574629282067728334810;
   1005149816841226190121137374154634038477079345686433470266;
   5682873573543110866925700642644152169891622815202460069730;
   1012501814344377196570141546808033111652356555686442100474;
   5643653823490880886535321528260486183744487823849731544926;
   1051674948115250719191811522395746224524026516097139966982;
   1898000527189528985273491542912008609753953806090319374388;
   1062782968512612086569068944003316988789287332240955185034;
   3145471617815178157584258030096869883164377828364975941484;
   5684235614659482685190574051993878692538110832044596883410;
   2538861230266275042030068940735256898341314628489155458626;
   5065677418300290518864190592196006920114454432377748422184;
   1014083085316511362500346680351692942413689463738774095222;
   48403575861193809962265612775295318184643016247592571964;
   5649462372563046811050011160788915215727301066169825025890;
   1931029873400520136382985963261813286628503014696167539508;
   3190052291341659243461706780596550036275045368002850438428;
   50301612780218721931343989104178098510122327698475981824;
   1946690404596750333958828181977357439000409108738961900340;
   3195827438399636897771027331645173634753545160424043557712;
   5085335368438344322133715318981947496508222363596650678360;
   4145767453616761819929931233085144553186720703365715350810;
   2546160801313906591147214037043261006423012839344105971186;
   3233756375686656233949520149576712621900443768535352393132;
   4199267517442856091209461051121176428092477686916891120746;
   1932585946152600667433160619180589884759367449828510663556;
   5023236831378687140781522268111415755438715390176676804904;
   1927614194703279976524558897132297447157242808567757173556;
   2546070801421848191109881210838347903264092051982886930306;
   50206051491118430834859853030111392906876524850104554380;
   3180053818143572353593320684991233032255914322271547245856;
   2544706794172802447174439106367179890278909725487949786610;
   4194296136947782988432267214475195294227524264647377096218;
   4186250114472709719304307092671297189140673883777819452378;
   50206051491140731580058383494796598874254296698557088192;
   89715609257633850480189089036238392543742949580332828592;
   4199338073850748358868921614818767923751085509595800314538;
   5682747694509492812627699788145722640467630592266165062302;
   3147126028135912294946810810412419593045794231418880087916;
   5634949477697492491866153023015213383391752938934430090450;
   4136906126051019973751861927447186136586256007161309589590;
   4195876194802897728088619300337146090894233484554387705818;
   2495940951057815935858689064587455715337194941687247678338;
   5022761158459506549656102120777387614137776637627999760596;
   4145639955988817717517581002823420316345417944942175947178;
   1053031008857657395502602327435930762730134641962441369974;
   4194272560114689887436990361440545693322449983566707872618;
   5086424330368057946566230004031564476592836275756602239652;
   5016250811893388753383212412511010913912182451660180127720;
   51881204924486768251270307224512866800173252092138944572;
   2462649303925182439618681576212173314644879254484389087106;
   3145453297062509990885349892280683081969043104169206399632;
   5594280591184793551836444928692400487667413421839066357998;
   91207271929677253160868615362044004310989116389239534016;
   3180053444338771236938973362175079596736617081762177518108;
   5081558823364548226591061233008351347079731348025901063588;
   1003641857463215664780788412019944998196503074766875622538;
   5649493438090125329882528370031402965739817625132661042850;
   3139040586171097691535939126268687549197034988052252228716;
   8887750757391655157480913681855462520784827034705162416;
   2546072296148741419062985047440590219394079654997919725758;
   2496006904466676969005764761243724717088061707586225269890;
   2507063021880438951634024173010324564785391541339368208846;
   3188399198359219497646738797431077954692188658000801760224;
   2489496657656760541138715971859553517775563222297185795790;
   4184734490257787176003953737778757098390007802123226447958;
   5022880619233476716811722355472112698099653283886630804132;
   4152928448043009136656332004987422987712056464015744543830;
   2506778226204572811572116913446236410287722533444928667698;
   4144186555257096478405054347265652454164925092426433986522;
   2464139746706789956732979268017182398399538432656846436366;
   1005149816841226190121137374154634039657670966403844773690;
   1053133312763812286256545022560613698266533251864176734918;
   5682873573543110866925700642644152167530439573767637462882;
   2540822287923579858068913913307459730701342240174237058946;
   1012501814344377196570141546808033116374723038556087314170;
   1942604009426142470438413631813925635943566800931549911540;
   5643653823490880886535321528260486193189220789589021972318;
   89811639799575137667978030766801568005487197014149076476;
   1051674948115250719191811522395746205634560584618559112198;
   1061084861193561483742671997520722397876390114137761910922;
   1898000527189528985273491542912008571975021943133157664820;
   5065677418303122713503621008226653184711392566851809454948;
   1062782968512612086569068944003317064347151058155278604170;
   4184830579986456879366136785403248274084677957283237294166;
   3145471617815178157584258030096869732048650376536329103212;
   5071456701031053217496657689532931014521353134316778226084;
   5684235614659482685190574051993878390306655928387303206866;
   1051554675643869635145983226899240708891465340558991679174;
   2538861230266275042030068940735257502804224435803742811714;
   91296576635575151954143744383473214851772022574337416368;
   5065677418300290518864190592196008129040274047006923128360;
   5683163185964781735865434408266722912334823709356263495326;
   1014083085316511362500346680351695360265328692997123507574;
   5636360607434723873407079182855473114741478606000690529378;
   48403575861193809962265612775290482481364557730893747260;
   4186248763726276283088683311304186432776279576122266372378;
   5649462372563046811050011160788905544320744149136427376482;
   3195411232703445206403709784846384396540533043661974412944;
   1931029873400520136382985963261832629441616848762962838324;
   2496006248607801109357669767611833501651820202104463701746;
   3190052291341659243461706780596511350648817699869259840796;
   3194236243701391003149462493088985772124284820836971203100;
   50301612780218721931343989104255469762577663965657177088;
   1925660592941795587222189642008741364305316525157411266436;
   1946690404596750333958828181977512181505319781273324290868;
   1630835757228057524021360958031683284424866012185091520;
   3195827438399636897771027331644864149743723815355318776656;
   4136685477604338903449551666870135404227770918590105936858;
   5085335368438344322133715318981328526488579673459201116248;
   2463362405953180447682836221732884031167376572782572461378;
   4145767453616761819929931233083906613147435323090816226586;
   4187255340422367913628736436903939722890986948439228385498;
   2546160801313906591147214037045736886501583599893904219634;
   2535167133250123548496106188299974577102740011151159911806;
   3233756375686656233949520149571760861743302247435755896236;
   0;
   4199267517442856091209461051111272907778194644717698126954;
   4983905234366191186688934729012231209790989075275702441048;
   1932585946152600667433160619160782844130801365430124675972;
   1570886652380088946662232262921101235714593721542482727288;
   5023236831378687140781522268071801674181583221379904829736;
   2904339617388920228449391248292257268487104220289930439234].
