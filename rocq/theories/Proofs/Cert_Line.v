(** Certificates for the isogenies of the model: three points on a line are sent to three points on a line. *)
From Coq Require Import ZArith Bool List.
From Verif.Spec Require Import Isogeny Instances.
From Verif.Proofs Require Import PolyL PolyB IsogP Cert_Isog.
Import ListNotations.
Open Scope Z_scope.

(** the denominators are the square and the cube of this polynomial *)
Definition h_secp : list Z :=
  [ 53752591420737253357354794335102420694228939304826821434373703395273947362954
  ; 1 ].
Lemma den_secp : pident p_secp 14 (PC (i_xd iso3_secp256k1)) (PM (PC h_secp) (PC h_secp)) && pident p_secp 14 (PC (i_yd iso3_secp256k1)) (PM (PC h_secp) (PM (PC h_secp) (PC h_secp))) = true.
Proof. vm_cast_no_check (eq_refl true). Qed.
(** slope and offset of the image of the line y = l x + v, times the product of the three values of h *)
Definition A_secp : list (list Z) :=
  [ [0; 175; 0; 31864169107841982910806399875633298434054770772447829794746750736067287028105]
  ; [21242779405227988607204266583755532289369847181631886529831167157378191352070; 0; 2762302131947229569620465446161022154937368685328973723570059072453646648585]
  ; [0; 77194726158210796949047323339125271902179989777093709359638389338605889781109] ].
Definition B_secp : list (list Z) :=
  [ [0; 38896830151728660475175079976329332823222661712781964480465724049495377649097; 0; 55751746669818908907645289078257140818241103727901012315294392300104253730781]
  ; [35; 0; 39777517490506953397146120924215721078277208620859737264809815066935066632336]
  ; [0; 26038497845175513379640270607059648651275259779623344644720580787585701776879]
  ; [21442979488391888041402034260868131083938886049192697044343997038501636050308] ].
Lemma line_secp : line_check p_secp 29 a_secp 1771 (i_xn iso3_secp256k1) h_secp (i_yn iso3_secp256k1) A_secp B_secp = true.
Proof. vm_cast_no_check (eq_refl true). Qed.

(** the denominators are the square and the cube of this polynomial *)
Definition h_bls : list Z :=
  [ 2955185177626169647543871026716143749798776473583611826109464091094397474242531465369792566109106337274460167892487
  ; 368290328279919699380600918531504139062319804596715301915067438724165980997443279928362378653594520746075110864816
  ; 2956695361339193066682181833380513374227982887255347166494009902960246484641139874171795235175561134113346246778169
  ; 1426262776564302641609273031767820829543220110075666692709214249985201803031422328413319637086750536774929261013316
  ; 721398571713745716315313195033211010796752582794315199168745550044278639029030032465331939076562082409261408087685
  ; 1 ].
Lemma den_bls : pident p_bls 14 (PC (i_xd iso11_bls12381g1)) (PM (PC h_bls) (PC h_bls)) && pident p_bls 14 (PC (i_yd iso11_bls12381g1)) (PM (PC h_bls) (PM (PC h_bls) (PC h_bls))) = true.
Proof. vm_cast_no_check (eq_refl true). Qed.
(** slope and offset of the image of the line y = l x + v, times the product of the three values of h *)
Definition A_bls : list (list Z) :=
  [ [0; 1014686955102978782412656897824413238743323738048361008069376539347932271123362284204080738435822809257777897111054; 0; 646595303908897520811855288268901807254718954918553624413289110663599001091946360495153255441702138989569933553364; 0; 891826131536556189024409770169690572132301213920189025253685467828521844309118526788280769813557976118484933483685; 0; 1629248196199822640082478397437505828397737302256405853318761434650556154768907636183052312497601922850470373963681; 0; 454358304931376422241599306343809754099610581446061517946638126766916162123670934048161074213002796430153296569007; 0; 2306140889016379689037439454134109947773675329940458067309773662119939234390583751783759990283171060673571926740506]
  ; [2790943473715932283090836035446922223726315459444267756123198047515368000681157234418583370438844916555463999950022; 0; 2611403530526022663246105058300309746361562914628212480015806265174772248961515346155892806215121581800349712608240; 0; 1790428464175383539288239586671856562736753523955151753131074718763420386781734057555495690897719291591145398561365; 0; 735214675617826728620006226117591578317696704503526374010182004688132468057017858084551539474427936496922655727994; 0; 111554359664387833438409956987217279101497859812859127504079879835495614369252319169574314555350903851697563262537; 0; 3381988595846206983020127020524297200973529424041809526866094726244356434107900339227717807606118616244197200789101]
  ; [0; 2809392147698019002013406479821216690979579858253335192172239160821405889153705207848702384036972615367595716814876; 0; 3851887736158925327513014852602360444509199137981885627170248023450554796299791344116562718484794747178990314974536; 0; 3278565278210947368221879075924472563399474954671127196451913932239570991892240819144443296623522080999430881586337; 0; 3292264153791150035988792162344841098057118639668415229729239916235313826970172289248193739489061365861480165249942; 0; 3794730299947732720193088291044583683219828284538974712406352515086359071481010037140840742353842883839081506554805]
  ; [3766671400198621785546521027074545949733149683393797090198368267500898971361001957284549149352466795567353664352625; 0; 857257418390220757885837794304270692302378639014212945980668160960275535524045769686535658887974169022200740441577; 0; 1592737142932570168656488692403722969130411140440934746211563690844120813628302279689314975119932265528276866167160; 0; 2772709215622450386044090884105861264472234175269880753927605234531713618476905759144477566203050341992686672059687; 0; 3229096540536842943903956862508858776426764405796963918149284951334660800944591661334290307373324715125979346554209]
  ; [0; 2890500864526297523167491719468875654893031056642568494738455280170179055378002635719503625298769862275455495458126; 0; 2580411306239142002609266505613261020987478770180460289232654450200873139574412093225059481125671664545982769739630; 0; 2221222504558168065759390813556337008674001886478995666894779873741118987603020217160309876816345043732993331357270; 0; 2822069997686387780077115188223319663066189062537129626386513451677495919345611366465672063424482085993447036886593]
  ; [1980254050699296145886220009437501740998625345347559930830927162619435118736870797117208381424229623467397031503657; 0; 2931244534469499237013479677672678859131244513112720083131500751698187953881083519872121668470731002433643389065885; 0; 2951465251453188752319494747986811696996111002334878693420044652607620446586729272592020082697142030963014262289463; 0; 161660848931497995962148062628814647010194707706365023263128893923624311213891456395687648931587649250842021132242]
  ; [0; 3277709607905459818634588193368663727593524970056988367355398239495939842360560444383254891454161704520063188810200; 0; 2966183972479496327434108555150146624996395720076824394521686036862898125451892638236261866244729383029181374527944; 0; 1559641153339541310105060702090117390009502189858930980008320589127421194034092125406163490642343530108817428369522]
  ; [811810218773236009972285818830630301193698425275962864878305286912000448778447429030352125032617214383995865266822; 0; 453287809536520950602807781483183764577176379137049718065953207937902195825210637045543381778917830552800020832867; 0; 3713401285506721972108972218701549303497163907500148522925914365350439554277403224482462010364559780550885713450705]
  ; [0; 2710506058283822971213659564077454129755616525672407348273123970833086793107890265776512177789403592967216571348150; 0; 140847001503693455879482012798769358037311759957265746131104721790576817155182054813122018535062942408192820164195]
  ; [1891826510898990156533332847123120709801060685564832275865118632962718900626338705668437575391289850890969998153287; 0; 596547451546894850382268478309580571956387315844489579302420470196318729356692333086791943645900651205205975358564]
  ; [0; 3638554141110606721288899841578094687778984381762734441210961941930937864082579876766079662844559694579903884145261] ].
Definition B_bls : list (list Z) :=
  [ [0; 342942845465292160776674595078653032887026344805728175007837551368709440496560839664393445239664460385914696528229; 0; 1510417759164662670779173879490731212254647205470101557903510710922434755359202271144660829071453453782470713516963; 0; 1687318825224350718294768194579907944006129795605031200224913086725239432869434728727626613288336453402709490450520; 0; 175563450672449564713057751378917758389473679642828061206764319616937131858830856062168787660023310408121815764292; 0; 403271112057728996032320152476501244738386564294585633289769968788169749106645219240269029914184172946821976914094; 0; 117222751811941947523337095782887270669369420683248333360161543401621830044995312669703216817157891632078017345372]
  ; [961904861843099978234303769109926458982255120401797383028730732110624221986493693612651755941366357904395359068244; 0; 103459301093542567159426249352056298688751394558740598450426156735358212972745048555184269737069707149879722724680; 0; 2218865089683638921751306556355115911963363161945982147910059083012847846422610029994071694970645843570512416970254; 0; 1435300342808911474110827922492716904955344370426887324730345609839147166551071200387104376143534971239228094428055; 0; 1004567297373880951040844726748744753435546111443291337882677450963382376848647932053942514587400219669358907331720; 0; 1779499786221482673538562468149802032016233137754167980405464252898632607628906710035893753057969751173174272161941]
  ; [0; 373376718847525733384258748359436413316426498934991562073670233736151470967771504385541051340742560634735521361119; 0; 1302461548417602975326463973562539512675144499746657919401979271633629326471580910958212776248531848579285229899821; 0; 3983775257520929621879790460763101505153046137897139990158603285541542425074030717308260582353782766171082712860257; 0; 1115883711755767279704149102366840729049678781381070388729441938682361596548242821410413126777980938697477342625571; 0; 1268931924927120917450584802110958210951922423692816988045122693346335880843702348950057312200269887673489950767988]
  ; [2016123890705666075027700774191955456969259396545382892830857366029728060571455576141657459746027868305453506580355; 0; 1943675146636878279774773544790099673603268280822018149560772655419686501652027841296777032892547694343971555068905; 0; 2696620995128282764910582878414277486611050709408275124148470861965543206059119279870099574805397986893009381312541; 0; 3920891135293420208333075223464543015999852488817388802392842564563766171872909836984620180478783524211099529497816; 0; 3239271853026760923647513136278931331361376541969583425312018202850135755850004487326573175695922155925262301282251]
  ; [0; 2991563141352748716366292703602434991224596034777215215188695339542620835389191357890502256341476506689555292191558; 0; 1166850152394810448069271672377188167966814829786918147665990459378522066958470218513338780511578459092611753960564; 0; 1513831171220269633949222771660611773811206579197314224752264936305977678265870117754620707171624572351893876411307; 0; 3434276537672173177489551307008004106099818148598239920449813322660384239168344993585369885262958279827775912077983]
  ; [3459122724559493424890533845027062000145317107995292135521469365035066143837392506844397893443670169972183880342049; 0; 1264785483287007846915267613714936105417261542788452285302845902100788520390739254122691941492347005663885607388341; 0; 2894084430637813303241721249130988726755448399124206583332457829956839663629174615526127723202095580191624058345384; 0; 1765915029579077914866445470416698270429103884028081271783982180251540781533079825757586882682685823353010580332269]
  ; [0; 3506058489294750479823374824120648658055984928851844695951227721224328453683860556172798423492054983725064105819232; 0; 2440947467291188056055496326217094598267720695903473468307598819899786365759068069223568963370005948487516631974465; 0; 1631320574511354943929867590414000702079240779406547611094930916002631927823761978090575337562540795929718177639513]
  ; [2467255624881463599033583849712677838037783213026272358758756090839995500812830591232190864164813999148590097706968; 0; 2764820245469795775250420268301235825452767496720546595001099056405965158951197762871185297333366611733894903962224; 0; 3606582480824001774871121279042923294298534707712104874298219497339962721731873359100633575528940900020376437485395]
  ; [0; 1512470310168791006985926802908418883935981207554847394708911181788233769166807355979974792881961742433881091289296; 0; 3525893070584513081355312499427871427038168828488476981724221239189568650501795638190736628511969293440031589667365]
  ; [419699106186781087714420985606042846495464261309791119325078508051268667777169615896642841328267670974681137082084; 0; 3227150057044033949209004562709043437940584854780290960601716391975065782352321934417587372708986017910998855643554]
  ; [0; 3411939930903955672499294384538080237167895188178200841062019904884062634131512333642013369784582760719903438421625]
  ; [3370924952219000111210625390420697640496067348723987858345031683392215988129398381698161406651860675722373763741188] ].
Lemma line_bls : line_check p_bls 29 a_bls b_bls (i_xn iso11_bls12381g1) h_bls (i_yn iso11_bls12381g1) A_bls B_bls = true.
Proof. vm_cast_no_check (eq_refl true). Qed.

(** the five points of the kernel up to sign, each with the slope of its chord to the base point G of the domain, its sum with G,
    and the inverses of the denominators at the sum *)
Definition trans_rows : list (Z * Z * Z * Z * Z * Z * Z) :=
  [ (162902306530757011687648381458039960905879760854007434532151803806422383239905014872915974221245198317567396330740, 2262979898295481953513428735669950113377445280885669609907941863662622694289247344372772523511329531685839231047165, 456390129822983364411354760378411286244029200621608249851132042036994105152035231396802789371711008459621518260225, 77328025584972132411477651655003928913534139353486131410650535502110048712649583186544427655680591821438391257930, 2004073121505687271649710219356213897174512764783621505441969842202556254679240535262491580512790977308307721096892, 2480471148262943213397424808738540683351943193972341682960792075870078950668208754895192730541730376958651949791719, 1198775807286431467392901301724164665061592732227283825042714339283735324027601664684399109230690821191703425315865)
  ; (2077344747421819657086473418925078480898358265217674456436079722467637536216749299440611432676849905020722484031356, 864739370173431256541490135500561859725318822539686417753397107695043273625955431515886911526288167244999522605888, 272051979433487722309013157945746877095631185690576540784446809177518890724961563731776111669866261074725089036730, 2164537754839295734737626713426525111154976054895821631126324778807440204738547974882761782328047927884290735929465, 1136842441569137012767938945980204908805901385994043315100637522971274318646413792466261321465481731746398255594128, 3762286175431555463528224055449757381157346982094305809201594328164789446404648578333943723887669017084286750134500, 1117695680079278703017099267130526826438186157238481760176778075401463292528926871605301951528676735348400211549397)
  ; (2512099095366387796245759085729510986367032014959769672734622752070562589059815523018960565849753051338812932816014, 3869440428665828672126986942449931708292407950503965278303393917520883965908367251300173570528123700077316614991402, 346382101846091775519557895227172287895210389308253118846594184149210936613888951981268288276866466203454442493350, 2946664137398563722470961588370313905397516584751846067226826491748720617058780373490618488457375539385840483923594, 1865728255425033804084355630414656737646387354407733793216311053032210024987807146753635715733566073952356020298936, 3729995504559821155496062228207742385317239816596362254001172485601862953608108459449489209012851192043291192035479, 2684360360993201936933117605754654613338503575939890687744120462963573138405699925570370744881199382384640335493294)
  ; (3086251397349454634226049654186198282625136597600255705376316455943570106637401671127489553534256598630507009270951, 2147997396439407644569843619646198613554091926907870788042198547268693799282413289445532483694958528157608783239273, 2713476716201310988216178994430931466117149039083001714764391526564984597071419103821349007219299706177513133880367, 2971927366409913391023707785489354892707921113324893991768681618820189140137820107992345701304906369007871520023103, 1839883703572076251227670399740795459100156150859931087931112637635122545429198552225954618158510973714069737108596, 2709676182340504037793539828761901822537747810134223893720568101437992054093291180176622797948519426678886271973919, 3641042812217725800331090714421357882547237486033809194448954079454932297199052593946105591766855354655421510492690)
  ; (3447232547282837364692125741875673748077489238391001187748258124039623697289612052402753422028380156396811587142615, 313824055748912360687357789852223607698111926009336808525043819844522041384207509517788691513196831980299069347180, 397644110478813759854142706025110193128128700180643991263391551689748233363993321116561769653363943411769635547237, 47062246816646724814755826423189258167945810869937352486814182526768784262430104130587048362781080866684969446251, 3436072485705241092517522649051598686922356206891377169141201175187855702870292104491250765490363045303857690403310, 1265719479497231610007560346771112234312975187975060363189370623981627578942920151398831941366170019346647269270152, 3148247070397649089258008647166963099696539392193188356444142025330757415109705019112194430395688565345546963433299) ].
(** G plus any of them has the same image as G *)
Lemma trans_images : forallb (fun r => let '(x, y, l, X, Y, u, v) := r in
  image_check p_bls 14 iso11_bls12381g1 X Y (w_gx std_BLS12381G1) (w_gy std_BLS12381G1) u v) trans_rows = true.
Proof. vm_cast_no_check (eq_refl true). Qed.
Lemma trans_chords : forallb (fun r => let '(x, y, l, X, Y, u, v) := r in
  let g := w_gx std_BLS12381G1_11ISO in let k := w_gy std_BLS12381G1_11ISO in
  (0 <=? X) && (X <? p_bls) && (0 <=? Y) && (Y <? p_bls) && negb (g =? x) && ((l * (x - g) - (y - k)) mod p_bls =? 0)
  && ((X - (1 * (l * l) - 0 - g - x)) mod p_bls =? 0) && ((Y - (l * (g - X) - k)) mod p_bls =? 0)) trans_rows = true.
Proof. vm_cast_no_check (eq_refl true). Qed.
Lemma trans_points : map (fun r => let '(x, y, l, X, Y, u, v) := r in (x, y)) trans_rows = combine kernel11 kernel11_y.
Proof. reflexivity. Qed.
