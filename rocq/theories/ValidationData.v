(** Generated by tools/gen_validation.py from pySailingVLM/tests/input_files/expected_*_vlm.csv:
    numbers recorded from the Python program by the repository's own tests. *)
From Coq Require Import List String Floats.
Import ListNotations.
Open Scope float_scope.
Set Warnings "-inexact-float".

Definition expected_gamma : list float :=
  [3.2048627654651454;
   2.515272971652422;
   1.1493060706661513;
   0.15398544087153596;
   4.158690122346281;
   3.403218448724666;
   1.5949223976829565;
   0.21753973943710198;
   1.8946296923833927;
   1.7137376263732418;
   0.6258046418079807;
   (-0.6290197787116009);
   2.39007336704279;
   2.2537040119461214;
   0.8500726086247092;
   (-0.7772788124872578);
   0.15398544087153668;
   1.1493060706661495;
   2.5152729716524194;
   3.204862765465145;
   0.21753973943710525;
   1.594922397682953;
   3.4032184487246675;
   4.158690122346284;
   (-0.6290197787115971);
   0.6258046418079782;
   1.713737626373248;
   1.894629692383395;
   (-0.7772788124872512);
   0.8500726086247078;
   2.253704011946126;
   2.3900733670427905].

Definition expected_integrals : list (string * float) :=
  [("F_jib_total_COG.x"%string, (-64.65229276217934));
   ("F_jib_total_COG.y"%string, 205.62939498128966);
   ("F_jib_total_COG.z"%string, (-23.374298908633612));
   ("F_main_sail_total_COG.x"%string, (-41.06113219759504));
   ("F_main_sail_total_COG.y"%string, 139.6848803093224);
   ("F_main_sail_total_COG.z"%string, (-26.51752411827477));
   ("F_sails_total_COG.x"%string, (-105.7134249597744));
   ("F_sails_total_COG.y"%string, 345.3142752906121);
   ("F_sails_total_COG.z"%string, (-49.891823026908384));
   ("F_sails_total_COW.x"%string, (-135.40727560636938));
   ("F_sails_total_COW.y"%string, 334.7867181491334);
   ("F_sails_total_COW.z"%string, (-49.89182302690839));
   ("M_jib_total_COG.x"%string, (-866.1558509349007));
   ("M_jib_total_COG.y"%string, (-337.64838941086686));
   ("M_jib_total_COG.z"%string, (-444.134472847344));
   ("M_main_sail_total_COG.x"%string, (-729.0217329152641));
   ("M_main_sail_total_COG.y"%string, (-173.84615928284143));
   ("M_main_sail_total_COG.z"%string, 180.48854018340523);
   ("M_sails_total_COG.x"%string, (-1595.1775838501649));
   ("M_sails_total_COG.y"%string, (-511.4945486937084));
   ("M_sails_total_COG.z"%string, (-263.64593266393877));
   ("M_sails_total_COW.x (heel)"%string, (-1544.5277642435565));
   ("M_sails_total_COW.y (pitch)"%string, (-648.5770446463783));
   ("M_sails_total_COW.z (yaw - JG sign)"%string, 263.6459326639389);
   ("M_sails_total_COW.z (yaw)"%string, (-263.6459326639389))].

Definition expected_inlet : list (string * float) :=
  [("AWA_infs_at_reference_height_COG_deg"%string, 20.0);
   ("AWA_infs_at_reference_height_COW_deg"%string, 15.0);
   ("Reference_measurement_height"%string, 10.0);
   ("Reference_water_level_for_wind_profile"%string, (-0.0));
   ("TWS_at_reference_height_COG.x"%string, 3.546785771640868);
   ("TWS_at_reference_height_COG.y"%string, 2.9761066328486767);
   ("TWS_at_reference_height_COG.z"%string, 0.0);
   ("TWS_length_at_reference_height"%string, 4.629999999999999);
   ("V_app_infs_at_reference_height_COG.x"%string, 8.176785771640867);
   ("V_app_infs_at_reference_height_COG.y"%string, 2.9761066328486767);
   ("V_app_infs_at_reference_height_COG.z"%string, 0.0);
   ("V_app_infs_length_at_reference_height_COG"%string, 8.70155366847751)].

Definition expected_components : list (string * list float) :=
  [("AWA_fs_COG_deg"%string, [16.30753118795031; 19.235003088714443; 20.99020967991695; 21.541373087201396; 12.238995986222104; 15.592630063520328; 18.60287978493716; 20.775817814403037; 15.79911893315276; 18.520051927000637; 20.293117649133944; 21.347854470994733; 14.369697405959265; 17.272417314883356; 19.826724408559507; 22.320093793823464]);
   ("AWA_fs_COW_deg"%string, [11.30753118795031; 14.235003088714443; 15.990209679916951; 16.541373087201396; 7.238995986222104; 10.592630063520328; 13.602879784937159; 15.775817814403037; 10.79911893315276; 13.520051927000637; 15.293117649133944; 16.347854470994733; 9.369697405959265; 12.272417314883356; 14.826724408559507; 17.320093793823464]);
   ("Circulation_magnitude"%string, [3.2048627654651454; 2.515272971652422; 1.1493060706661513; 0.15398544087153596; 4.158690122346281; 3.403218448724666; 1.5949223976829565; 0.21753973943710198; 1.8946296923833927; 1.7137376263732418; 0.6258046418079807; (-0.6290197787116009); 2.39007336704279; 2.2537040119461214; 0.8500726086247092; (-0.7772788124872578)]);
   ("F_sails_COG.x"%string, [(-19.967053282504654); (-19.399190576054693); (-9.935920979555675); (-1.390864728618391); (-4.396395306863074); (-5.5628081273204435); (-3.4422837948129987); (-0.5577759664494086); (-15.403685597979427); (-17.032970558088778); (-7.03963959695091); 7.609137539805458; (-3.6231507366186517); (-4.981438226432511); (-2.466146664855077); 1.8767616435248509]);
   ("F_sails_COG.y"%string, [68.37274991211034; 55.57253622399415; 25.874717327750446; 3.5208918284410955; 20.590658543541608; 20.00502544944858; 10.223713158226413; 1.469102537777051; 55.406825600584334; 51.40738048856927; 19.100590246044227; (-19.44549954098946); 14.578257718352596; 16.324369712708503; 6.870839425576176; (-4.557883341523242)]);
   ("F_sails_COG.z"%string, [(-7.99686121414026); (-5.176941664023265); (-1.9711887131410575); (-0.23513709551655154); (-3.805313896680011); (-2.9498196497985307); (-1.1288512310087953); (-0.11018544432514474); (-10.102480627615641); (-9.28000785241567); (-3.407210446637833); 3.416196355697044; (-3.1669546034925817); (-3.463044696651828); (-1.4112806806008122); 0.897258433442552]);
   ("F_sails_COW.x"%string, [(-25.850150418836378); (-24.168836470110392); (-12.153242007577699); (-1.6924380108543997); (-6.174259834438209); (-7.285192814670793); (-4.320240179664073); (-0.6836941833523287); (-20.174092962288174); (-21.44860339191357); (-8.677577772771869); 9.274969429799249; (-4.879942433616505); (-6.385244917242101); (-3.0555953456812537); 2.2668657068490434]);
   ("F_sails_COW.y"%string, [66.37232759707844; 53.67031508249503; 24.9102836436724; 3.3862719235633154; 20.129133772911686; 19.444069613831793; 9.884794042150816; 1.4148987804439357; 53.85346624205281; 49.727238685308535; 18.41436171578409; (-18.708323510528338); 14.207004652901203; 15.82808960891338; 6.629754962898618; (-4.376968664344419)]);
   ("F_sails_COW.z"%string, [(-7.996861214140262); (-5.176941664023266); (-1.971188713141058); (-0.2351370955165516); (-3.805313896680012); (-2.949819649798531); (-1.1288512310087955); (-0.11018544432514477); (-10.102480627615643); (-9.280007852415672); (-3.407210446637834); 3.416196355697045; (-3.1669546034925826); (-3.4630446966518287); (-1.4112806806008125); 0.8972584334425522]);
   ("M_sails_COG.x"%string, [(-160.52662668928494); (-260.8439133461942); (-181.78224053647446); (-32.93392217942559); (-49.17378538591933); (-94.89076439462097); (-72.24647817022937); (-13.758120232751828); (-228.49831832364515); (-373.80050888164067); (-198.94829472013183); 263.6103692760364; (-61.23267590788758); (-120.12677823213825); (-72.17680065878979); 62.15127453293267]);
   ("M_sails_COG.y"%string, [(-72.276491038643); (-102.79034173686895); (-72.42757251656299); (-13.104265822213526); (-16.822845190796873); (-29.897435250931927); (-25.089356719649167); (-5.240081135200381); (-55.720426566181146); (-114.50892421806074); (-69.0497135335939); 98.0548912796871; (-6.620002092642245); (-27.10993231278904); (-21.975846987842164); 23.083795148580712]);
   ("M_sails_COG.z"%string, [(-217.14753969642643); (-125.97383674888538); (-34.430487396649994); (-1.4122472508901573); (-34.21690438647163); (-23.811570205956407); (-6.921643148175835); (-0.22024401388812231); 42.80377403544168; 51.75957104820343; 23.959191756512396; (-29.01508082345478); 39.57970160986411; 45.00420317819321; 19.13585348492951; (-12.738674106284307)]);
   ("Pressure"%string, [20.383038792369106; 23.225515964354898; 17.683431086357402; 6.29000973203335; 6.106932279210715; 8.270250999291337; 6.912744370499278; 2.6127635603402646; 9.861214120088109; 10.366262292592845; 4.562635067893717; (-5.886369059400846); 2.5929068796274923; 3.285789576150321; 1.643246364802594; (-1.3938177908795677)]);
   ("V_app_fs_COG.x"%string, [7.56792396770594; 7.81522141825585; 7.951538509542236; 8.072074216495432; 7.682816691247903; 7.970643713812154; 8.0821637218702; 8.120099785520518; 7.833020837780066; 8.030758515022166; 8.16627691718874; 8.266788409848344; 7.894870363714001; 8.095598512753158; 8.191804044544996; 8.208323639209318]);
   ("V_app_fs_COG.y"%string, [2.21409570030647; 2.726902644766349; 3.0507508459885093; 3.1864097591755125; 1.6665579934656656; 2.2243385656133956; 2.7204008372862396; 3.0806154933391054; 2.2163913807764564; 2.690179770584587; 3.0196824518097873; 3.2310428411234975; 2.02260808375628; 2.5172234191789093; 2.953547798240169; 3.3698422464933535]);
   ("V_app_fs_COG.z"%string, [0.0343472882734133; (-0.013149400871050975); (-0.03477217523638696); (-0.03469989007683692); 0.14159865813958095; 0.05382972553149651; (-0.0075327649669323805); (-0.03136953683610949); 0.21240530012679978; 0.16243754612860173; 0.0557848839270908; (-0.021628715485930868); 0.2784367459674773; 0.22071960192283144; 0.06459553731896805; (-0.050954243670507555)]);
   ("V_app_fs_length"%string, [7.8852313020801965; 8.277309753606056; 8.51676314671269; 8.678294382673974; 7.862769107438461; 8.2753695329187; 8.527719969908164; 8.684883211215485; 8.143323781442001; 8.47092294151327; 8.70687502788758; 8.875803977990493; 8.154596773711798; 8.480792779241035; 8.70823005461814; 8.873275047422]);
   ("V_induced_COG.x"%string, [0.057638514408636175; 0.007430641562944928; (-0.04502911316054601); (-0.06540704795819124); 0.1768856755051869; 0.16536393777673247; 0.08695709011914408; (-0.016922026488754585); 0.09412647769857731; 0.028538526960170216; (-0.014185865425137658); (-0.05042261307740036); 0.1613482544687403; 0.09733351222562266; 0.014430734783961037; (-0.10655584624510635)]);
   ("V_induced_COG.y"%string, [(-0.20275076124058228); 0.06041957608477155; 0.22586519544523237; 0.243283523811258; (-0.7466346611353474); (-0.44003752334260293); (-0.10334280625140942); 0.1378747843514482; (-0.3922807301370463); (-0.13944877764688507); 0.040490440409823206; 0.13710543171370515; (-0.5815561734619517); (-0.30908650047108716); (-0.02305183762844273); 0.27786122931582097]);
   ("V_induced_COG.z"%string, [0.0343472882734133; (-0.013149400871050975); (-0.03477217523638696); (-0.03469989007683692); 0.14159865813958095; 0.05382972553149651; (-0.0075327649669323805); (-0.03136953683610949); 0.21240530012679978; 0.16243754612860173; 0.0557848839270908; (-0.021628715485930868); 0.2784367459674773; 0.22071960192283144; 0.06459553731896805; (-0.050954243670507555)]);
   ("V_induced_length"%string, [0.21356452359558017; 0.06227877930377296; 0.23292018314480237; 0.25430107599452395; 0.7802576749988117; 0.4731552527631022; 0.1352701507131279; 0.14240736982950175; 0.4559166333473158; 0.2159776967664679; 0.0703751931947654; 0.14767579574366962; 0.6646561995624313; 0.39207833407191983; 0.07008720829066675; 0.3019227485201197]);
   ("AWA_infs_COG_deg"%string, [17.83842833916438; 18.85584121249449; 19.456392755148098; 19.88380742807923; 17.82284606316198; 18.84762714717595; 19.452179892658492; 19.882441534986665; 18.628235705647874; 19.473871626236278; 20.010804219688055; 20.404807147432276; 18.610291538522894; 19.46164456663976; 20.001727124428495; 20.39821452963494]);
   ("AWA_infs_COW_deg"%string, [12.83842833916438; 13.85584121249449; 14.456392755148098; 14.88380742807923; 12.822846063161979; 13.847627147175949; 14.452179892658492; 14.882441534986665; 13.628235705647874; 14.473871626236278; 15.010804219688055; 15.404807147432276; 13.610291538522894; 14.461644566639759; 15.001727124428495; 15.398214529634942]);
   ("TWS_COG.x"%string, [2.880285453297304; 3.177790776692904; 3.3665676227027825; 3.5074812644536233; 2.8759310157427156; 3.175279776035422; 3.3652066317510574; 3.5070218120092735; 3.1088943600814885; 3.3722199880619956; 3.5504627826138777; 3.6872110229257435; 3.1035221092452607; 3.3682650005275363; 3.5473733097610354; 3.6848794854544242]);
   ("TWS_COG.y"%string, [2.416846461547052; 2.6664830686815777; 2.824885650543277; 2.9431262353642547; 2.413192654601013; 2.6643760889559984; 2.823743643537649; 2.942740708987657; 2.6086721109135027; 2.829628548231472; 2.979192011399964; 3.0939374094097922; 2.604164257218232; 2.8263099196499963; 2.9765996358686118; 3.0919810171775324]);
   ("TWS_COG.z"%string, [0.0; 0.0; 0.0; 0.0; 0.0; 0.0; 0.0; 0.0; 0.0; 0.0; 0.0; 0.0; 0.0; 0.0; 0.0; 0.0]);
   ("TWS_length"%string, [3.7599456260920268; 4.1483112438678; 4.394741914706253; 4.5786916098141575; 3.754261311567325; 4.145033365306005; 4.392965267197155; 4.578091837244202; 4.058373359414384; 4.402120553648139; 4.634799996927121; 4.813312146633593; 4.051360384012652; 4.396957684091437; 4.630766976544827; 4.8102685406231815]);
   ("V_app_infs_COG.x"%string, [7.510285453297303; 7.8077907766929044; 7.996567622702782; 8.137481264453623; 7.505931015742716; 7.805279776035421; 7.995206631751057; 8.137021812009273; 7.738894360081488; 8.002219988061995; 8.180462782613878; 8.317211022925743; 7.733522109245261; 7.998265000527536; 8.177373309761036; 8.314879485454425]);
   ("V_app_infs_COG.y"%string, [2.416846461547052; 2.6664830686815777; 2.824885650543277; 2.9431262353642547; 2.413192654601013; 2.6643760889559984; 2.823743643537649; 2.942740708987657; 2.6086721109135027; 2.829628548231472; 2.979192011399964; 3.0939374094097922; 2.604164257218232; 2.8263099196499963; 2.9765996358686118; 3.0919810171775324]);
   ("V_app_infs_COG.z"%string, [0.0; 0.0; 0.0; 0.0; 0.0; 0.0; 0.0; 0.0; 0.0; 0.0; 0.0; 0.0; 0.0; 0.0; 0.0; 0.0]);
   ("V_app_infs_length"%string, [7.889583918604427; 8.250559300324817; 8.480865090490695; 8.653357346522972; 7.884319831241549; 8.24750218706173; 8.479201451128247; 8.652794164282879; 8.166740849246962; 8.487774882635936; 8.706064344956344; 8.874032222908754; 8.160210517674054; 8.482939984496868; 8.702274394630711; 8.871164944257155]);
   ("cp_points_COG.x"%string, [(-3.225845066979269); (-2.493044633067387); (-1.7579893069994212); (-1.0195287101262904); (-1.7598158326886777); (-1.4458733658207077); (-1.1206564381723139); (-0.7784131564980954); 0.5439329630555372; 0.5505181707077357; 0.5457096312384926; 0.5305753334542829; 2.4014728851367186; 2.1908446064996863; 1.923247592255447; 1.6040217864363735]);
   ("cp_points_COG.y"%string, [0.17089944495474885; 0.6480155128638782; 1.1128298030871; 1.5655031065583942; 0.45920859773180356; 0.9191694476849942; 1.3176214092086478; 1.6553684369726636; 0.822282117643061; 1.3772626389951321; 1.9227995283691568; 2.4572795960772233; 1.2614465472034582; 1.8548951966461036; 2.4011256861985166; 2.892072067421138]);
   ("cp_points_COG.z"%string, [2.327827500736773; 4.633388942352096; 6.940699707523941; 9.24930838910382; 2.3032945948380625; 4.607811198704881; 6.921074420354313; 9.240827224043914; 3.974081293648398; 7.022717309184853; 10.072825478266461; 13.1246728394411; 3.9262395454914394; 6.965242472426375; 10.011606167087074; 13.066665822212931]);
   ("cp_points_upright.z"%string, [2.3708473654004196; 4.712826692141067; 7.0543665872993735; 9.395032906088451; 2.374373492975244; 4.7186953980081014; 7.060820145129253; 9.398577010404258; 4.047718391124016; 7.145943746001338; 10.244157697753966; 13.34232800312605; 4.0484605579107225; 7.14714107726053; 10.245764580986867; 13.344169852810493]);
   ("girths"%string, [0.14288746933377744; 0.4285188081741542; 0.7140965532745011; 0.9995677556803532; 0.14331752118292027; 0.4292345644128715; 0.714883638942673; 1.0; 0.142843924703584; 0.4285080511194847; 0.7141711261387693; 0.9998301768526078; 0.14291235433748573; 0.42861844805612104; 0.7143192847916757; 1.0])].

Definition expected_names : list string :=
  ["jib"; "jib"; "jib"; "jib"; "jib"; "jib"; "jib"; "jib"; "main_sail"; "main_sail"; "main_sail"; "main_sail"; "main_sail"; "main_sail"; "main_sail"; "main_sail"]%string.
