*.vo
*.vok
*.vos
*.glob
*.aux
Makefile
Makefile.conf
.Makefile.d
*.d
.lia.cache
.nia.cache
Makefile
Makefile.conf
.Makefile.d
*.vok
*.vos
.nra.cache
