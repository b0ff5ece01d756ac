*.vo
*.vos
*.vok
*.glob
*.aux
.*.aux
*.d
.lia.cache
.nia.cache
Makefile
Makefile.conf
.Makefile.d
rocq/Makefile
rocq/Makefile.conf
.nra.cache
