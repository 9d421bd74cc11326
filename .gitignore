*.vo
*.vok
*.vos
*.glob
*.aux
.lia.cache
.nia.cache
.*.aux
rocq/Makefile
rocq/Makefile.conf
rocq/.Makefile.d
.nra.cache
